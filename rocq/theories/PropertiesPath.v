(** C52 (paths as text), C62 (no reads outside the document, for paths) and C63
    (parsing the value at a path). *)
From Coq Require Import String.
From Coq Require Import List NArith ZArith Bool Lia Arith ZifyBool ZifyNat ZifyN.
From Verif Require Import Base Mem Loop PolicyModel IntModel IntProofs StrScanModel SkipModel SpecNum SpecText SpecJson
  SkipProofs SkipSafe HashModel ValueModel NameProofs ClassProofs SpecTyped ScalarProofs ArrayProofs TypedProofs PropertiesTyped SpecValue SpecPath JValueModel JValueProofs
  RawValueProofs StateModel StateProofs StateProofs2 PathModel PathProofs PathProofs2 PropertiesValue.
Import ListNotations.
Local Open Scope N_scope.

(** ** C52 *)

(** Looking up the text of a path reaches the value the path leads to. *)
Theorem C52_lookup_partial : forall g buf v p path t w, covered g -> N.of_nat (length buf) < 2^32 -> value_at buf v p ->
  leads (names_ok g) v path w -> path_text path t ->
  exists r, find_member g buf p t = Ok r /\ value_at buf w r.
Proof. intros g buf v p path t w HG H32 HV HL HT. unfold find_member. eapply (find_member_leads g HG buf H32); eauto. Qed.
Print Assumptions C52_lookup_partial.

(** The rendered text is the text of the path, each name preceded by a dot. *)
Theorem C52_render_partial : forall path, Forall renderable path -> rest_text path (to_json_path_string (map node_of path)).
Proof. exact render_text. Qed.
Print Assumptions C52_render_partial.

(** A rendered path is found when it starts with an index, and in any case
    without its leading dot. *)
Theorem C52_rendered_partial : forall g buf v p path w, covered g -> N.of_nat (length buf) < 2^32 -> value_at buf v p ->
  leads (names_ok g) v path w -> Forall renderable path ->
  (exists r, find_member g buf p (strip_dot (to_json_path_string (map node_of path))) = Ok r /\ value_at buf w r) /\
  (match path with SName _ :: _ => False | _ => True end ->
   exists r, find_member g buf p (to_json_path_string (map node_of path)) = Ok r /\ value_at buf w r).
Proof.
  intros g buf v p path w HG H32 HV HL HR. pose proof (render_text path HR) as RT. destruct (rest_strip _ _ RT) as [PT _]. split.
  - eapply C52_lookup_partial; eauto.
  - intros NP. eapply C52_lookup_partial; eauto. destruct path as [|[k|i] path]; [exact RT|contradiction|exact RT].
Qed.
Print Assumptions C52_rendered_partial.

(** A rendered path that starts with a name finds nothing in any object without a
    member of empty name. *)
Lemma rendered_name_lost : forall g buf js p k path, covered g -> N.of_nat (length buf) < 2^32 -> value_at buf (JObj js) p ->
  names_ok g (JObj js) -> ~ In [] (map fst js) -> Forall renderable (SName k :: path) ->
  find_member g buf p (to_json_path_string (map node_of (SName k :: path))) = Ok null_state.
Proof.
  intros g buf js p k path HG H32 HV OK NE HR. pose proof (render_text _ HR) as RT.
  remember (to_json_path_string (map node_of (SName k :: path))) as txt eqn:ET. clear ET.
  inversion RT as [|k' path' t SK RT' E1 E2|]; subst k' path' txt. unfold find_member. cbn [length loop].
  destruct (C37_by_name_partial g HG buf H32 js p [] HV OK ltac:(intros [])) as (q & EQ & [(i & w & FN & NT & _)|[_ ->]]).
  { exfalso. apply NE. apply nth_error_In in NT. apply (in_map fst) in NT. exact NT. }
  assert (PB : path_body g buf (46 :: k ++ t, p) = Ok (inl (k ++ t, null_state))).
  { unfold path_body. rewrite (C36_type_partial buf H32 _ _ HV). cbn [bind kind_of base_type_eqb].
    change (pop_until_sep false (46 :: k ++ t)) with (@nil N, 46 :: k ++ t). change (46 =? c_lbrack) with false. cbv iota beta zeta.
    rewrite EQ. reflexivity. }
  rewrite PB. cbn [bind length loop]. destruct SK as [NK _]. destruct k as [|c r]; [congruence|]. reflexivity.
Qed.

(** ** find_range *)

Theorem C52_find_range_partial : forall g doc v w0 tx w1 path t w, covered g -> is_bytes doc -> N.of_nat (length doc) < 2^32 ->
  doc = w0 ++ tx ++ w1 -> ws w0 -> jtext str_body v tx -> ws w1 -> v <> JNull ->
  leads (names_ok g) v path w -> path_text path t \/ rest_text path t -> lone false path ->
  exists r, find_range g doc t = Ok (r, true) /\ value_at doc w r.
Proof.
  intros g doc v w0 tx w1 path t w [HX HE] HB H32 ED W0 HT W1 NN HL PT LO.
  destruct (C36_root_partial doc v w0 tx w1 HB ED W0 HT W1 NN) as (p & EP & VP). unfold jvalue in EP. unfold find_range. rewrite EP. cbn [bind].
  destruct t as [|c t0] eqn:ET.
  { assert (path = []).
    { destruct PT as [PT|PT]; [|inversion PT; reflexivity]. destruct path as [|[k|i] path]; [reflexivity| |inversion PT].
      destruct PT as (r & E & [NE _] & _). destruct k; [congruence|discriminate]. }
    subst path. inversion HL; subst. eauto. }
  rewrite <- ET in *. assert (HM : has_more p = true).
  { destruct VP as (_ & t1 & j & T1 & _ & FJ & _). pose proof (followed_le _ _ _ _ _ FJ) as FL.
    destruct (jtext_head _ _ _ T1) as (x & r & -> & _). unfold has_more. cbn [length] in FL. lia. }
  rewrite HM. unfold find_range2.
  assert (PP : exists m c' r', pop_json_path t = (m, c', r') /\ popped path m c' r').
  { assert (NAME : forall k path' r, simple k -> rest_text path' r -> exists m c' r', pop_json_path (k ++ r) = (m, c', r') /\ popped (SName k :: path') m c' r').
    { intros k path' r SK HR. destruct (pop_name k path' r SK HR) as (c' & r' & E & PO). exists k, c', r'. split; [|exact PO].
      unfold pop_json_path. rewrite (strip_again (SName k :: path')); [exact E|]. cbn [path_text]. eauto. }
    destruct path as [|[k|i] path].
    - destruct PT as [PT|PT]; inversion PT; subst; discriminate.
    - destruct PT as [(r & -> & SK & HR)|PT]; [now apply NAME|]. inversion PT as [|k' path' r SK HR E1 E2|]; subst k' path'.
      destruct (pop_name k path r SK HR) as (c' & r' & E & PO). exists k, c', r'. split; [|exact PO]. exact E.
    - destruct LO. discriminate. }
  destruct PP as (m & c' & r' & -> & PO). eapply (find_range2_ok g HX HE doc H32); eauto. pose proof (popped_length _ _ _ _ PO). lia.
Qed.
Print Assumptions C52_find_range_partial.

(** ** C62: any path over any document *)

Lemma eight_total : forall buf i, (i + 8 <= length buf)%nat -> exists v, parse_8_digits buf i = Ok v.
Proof.
  intros buf i L. unfold parse_8_digits, rd64.
  assert (R : forall k, (k < 8)%nat -> exists b, rd buf (i + k) = Ok b).
  { intros k HK. destruct (rd_in buf (i + k)) as (b & Hb); [lia|]. exists b. now apply rd_some. }
  destruct (R 0%nat) as (b0 & E0); [lia|]. rewrite Nat.add_0_r in E0. rewrite E0. cbn [bind].
  destruct (R 1%nat) as (b1 & E1); [lia|]. rewrite E1. cbn [bind].
  destruct (R 2%nat) as (b2 & E2); [lia|]. rewrite E2. cbn [bind].
  destruct (R 3%nat) as (b3 & E3); [lia|]. rewrite E3. cbn [bind].
  destruct (R 4%nat) as (b4 & E4); [lia|]. rewrite E4. cbn [bind].
  destruct (R 5%nat) as (b5 & E5); [lia|]. rewrite E5. cbn [bind].
  destruct (R 6%nat) as (b6 & E6); [lia|]. rewrite E6. cbn [bind].
  destruct (R 7%nat) as (b7 & E7); [lia|]. rewrite E7. cbn [bind]. eauto.
Qed.

Lemma known16_total : forall fuel buf i last acc, (last <= length buf)%nat -> (last - i < fuel)%nat ->
  exists j a, known16 fuel buf i last acc = Ok (j, a).
Proof.
  induction fuel as [|f IH]; intros buf i last acc HL HF; [lia|]. cbn [known16]. destruct (Nat.leb_spec 16 (last - i)); [|eauto].
  unfold parse_16_digits. destruct (eight_total buf i) as (v & ->); [lia|]. cbn [bind].
  destruct (eight_total buf (i + 8)) as (v2 & ->); [lia|]. cbn [bind]. apply IH; lia.
Qed.

Lemma known1_total : forall fuel buf i last acc, (last <= length buf)%nat -> (last - i < fuel)%nat ->
  exists j a, known1 fuel buf i last acc = Ok (j, a).
Proof.
  induction fuel as [|f IH]; intros buf i last acc HL HF; [lia|]. cbn [known1]. destruct (Nat.ltb_spec i last); [|eauto].
  destruct (rd_in buf i) as (b & Hb); [lia|]. rewrite (rd_some _ _ _ Hb). cbn [bind]. apply IH; lia.
Qed.

Lemma path_index_total : forall text, exists n, path_index text = Ok n.
Proof.
  intros text. unfold path_index, unsigned_parser_known. cbn [first last new_ps].
  destruct (known16_total (S (length text - 0)) text 0 (length text) 0) as (i & a & ->); [lia|lia|]. cbn [bind].
  assert (X : exists j b, (if (8 <=? length text - i)%nat then v <- parse_8_digits text i ;; Ok ((i + 8)%nat, accum a 100000000 v) else Ok (i, a)) = Ok (j, b)).
  { destruct (Nat.leb_spec 8 (length text - i)); [|eauto]. destruct (eight_total text i) as (v & ->); [lia|]. cbn [bind]. eauto. }
  destruct X as (j & b & ->). cbn [bind].
  destruct (known1_total (S (length text - j)) text j (length text) b) as (k & c & ->); [lia|lia|]. cbn [bind]. eauto.
Qed.

Definition found (buf : list N) (l : nat) (r : ps) : Prop := r = null_state \/ raw_value buf l r.

Lemma by_name_raw : forall g buf l v name, raw_value buf l v -> outcome_ok (found buf l) (jv_find_class_member g buf v name).
Proof.
  intros g buf l v name RV. pose proof RV as (_ & EL & _). rewrite <- EL in *. unfold jv_find_class_member. pose proof (jtype_safe buf v RV) as JT.
  destruct (jtype buf v) as [t| | |] eqn:ET; cbn [bind outcome_ok] in *; auto.
  destruct t; cbn [base_type_eqb negb]; try (left; reflexivity).
  assert (CL : (first v < last v)%nat /\ nth_error buf (first v) = Some 123).
  { unfold jtype, has_more in ET. destruct (Nat.ltb_spec (first v) (last v)); cbn [negb] in ET; [|discriminate]. split; auto.
    unfold front in ET. destruct RV as (_ & _ & L & _). destruct (rd_in buf (first v)) as (c & Hc); [lia|]. rewrite (rd_some _ _ _ Hc) in ET. cbn [bind] in ET.
    unfold c_quote, c_lbrace, c_lbrack in ET.
    destruct (N.eqb_spec c 34); [discriminate|]. destruct (N.eqb_spec c 123); [congruence|]. destruct (c =? 91); [discriminate|].
    destruct ((c =? c_minus) || ((48 <=? c) && (c <=? 57))); [discriminate|].
    destruct (c =? c_t); [destruct (starts_with buf v _) as [[]| | |]; discriminate|].
    destruct (c =? c_f); [destruct (starts_with buf v _) as [[]| | |]; discriminate|].
    destruct (c =? c_n); [destruct (starts_with buf v _) as [[]| | |]; discriminate|discriminate]. }
  destruct CL as [L C].
  eapply outcome_ok_bind; [apply it_begin_raw; exact RV|]. intros b RB.
  eapply outcome_ok_bind; [apply (find_if_raw g buf v); auto; [congruence|]|].
  { intros n. unfold name_pred. destruct (existsb _ name); cbn; auto. }
  intros p RP. eapply outcome_ok_bind; [apply (it_eq_raw _ _ _ _ RP)|]. intros [] _; [cbn; left; reflexivity|].
  eapply outcome_ok_bind; [apply (it_deref_raw g buf (first v) (last v)); auto|]. intros [n w] [W _]. cbn. right. exact W.
Qed.

Lemma by_index_raw : forall g buf l v index, raw_value buf l v -> (first v < last v)%nat -> outcome_ok (found buf l) (find_element g buf v index).
Proof.
  intros g buf l v index RV L. pose proof RV as (_ & EL & _). rewrite <- EL in *. unfold find_element.
  eapply outcome_ok_bind; [apply it_begin_raw; exact RV|]. intros b RB.
  eapply outcome_ok_bind; [apply (element_raw g buf _ _ L); exact RB|]. intros [i p] RP. cbn [snd] in RP.
  destruct i; [|cbn; left; reflexivity]. eapply outcome_ok_bind; [apply (it_deref_raw g buf (first v) (last v)); auto|]. intros [n w] [W _]. right. exact W.
Qed.

Lemma pop_byte_le : forall c t, (length (snd (pop_until_byte c t)) <= length t - 1)%nat.
Proof.
  intros c t. induction t as [|x t IH]; [cbn; lia|]. cbn [pop_until_byte]. destruct (x =? c); cbn [snd length]; [lia|].
  destruct (pop_until_byte c t) as [m r]. cbn [snd] in *. lia.
Qed.

Lemma pop_sep_le : forall t esc, (length (snd (pop_until_sep esc t)) <= length t)%nat.
Proof.
  induction t as [|x t IH]; intros esc; [cbn; lia|]. cbn [pop_until_sep]. destruct (negb esc && ((x =? c_dot) || (x =? c_lbrack))); cbn [snd length]; [lia|].
  specialize (IH (negb esc && (x =? c_bslash))). destruct (pop_until_sep _ t) as [m r]. cbn [snd] in *. lia.
Qed.

Lemma strip_dot_le : forall t, (length (strip_dot t) <= length t)%nat.
Proof. intros [|x t]; cbn [strip_dot]; [lia|]. destruct (x =? c_dot); cbn [length]; lia. Qed.

Lemma find_member_raw : forall g buf l v path, raw_value buf l v -> outcome_ok (found buf l) (find_member g buf v path).
Proof.
  intros g buf l v path RV. unfold find_member.
  apply (loop_inv _ (fun s => length (fst s)) (fun s => found buf l (snd s))); [|right; exact RV|cbn [fst]; lia].
  intros [t u] FU. cbn [fst snd] in *. unfold path_body. destruct t as [|c t]; [exact FU|].
  assert (JT : outcome_ok (fun k => k <> BNone -> raw_value buf l u /\ (first u < last u)%nat) (jtype buf u)).
  { destruct FU as [->|RU]; [cbn; congruence|]. pose proof RU as (_ & EL & _). pose proof (jtype_safe buf u) as JS. rewrite EL in JS. specialize (JS RU).
    destruct (jtype buf u) as [k| | |] eqn:EK; cbn [outcome_ok] in *; auto. intros NB. split; [exact RU|].
    unfold jtype, has_more in EK. destruct (Nat.ltb_spec (first u) (last u)); auto. cbn [negb] in EK. congruence. }
  eapply outcome_ok_bind; [exact JT|]. intros k HK. cbn beta in HK. destruct (base_type_eqb k BNone) eqn:EB; [exact FU|].
  destruct HK as [RU LU]; [intros ->; discriminate|].
  set (mp := if c =? c_lbrack then pop_until_byte c_rbrack (c :: t) else pop_until_sep false (c :: t)).
  assert (LM : (length (strip_dot (snd mp)) <= length t)%nat).
  { pose proof (strip_dot_le (snd mp)) as SD. unfold mp in *. destruct (N.eqb_spec c c_lbrack) as [->|NE].
    - pose proof (pop_byte_le c_rbrack (c_lbrack :: t)) as PB. cbn [length] in PB. lia.
    - cbn [pop_until_sep negb andb] in *. destruct (N.eqb_spec c c_dot) as [->|ND].
      + cbn [orb snd strip_dot]. change (c_dot =? c_dot) with true. cbn iota. lia.
      + rewrite (proj2 (N.eqb_neq c c_lbrack) NE) in *. cbn [orb] in *. pose proof (pop_sep_le t (c =? c_bslash)) as PS.
        destruct (pop_until_sep (c =? c_bslash) t) as [m r]. cbn [snd] in *. lia. }
  clearbody mp. destruct mp as [member path']. cbn [snd] in LM. cbv zeta.
  assert (NM : outcome_ok (fun r => match r with inl s' => found buf l (snd s') /\ (length (fst s') < length (c :: t))%nat | inr a => found buf l a end)
     (v0 <- jv_find_class_member g buf u member ;; Ok (inl (strip_dot path', v0)))).
  { eapply outcome_ok_bind; [apply (by_name_raw g buf l); exact RU|]. intros w HW. cbn [outcome_ok fst snd length]. split; [exact HW|lia]. }
  destruct member as [|x text]; [exact NM|]. destruct (x =? c_lbrack); [|exact NM].
  destruct (path_index_total text) as (i & ->). cbn [bind].
  eapply outcome_ok_bind; [unfold find_element64; apply (by_index_raw g buf l); [exact RU|exact LU]|]. intros w HW. cbn [outcome_ok fst snd length].
  split; [exact HW|]. pose proof (strip_dot_le (strip_dot path')). lia.
Qed.

(** Whatever the bytes of the document and of the path *)
Theorem C62_path_partial : forall g buf v path, is_bytes buf -> reached g buf v -> safe (find_member g buf v path).
Proof. intros g buf v path HB HR. eapply safe_of. apply find_member_raw. exact (reached_raw g buf v HB HR). Qed.
Print Assumptions C62_path_partial.

(** ** C63 *)

Theorem C63_partial : forall g t v x doc w0 tx w1 path ptx w, covered g -> is_bytes doc -> N.of_nat (length doc) < 2^32 ->
  doc = w0 ++ tx ++ w1 -> ws w0 -> jtext str_body v tx -> ws w1 -> v <> JNull ->
  leads (names_ok g) v path w -> path_text path ptx -> typed (usable g) t w x ->
  from_json_path g false t doc ptx = Ok x.
Proof.
  intros g t v x doc w0 tx w1 path ptx w HG HB H32 ED W0 HT W1 NN HL PT TY.
  destruct (C36_root_partial doc v w0 tx w1 HB ED W0 HT W1 NN) as (p & EP & VP).
  destruct (C52_lookup_partial g doc v p path ptx w HG H32 VP HL PT) as (r & ER & VR).
  unfold from_json_path.
  destruct (jtext_last _ _ _ HT) as (rl & cl & EL & NL).
  assert (LD : (0 < length doc)%nat) by (rewrite ED, EL, !app_length; cbn [length]; lia).
  replace (length doc =? 0)%nat with false by lia. cbn [negb ensure bind].
  destruct (rd_in doc (length doc - 1)) as (zb & Hz); [lia|]. rewrite (rd_some _ _ _ Hz). cbn [bind].
  assert (NZ : zb <> 0).
  { intros ->. assert (LW : exists r c, doc = r ++ [c] /\ c <> 0).
    { rewrite ED. destruct w1 as [|y w1'] using rev_ind.
      - exists (w0 ++ rl), cl. rewrite EL, app_nil_r, <- app_assoc. auto.
      - exists (w0 ++ tx ++ w1'), y. rewrite <- !app_assoc. split; [reflexivity|]. apply Forall_app in W1 as [_ W1]. apply Forall_inv in W1. unfold json_ws in W1. lia. }
    destruct LW as (r0 & c0 & E0 & N0). rewrite E0, app_length in Hz. cbn [length] in Hz. rewrite nth_error_app2 in Hz by lia.
    replace (length r0 + 1 - 1 - length r0)%nat with 0%nat in Hz by lia. cbn in Hz. congruence. }
  rewrite (proj2 (N.eqb_neq zb 0) NZ). rewrite EP. cbn [bind]. rewrite ER. cbn [bind].
  rewrite (C36_type_partial doc H32 _ _ VR). cbn [bind]. replace (base_type_eqb (kind_of w) BNone) with false by (now destruct w).
  destruct VR as (HW & tw & j & HTw & HS & FJ & NV). destruct HG as [HX HE].
  assert (NC : forall names k, usable g names k -> name_ok g k /\ tells g names k) by auto.
  destruct (proj1 (typed_reads g HX HE (usable g) NC t w x TY) doc r tw j) as (q & E & _); auto.
  rewrite E. reflexivity.
Qed.
Print Assumptions C63_partial.

(** ** Findings *)

(** C52: the path [a] is rendered with a leading dot, and so nothing is found
    (for every object and path that starts with a name, see
    [rendered_name_lost]). *)
Theorem C52_rendered_refuted : exists v path w, jtext rfc_body v (vdoc "{'a':1}") /\ leads (names_ok default_cfg) v path w /\ Forall renderable path /\
  to_json_path_string (map node_of path) = bytes ".a" /\
  find_member default_cfg (vdoc "{'a':1}") (root "{'a':1}") (to_json_path_string (map node_of path)) = Ok null_state.
Proof.
  exists (JObj [([97], JNum [49])]), [SName [97]], (JNum [49]). split; [|split; [|split; [|split; [reflexivity|vm_compute; reflexivity]]]].
  - change (vdoc "{'a':1}") with (123 :: ([] ++ (34 :: [97] ++ [34]) ++ [] ++ 58 :: [] ++ [49] ++ []) ++ [125]).
    apply t_obj. apply m_one; try (constructor; fail).
    + apply rb_plain; [lia|lia|lia|constructor].
    + constructor. apply digit_num. lia.
  - apply l_name with (i := 0%nat) (w := JNum [49]); [|exists [], (JNum [49]), []; repeat split; intros []|reflexivity|constructor].
    constructor; [|constructor]. cbn [fst]. unfold name_ok. repeat (split || constructor || discriminate || lia || (intros [X|[]]; discriminate)).
  - constructor; [|constructor]. split; [discriminate|]. constructor; [lia|constructor].
Qed.
Print Assumptions C52_rendered_refuted.

(** C52: find_range takes a leading index for the whole document, stops at the
    second of two indices, finds an element that is not there (the closing
    bracket is at 9), and throws for a name in an empty object where it answers
    [not found] in another. *)
Theorem C52_find_range_refuted :
  (exists r, find_range default_cfg (vdoc "[1,2]") (bytes "[1]") = Ok (r, true) /\ first r = 0%nat) /\
  (exists r r', find_range default_cfg (vdoc "{'a':[[5,6],7]}") (bytes "a[0][1]") = Ok (r, true) /\
     find_range default_cfg (vdoc "{'a':[[5,6],7]}") (bytes "a[0]") = Ok (r', true) /\ r = r') /\
  (exists r, find_range default_cfg (vdoc "{'a':[5,6]}") (bytes "a[2]") = Ok (r, true) /\ first r = 9%nat /\ nth_error (vdoc "{'a':[5,6]}") 9 = Some 93) /\
  find_range default_cfg (vdoc "{}") (bytes "b") = Err InvalidMemberName /\
  (exists r, find_range default_cfg (vdoc "{'a':1}") (bytes "b") = Ok (r, false)).
Proof.
  split; [eexists; split; [vm_compute; reflexivity|reflexivity]|].
  split; [do 2 eexists; split; [vm_compute; reflexivity|split; [vm_compute; reflexivity|reflexivity]]|].
  split; [eexists; split; [vm_compute; reflexivity|split; reflexivity]|].
  split; [vm_compute; reflexivity|]. eexists. vm_compute. reflexivity.
Qed.
Print Assumptions C52_find_range_refuted.

(** C63: with the end of the data verified, what follows the value in the same
    document is taken for garbage. *)
Theorem C63_verify_refuted :
  from_json_path default_cfg false (TUInt 32 false) (vdoc "{'a':1,'b':2}") (bytes "a") = Ok (VInt 1) /\
  from_json_path default_cfg true (TUInt 32 false) (vdoc "{'a':1,'b':2}") (bytes "a") = Err InvalidEndOfValue /\
  from_json_path default_cfg true (TUInt 32 false) (vdoc "{'a':1}") (bytes "a") = Err InvalidEndOfValue.
Proof. split; [vm_compute; reflexivity|]. split; vm_compute; reflexivity. Qed.
Print Assumptions C63_verify_refuted.

(** ** Examples *)

Definition ex52 : string := " { 'x' : null, 'k' : [ [1,2] , {'b' : 3, 'b':4} ] } ".
Definition ex52_v : ps := set_first (root ex52) 1.

Example ex52_lookup : exists r, find_member default_cfg (vdoc ex52) ex52_v (bytes "k[1].b") = Ok r /\
  get_string_view default_cfg (vdoc ex52) r = Ok (bytes "3").
Proof. eexists. split; [vm_compute; reflexivity|vm_compute; reflexivity]. Qed.

Example ex52_text : path_text [SName (bytes "k"); SIndex 1; SName (bytes "b")] (bytes "k[1].b").
Proof.
  exists (bytes "[1].b"). split; [reflexivity|]. split; [split; [discriminate|]; vm_compute; repeat constructor; discriminate|].
  change (bytes "[1].b") with (91 :: [49] ++ 93 :: 46 :: [98] ++ []). apply rt_index; [|reflexivity|].
  - split; [repeat constructor; unfold is_dig; lia|]. split; [discriminate|]. intros r E. discriminate E.
  - apply rt_name; [|constructor]. split; [discriminate|]. constructor; [lia|constructor].
Qed.

Example ex52_leads : leads (names_ok default_cfg) (JObj [([120], JNull); ([107], JArr [JArr []; JObj [([98], JNum [51]); ([98], JNum [52])]])])
  [SName [107]; SIndex 1; SName [98]] (JNum [51]).
Proof.
  assert (NK : forall c, c = 120 \/ c = 107 \/ c = 98 -> name_ok default_cfg [c]).
  { intros c H. unfold name_ok. repeat (split || constructor || discriminate || lia || (intros [X|[]]; lia)). }
  apply l_name with (i := 1%nat) (w := JArr [JArr []; JObj [([98], JNum [51]); ([98], JNum [52])]]); [| |reflexivity|].
  - cbn. repeat (constructor; [apply NK; cbn [fst]; lia|]). constructor.
  - exists [([120], JNull)], (JArr [JArr []; JObj [([98], JNum [51]); ([98], JNum [52])]]), []. repeat split. intros [X|[]]. discriminate.
  - apply l_index with (w := JObj [([98], JNum [51]); ([98], JNum [52])]); [reflexivity|].
    apply l_name with (i := 0%nat) (w := JNum [51]); [| |reflexivity|constructor].
    + cbn. repeat (constructor; [apply NK; cbn [fst]; lia|]). constructor.
    + exists [], (JNum [51]), [([98], JNum [52])]. repeat split. intros [].
Qed.

Example ex52_range : exists r, find_range default_cfg (vdoc ex52) (bytes ".k[1].b") = Ok (r, true) /\
  get_string_view default_cfg (vdoc ex52) r = Ok (bytes "3") /\ lone false [SName (bytes "k"); SIndex 1; SName (bytes "b")].
Proof. eexists. split; [vm_compute; reflexivity|]. split; [vm_compute; reflexivity|]. cbn. auto. Qed.

Example ex62_path : reached default_cfg (vdoc "[[[") (root "[[[") /\ find_member default_cfg (vdoc "[[[") (root "[[[") (bytes "[0][0][0]") = Ok (mkps 3 3 (Some 3%nat) (Some 3%nat) 0 false).
Proof. split; [apply at_root; vm_compute; reflexivity|vm_compute; reflexivity]. Qed.

Example ex63 : from_json_path default_cfg false (TArr (TUInt 8 true)) (vdoc ex52) (bytes "k[0]") = Ok (VArr [VInt 1; VInt 2]).
Proof. vm_compute. reflexivity. Qed.
