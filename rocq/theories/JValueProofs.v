(** Iterators and lookups of json_value on well-formed text. *)
From Coq Require Import List NArith ZArith Bool Lia Arith ZifyBool ZifyNat ZifyN.
From Verif Require Import Base Mem Loop PolicyModel IntModel StrScanModel SkipModel SpecNum SpecText SpecJson SpecUnicode
  IntValueProofs StrScanProofs StrScanProofs2 StrScanProofs3 SkipProofs BracketProofs SkipSafe PropertiesStr PropertiesSkip
  StrDecodeModel StrDecodeProofs HashModel PropertiesHash ValueModel NameProofs ClassProofs ClassProofs2 ScalarProofs ArrayProofs
  JValueModel SpecValue.
Import ListNotations.
Local Open Scope N_scope.

Lemma good_null : forall buf, JValueModel.good buf null_state = Ok false.
Proof. reflexivity. Qed.

Lemma it_eq_end : forall buf p b, JValueModel.good buf p = Ok b -> it_eq buf p null_state = Ok (negb b).
Proof. intros buf p b H. unfold it_eq. rewrite H, good_null. cbn [bind]. now destruct b. Qed.

Definition restated (p : ps) : ps := mkps (first p) (last p) (Some (first p)) (Some (last p)) 0 false.

Lemma restate_ok : forall p, isnull p = false -> restate p = restated p.
Proof. intros p H. unfold restate. now rewrite H. Qed.

Lemma wf_restate : forall buf p, wf buf p -> wf buf (restated p).
Proof.
  intros buf p (HB & HN & HL & cl & HC & HCL). split; [exact HB|]. split; [reflexivity|]. split; [exact HL|].
  exists (last p). cbn [restated clast last]. split; [reflexivity|lia].
Qed.

(** First byte of a value *)
Lemma jtext_first : forall v t, jtext str_body v t -> exists c r, t = c :: r /\
  (c = 91 \/ c = 123 \/ c = 34 \/ c = 45 \/ (48 <= c <= 57) \/ c = 116 \/ c = 102 \/ c = 110).
Proof.
  intros v t HT. destruct HT as [| | |n HJ| | | | |]; try (do 2 eexists; split; [reflexivity|lia]).
  destruct HJ as [sg i f e Hsg (Di & Ni & _) Hf He]. destruct Hsg as [->| ->]; cbn [app].
  - destruct i as [|d i]; [congruence|]. cbn [app]. do 2 eexists; split; [reflexivity|]. inversion Di; subst. unfold is_dig in *. lia.
  - do 2 eexists; split; [reflexivity|lia].
Qed.

Lemma good_yes : forall buf p c, nth_error buf (first p) = Some c -> (first p < last p)%nat -> isnull p = false ->
  (c = 91 \/ c = 123 \/ c = 34 \/ c = 45 \/ (48 <= c <= 57) \/ c = 116 \/ c = 102 \/ c = 110) -> JValueModel.good buf p = Ok true.
Proof.
  intros buf p c H L N C. unfold JValueModel.good, has_more, front. rewrite (proj2 (Nat.ltb_lt _ _) L), N. cbn [negb orb].
  rewrite (rd_some _ _ _ H). cbn [bind]. unfold c_lbrack, c_lbrace, c_quote, c_minus, c_t, c_f, c_n.
  match goal with |- (if ?b then _ else _) = _ => replace b with true by lia end. reflexivity.
Qed.

Lemma good_no : forall buf p c, nth_error buf (first p) = Some c -> c = 125 \/ c = 93 -> JValueModel.good buf p = Ok false.
Proof.
  intros buf p c H C. unfold JValueModel.good, front. destruct (negb (has_more p) || isnull p); [reflexivity|].
  rewrite (rd_some _ _ _ H). cbn [bind]. destruct C as [->| ->]; reflexivity.
Qed.

Section Cfg.
  Context (g : cfg).
  Hypothesis HX : c_ex g = ExConstexpr.
  Hypothesis HE : c_excl g = false.
  Context (buf : list N).
  Hypothesis H32 : N.of_nat (length buf) < 2^32.

  (** What an iterator at [p] has still to visit. *)
  Inductive it_at (p : ps) : list (option (list N) * jv) -> Prop :=
  | it_class : forall e c rest, wf buf p -> (e < last p)%nat -> cfirst p = Some c -> nth_error buf c = Some 123 ->
      at_member buf (first p) e rest -> Forall (fun m => name_ok g (fst m)) rest ->
      it_at p (map named rest)
  | it_array : forall e c rest, wf buf p -> (e < last p)%nat -> cfirst p = Some c -> nth_error buf c = Some 91 ->
      at_elem buf (first p) e rest ->
      it_at p (map unnamed rest).

  Lemma it_at_wf : forall p rest, it_at p rest -> wf buf p.
  Proof. now destruct 1. Qed.

  Lemma it_good : forall p rest, it_at p rest ->
    JValueModel.good buf p = Ok (match rest with [] => false | _ => true end).
  Proof.
    intros p rest [e c ms (HB & HN & HL & _) L CF CB HA FN|e c es (HB & HN & HL & _) L CF CB HA].
    - destruct (at_member_byte _ _ _ _ HA) as (b & Hb & EB). pose proof (at_member_end _ _ _ _ HA) as [LE _].
      destruct ms as [|m ms]; cbn [map]; subst b.
      + eapply good_no; eauto.
      + eapply good_yes; eauto; lia.
    - destruct es as [|v es]; cbn [map].
      + destruct HA as [_ HA]. eapply good_no; eauto.
      + destruct (at_elem_cons _ _ _ _ _ HA) as (t & Ht & HS & HR). destruct (jtext_first _ _ Ht) as (b & r & -> & HC).
        pose proof (at_elem_end _ _ _ _ HA) as [LE _]. eapply good_yes; [apply HS|lia|exact HN|exact HC].
  Qed.

  Lemma it_stop : forall p rest, it_at p rest ->
    it_eq buf p null_state = Ok (match rest with [] => true | _ => false end).
  Proof. intros p rest H. rewrite (it_eq_end _ _ _ (it_good _ _ H)). now destruct rest. Qed.

  (** A member: its name is read and its value is at the place reached. *)
  Lemma member_here : forall p e k v rest, wf buf p -> (e < last p)%nat -> name_ok g k -> at_member buf (first p) e ((k, v) :: rest) ->
    exists i t j, parse_name g buf p = Ok (k, set_first p i) /\ jtext str_body v t /\ sub_at buf i t /\
      followed true buf (i + length t) j (last p) /\ (first p < i)%nat /\ (j <= e)%nat /\
      forall n, (i + length t <= n <= j)%nat -> rem buf n e rest.
  Proof.
    intros p e k v rest HW L NK HA. pose proof HW as (HB & HN & HL & cl & HC & HCL).
    destruct (at_member_cons _ _ _ _ _ _ HA) as (w2 & w3 & t & Hk & W2 & W3 & Ht & HS & HRem).
    destruct (rem_followed _ _ _ _ (last p) HRem L) as (j & FJ & JE & RJ).
    pose proof (followed_le _ _ _ _ _ FJ) as FL.
    destruct (jtext_head _ _ _ Ht) as (c & r & ET & ST). pose proof HS as HS0.
    destruct HS as [_ B]. apply sub_at_app in B as [B1 [B2 B]]. apply sub_at_app in B as [B3 [B4 B]]. apply sub_at_app in B as [B5 B6].
    exists (first p + length k + length w2 + length w3 + 3)%nat, t, j.
    split; [|split; [exact Ht|split; [|split; [exact FJ|split; [lia|split; [exact JE|exact RJ]]]]]].
    - apply parse_name_ok with (c := c); auto; try lia.
      + split; [apply HS0|]. apply sub_at_app. split; [exact B1|]. split; [exact B2|]. apply sub_at_app. split; [exact B3|].
        split; [exact B4|]. apply sub_at_app. split; [exact B5|]. subst t. split; [apply B6|exact I].
      + apply ST.
    - match goal with H : sub_at buf ?a t |- sub_at buf ?b t => now replace b with a by lia end.
  Qed.

  Lemma here_value : forall p i v t j, wf buf p -> (first p <= i)%nat -> jtext str_body v t -> sub_at buf i t ->
    followed true buf (i + length t) j (last p) -> (v = JNull -> (i + 4 < last p)%nat) ->
    exists r, jvalue buf (restate (set_first p i)) = Ok r /\ value_at buf v r.
  Proof.
    intros p i v t j HW LI Ht HS FJ NV. pose proof (followed_le _ _ _ _ _ FJ) as FL.
    assert (W1 : wf buf (set_first p i)) by (apply (moved_wf buf p); auto; [apply moved_first|cbn [first last set_first]; lia]).
    apply wf_restate in W1. destruct (jtext_head _ _ _ Ht) as (c & r & ET & ST).
    unfold jvalue. rewrite restate_ok by apply HW. rewrite (trim_here buf _ c); [|apply HW|cbn [first restated set_first]; subst t; apply HS|apply ST].
    eexists. split; [reflexivity|]. split; [exact W1|]. exists t, j. cbn [first last restated set_first]. repeat split; auto.
  Qed.

  Lemma it_deref_ok : forall p n v rest, it_at p ((n, v) :: rest) ->
    exists r, it_deref g buf p = Ok (n, r) /\ value_at buf v r.
  Proof.
    intros p n v rest H. remember ((n, v) :: rest) as all eqn:EA.
    destruct H as [e c ms HW L CF CB HA FN|e c es HW L CF CB HA].
    - destruct ms as [|[k v'] ms]; [discriminate|]. cbn in EA. injection EA as <- <- <-. inversion FN; subst. cbn [fst] in *.
      destruct (member_here p e k v' ms) as (i & t & j & EN & Ht & HS & FJ & LI & LJ & HR); auto.
      unfold it_deref, class_is. rewrite CF, (rd_some _ _ _ CB). cbn [bind]. change (123 =? c_lbrack) with false. cbn iota.
      rewrite EN. cbn [bind]. destruct (here_value p i v' t j HW ltac:(lia) Ht HS FJ) as (r & E & V).
      { intros ->. inversion Ht; subst. pose proof (followed_le _ _ _ _ _ FJ). cbn [length] in *. lia. }
      rewrite E. cbn [bind]. eauto.
    - destruct es as [|v' es]; [discriminate|]. cbn in EA. injection EA as <- <- <-.
      destruct (at_elem_cons _ _ _ _ _ HA) as (t & Ht & HS & HR).
      destruct (rem_e_followed _ _ _ _ (last p) HR L) as (j & FJ & JE & _).
      unfold it_deref, class_is. rewrite CF, (rd_some _ _ _ CB). cbn [bind]. change (91 =? c_lbrack) with true. cbn iota.
      destruct (here_value p (first p) v' t j HW ltac:(lia) Ht HS FJ) as (r & E & V).
      { intros ->. inversion Ht; subst. pose proof (followed_le _ _ _ _ _ FJ). cbn [length] in *. lia. }
      assert (R : set_first p (first p) = p) by (now destruct p). rewrite R in E. rewrite E. cbn [bind]. eauto.
  Qed.

  Lemma it_name_ok : forall p n v rest, it_at p ((n, v) :: rest) -> it_name g buf p = Ok n.
  Proof.
    intros p n v rest H. remember ((n, v) :: rest) as all eqn:EA.
    destruct H as [e c ms HW L CF CB HA FN|e c es HW L CF CB HA].
    - destruct ms as [|[k v'] ms]; [discriminate|]. cbn in EA. injection EA as <- <- <-. inversion FN; subst. cbn [fst] in *.
      destruct (member_here p e k v' ms) as (i & t & j & EN & Ht & HS & FJ & LI & LJ & HR); auto.
      unfold it_name, class_is. rewrite CF, (rd_some _ _ _ CB). cbn [bind]. change (123 =? c_lbrack) with false. cbn iota.
      rewrite EN. reflexivity.
    - destruct es as [|v' es]; [discriminate|]. cbn in EA. injection EA as <- <- <-.
      unfold it_name, class_is. rewrite CF, (rd_some _ _ _ CB). reflexivity.
  Qed.

  Lemma it_next_ok : forall p m rest, it_at p (m :: rest) ->
    exists q, it_next g buf p = Ok q /\ it_at q rest /\ (first p < first q)%nat /\ last q = last p /\ cfirst q = cfirst p.
  Proof.
    intros p m rest H. pose proof (it_good _ _ H) as GD. cbn iota in GD. remember (m :: rest) as all eqn:EA.
    unfold it_next. rewrite GD. cbn [bind].
    destruct H as [e c ms HW L CF CB HA FN|e c es HW L CF CB HA].
    - destruct ms as [|[k v] ms]; [discriminate|]. cbn [map named] in EA. injection EA as _ <-. inversion FN; subst. cbn [fst] in *.
      destruct (member_here p e k v ms) as (i & t & j & EN & Ht & HS & FJ & LI & LJ & HR); auto.
      unfold class_is. rewrite CF, (rd_some _ _ _ CB). cbn [bind]. change (123 =? c_lbrace) with true. cbn iota.
      rewrite EN. cbn [bind]. pose proof (followed_le _ _ _ _ _ FJ) as FL.
      assert (M1 : moved p (set_first p i)) by (repeat split).
      assert (W1 : wf buf (set_first p i)) by (apply (moved_wf buf p); auto; cbn [first last set_first]; lia).
      destruct (skip_here g HX HE buf (set_first p i) v t j) as (r & q & ES & MQ & LQ & _ & _); auto.
      { cbn [first last set_first]. intros ->. inversion Ht; subst. cbn [length] in *. lia. }
      rewrite ES. cbn [bind]. cbn [first set_first] in LQ. assert (LQl : last q = last p) by apply MQ.
      destruct (move_next_rem buf q e ms) as (i' & EM & LI' & AI); [apply HW|apply HR; lia|lia|].
      exists (set_first q i'). split; [exact EM|]. split; [|cbn [first last set_first cfirst]; split; [lia|]; split; [auto|transitivity (cfirst p); [apply MQ|congruence]]].
      pose proof (at_member_end _ _ _ _ AI) as [LE' _].
      apply it_class with (e := e) (c := c); auto.
      + apply (moved_wf buf q); [repeat split| |cbn [first last set_first]; lia].
        apply (moved_wf buf (set_first p i)); auto. lia.
      + cbn [last set_first]. lia.
      + cbn [cfirst set_first]. rewrite <- CF. apply MQ.
    - destruct es as [|v es]; [discriminate|]. cbn [map] in EA. injection EA as _ <-.
      destruct (at_elem_cons _ _ _ _ _ HA) as (t & Ht & HS & HR).
      destruct (rem_e_followed _ _ _ _ (last p) HR L) as (j & FJ & JE & _ & RJ).
      unfold class_is. rewrite CF, (rd_some _ _ _ CB). cbn [bind]. change (91 =? c_lbrace) with false. cbn [bind].
      pose proof (followed_le _ _ _ _ _ FJ) as FL.
      destruct (skip_here g HX HE buf p v t j) as (r & q & ES & MQ & LQ & _ & _); auto.
      { intros ->. inversion Ht; subst. cbn [length] in *. lia. }
      rewrite ES. cbn [bind]. assert (LQl : last q = last p) by apply MQ.
      assert (LT : (0 < length t)%nat) by (destruct (jtext_head _ _ _ Ht) as (x & r' & -> & _); cbn [length]; lia).
      destruct (move_next_rem_e buf q e es) as (i' & EM & LI' & AI); [apply HW|apply RJ; lia|lia|].
      exists (set_first q i'). split; [exact EM|]. split; [|cbn [first last set_first cfirst]; split; [lia|]; split; [auto|transitivity (cfirst p); [apply MQ|congruence]]].
      pose proof (at_elem_end _ _ _ _ AI) as [LE' _].
      apply it_array with (e := e) (c := c); auto.
      + apply (moved_wf buf q); [repeat split| |cbn [first last set_first]; lia].
        apply (moved_wf buf p); auto. lia.
      + cbn [last set_first]. lia.
      + cbn [cfirst set_first]. rewrite <- CF. apply MQ.
  Qed.

  Lemma it_next_end : forall p, it_at p [] -> it_next g buf p = Ok p.
  Proof. intros p H. unfold it_next. rewrite (it_good _ _ H). reflexivity. Qed.

  Lemma it_begin_ok : forall v p, value_at buf v p -> container v -> names_ok g v ->
    exists q, it_begin buf p = Ok q /\ it_at q (members v) /\ last q = last p /\ cfirst q = Some (first p).
  Proof.
    intros v p (HW & t & j & Ht & HS & FJ & _) CV NV. pose proof (followed_le _ _ _ _ _ FJ) as FL. unfold it_begin.
    rewrite restate_ok by apply HW.
    set (p1 := remove_prefix (restated p) 1).
    assert (F1 : first p1 = S (first p)) by (unfold p1, remove_prefix; cbn [first restated set_first]; lia).
    destruct v as [| | | | |es|js]; try contradiction; cbn [members].
    - destruct (array_start buf (first p) es t Ht HS) as (w & c & S0 & W & S1 & C1 & C2 & LW & HA).
      pose proof (at_elem_end _ _ _ _ HA) as [LE BE].
      rewrite (trim_to buf p1 w c); [|apply HW|exact W|rewrite F1; exact S1|exact C1|rewrite F1; cbn [p1 last restated remove_prefix set_first]; lia].
      rewrite F1. eexists. split; [reflexivity|]. split; [|split; reflexivity].
      apply it_array with (e := (first p + length t - 1)%nat) (c := first p); auto.
      + apply (moved_wf buf (restated p)); [repeat split|now apply wf_restate|]. cbn [first last p1 restated remove_prefix set_first]. lia.
      + cbn [last p1 restated remove_prefix set_first]. lia.
    - destruct (object_start g buf (first p) js t Ht HS) as (w & c & S0 & W & S1 & C1 & LW & HA).
      pose proof (at_member_end _ _ _ _ HA) as [LE BE].
      rewrite (trim_to buf p1 w c); [|apply HW|exact W|rewrite F1; exact S1|exact C1|rewrite F1; cbn [p1 last restated remove_prefix set_first]; lia].
      rewrite F1. eexists. split; [reflexivity|]. split; [|split; reflexivity].
      apply it_class with (e := (first p + length t - 1)%nat) (c := first p); auto.
      + apply (moved_wf buf (restated p)); [repeat split|now apply wf_restate|]. cbn [first last p1 restated remove_prefix set_first]. lia.
      + cbn [last p1 restated remove_prefix set_first]. lia.
  Qed.

  (** ** The whole iteration *)

  Definition seen_as (m : option (list N) * jv) (s : option (list N) * ps) : Prop :=
    fst s = fst m /\ value_at buf (snd m) (snd s).

  Lemma it_at_length : forall p rest, it_at p rest -> (first p + length rest <= last p)%nat.
  Proof.
    intros p rest H. revert p H. induction rest as [|m rest IH]; intros p H.
    - pose proof (it_at_wf _ _ H) as (_ & _ & L & _). cbn [length]. lia.
    - destruct (it_next_ok _ _ _ H) as (q & _ & HQ & LF & LL & _). apply IH in HQ. cbn [length]. lia.
  Qed.

  Lemma iter_loop : forall rest p done fuel, it_at p rest -> (length rest < fuel)%nat ->
    exists q seen, loop (iter_body g buf) fuel (p, done) = Ok (q, done ++ seen) /\ Forall2 seen_as rest seen /\
      it_eq buf q null_state = Ok true.
  Proof.
    induction rest as [|[n v] rest IH]; intros p done fuel H HF; (destruct fuel as [|fuel]; [cbn in HF; lia|]);
      cbn [loop]; unfold iter_body at 1; pose proof (it_stop _ _ H) as ST; rewrite ST; cbn [bind].
    - exists p, []. rewrite app_nil_r. repeat split; auto.
    - destruct (it_deref_ok _ _ _ _ H) as (r & ED & VR). rewrite ED. cbn [bind].
      destruct (it_next_ok _ _ _ H) as (q & EN & HQ & _). rewrite EN. cbn [bind].
      destruct (IH q (done ++ [(n, r)]) fuel HQ ltac:(cbn in HF; lia)) as (q' & seen & E & FS & SE).
      exists q', ((n, r) :: seen). rewrite <- app_assoc in E. split; [exact E|]. split; [|exact SE].
      constructor; [split; auto|exact FS].
  Qed.

  (** ** Lookup by a predicate on the name *)

  Lemma find_if_ok : forall pred f, (forall n, pred n = Ok (f n)) ->
    forall rest p fuel, it_at p rest -> (length rest < fuel)%nat ->
    exists q rest', loop (find_if_body g buf pred) fuel p = Ok q /\ it_at q rest' /\
      exists before, rest = before ++ rest' /\ Forall (fun m => f (fst m) = false) before /\
        match rest' with [] => True | m :: _ => f (fst m) = true end.
  Proof.
    intros pred f HP. induction rest as [|[n v] rest IH]; intros p fuel H HF; (destruct fuel as [|fuel]; [cbn in HF; lia|]);
      cbn [loop]; unfold find_if_body at 1; pose proof (it_stop _ _ H) as ST; rewrite ST; cbn [bind].
    - exists p, []. split; [reflexivity|]. split; [exact H|]. exists []. repeat split; auto.
    - destruct (it_deref_ok _ _ _ _ H) as (r & ED & VR). rewrite ED. cbn [bind]. rewrite HP. cbn [bind].
      destruct (f n) eqn:FN.
      + exists p, ((n, v) :: rest). split; [reflexivity|]. split; [exact H|]. exists []. repeat split; auto.
      + destruct (it_next_ok _ _ _ H) as (q & EN & HQ & _). rewrite EN. cbn [bind].
        destruct (IH q fuel HQ ltac:(cbn in HF; lia)) as (q' & rest' & E & HI & before & -> & FB & M).
        exists q', rest'. split; [exact E|]. split; [exact HI|]. exists ((n, v) :: before). repeat split; auto.
  Qed.

  (** ** Lookup by index *)

  Lemma element_ok : forall rest index p, it_at p rest ->
    if (index <=? length rest)%nat then exists q, element_loop g buf index p = Ok (O, q) /\ it_at q (skipn index rest) /\ cfirst q = cfirst p
    else exists q, element_loop g buf index p = Ok ((index - length rest)%nat, q) /\ it_at q [].
  Proof.
    induction rest as [|m rest IH]; intros index p H; pose proof (it_stop _ _ H) as ST;
      destruct index as [|index]; cbn [Nat.leb length skipn element_loop]; rewrite ST; cbn [bind].
    - eauto.
    - eauto.
    - eauto.
    - destruct (it_next_ok _ _ _ H) as (q & EN & HQ & _ & _ & CQ). rewrite EN. cbn [bind]. rewrite <- CQ. apply IH. exact HQ.
  Qed.
End Cfg.
