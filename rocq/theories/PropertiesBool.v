(** C124: booleans that are written as strings. *)
From Coq Require Import String.
From Coq Require Import List NArith ZArith Bool Lia Arith.
From Coq Require Import ZifyBool ZifyNat ZifyN.
From Verif Require Import Base PolicyModel Mem IntModel SpecNum SpecText SpecJson Loop StrScanModel SkipModel SkipProofs ValueModel ScalarProofs
  LaxProofs SkipSafe PropertiesTyped UModel BoolModel.
Import ListNotations.
Local Open Scope N_scope.

(** ** What the option says *)

Definition lit (b : bool) : list N := if b then bytes "true" else bytes "false".

(** Never: the literal; Always: the literal in quotes; Maybe: either. *)
Inductive bool_text (o : literal_as_string) (b : bool) : list N -> Prop :=
| bt_plain : o <> LSAlways -> bool_text o b (lit b)
| bt_quoted : o <> LSNever -> bool_text o b (34 :: lit b ++ [34]).

(** ** Reading *)

Definition read_lit (buf : list N) (p : ps) : res (bool * ps) :=
  t <- starts_with buf p [116; 114; 117; 101] ;;
  if t : bool then Ok (true, remove_prefix p 4)
  else
    f <- starts_with buf p [102; 97; 108; 115; 101] ;;
    if f : bool then Ok (false, remove_prefix p 5) else Err InvalidLiteral.

Lemma read_lit_ok : forall buf p b, (last p <= length buf)%nat -> sub_at buf (first p) (lit b) -> (first p + length (lit b) <= last p)%nat ->
  read_lit buf p = Ok (b, set_first p (first p + length (lit b))).
Proof.
  intros buf p b HB HS HL. unfold read_lit. destruct b; cbn [lit] in *.
  - rewrite (starts_with_yes buf p [116; 114; 117; 101]) by auto. reflexivity.
  - rewrite (starts_with_no buf p _ 102 116); [|lia|apply HS|discriminate]. cbn [bind].
    rewrite (starts_with_yes buf p [102; 97; 108; 115; 101]) by auto. reflexivity.
Qed.

Lemma eq_bytes_inv : forall t buf i, eq_bytes buf i t = Ok true -> sub_at buf i t.
Proof.
  induction t as [|c t IH]; intros buf i H; cbn in *; auto. unfold rd in H. destruct (nth_error buf i) as [b|] eqn:E; cbn in H; [|discriminate].
  destruct (eq_bytes buf (S i) t) as [r|?| |] eqn:E2; cbn in H; try discriminate. injection H as H. apply andb_prop in H as [H1 ->].
  apply N.eqb_eq in H1. subst c. split; [reflexivity|now apply IH].
Qed.

Lemma read_lit_inv : forall buf p b q, read_lit buf p = Ok (b, q) ->
  sub_at buf (first p) (lit b) /\ (first p + length (lit b) <= last p)%nat /\ q = set_first p (first p + length (lit b)).
Proof.
  intros buf p b q H. unfold read_lit, starts_with in H. destruct (Nat.ltb_spec (ps_size p) (length [116; 114; 117; 101])) as [L|L].
  - cbn [bind] in H. destruct (Nat.ltb_spec (ps_size p) (length [102; 97; 108; 115; 101])) as [L2|L2]; [discriminate|cbn [length] in *; lia].
  - destruct (eq_bytes buf (first p) [116; 114; 117; 101]) as [[]|?| |] eqn:E; cbn [bind] in H; try discriminate.
    + injection H as <- <-. apply eq_bytes_inv in E. unfold ps_size in L. repeat split; [apply E|apply E|apply E|apply E|cbn in *; lia].
    + destruct (Nat.ltb_spec (ps_size p) (length [102; 97; 108; 115; 101])) as [L2|L2]; [discriminate|].
      destruct (eq_bytes buf (first p) [102; 97; 108; 115; 101]) as [[]|?| |] eqn:E2; cbn [bind] in H; try discriminate.
      injection H as <- <-. apply eq_bytes_inv in E2. unfold ps_size in L2. split; [exact E2|]. split; [cbn in *; lia|reflexivity].
Qed.

Lemma parse_checked : forall o buf p, parse_value_bool_opt true o false buf p =
  (p <- skip_quote_when_literal_as_string o buf p ;;
   '(b, p) <- read_lit buf p ;;
   p <- skip_quote_when_literal_as_string o buf p ;;
   p <- trim_left_checked buf p ;;
   _ <- (e <- end_of_item_ok buf p ;; ensure e InvalidEndOfValue) ;;
   Ok (VBool b, p)).
Proof. reflexivity. Qed.

(** Full statement: reading accepts exactly the texts that the option allows, wherever
    they are, and what was written is read back.  Partial: the member is not read out of
    order; with Maybe something follows a literal without quotes.  [j] is the position
    behind the whitespace that follows, where the data ends or a comma or a closing
    bracket or brace is. *)
Theorem C124_read_partial : forall o buf p b t j, is_bytes buf -> (last p <= length buf)%nat ->
  bool_text o b t -> sub_at buf (first p) t -> followed true buf (first p + length t) j (last p) ->
  (o = LSMaybe -> (first p + length t < last p)%nat \/ t <> lit b) ->
  parse_value_bool_opt true o false buf p = Ok (VBool b, set_first p j).
Proof.
  intros o buf p b t j HB HL HT HS HF HM. rewrite parse_checked.
  destruct HF as (w & W & SW & EJ & LJ & EE).
  assert (LT : (first p + length t <= last p)%nat) by lia.
  assert (FIN : forall q, first q = (first p + length t)%nat -> last q = last p ->
    (p <- trim_left_checked buf q ;; _ <- (e <- end_of_item_ok buf p ;; ensure e InvalidEndOfValue) ;; Ok (VBool b, p)) = Ok (VBool b, set_first q j)).
  { intros q F1 F2. assert (HF : followed true buf (first q) j (last q)) by (rewrite F1, F2; exact (ex_intro _ w (conj W (conj SW (conj EJ (conj LJ EE)))))).
    rewrite (trim_followed buf q j HB HF). cbn [bind].
    rewrite (end_here buf (set_first q j) j) by (cbn [first last set_first]; eapply followed_at_j; eauto). reflexivity. }
  destruct HT as [NO|NO].
  - assert (C : exists c, nth_error buf (first p) = Some c /\ (c = 116 \/ c = 102)) by (destruct b; destruct HS as [HC _]; eauto).
    assert (LB : (0 < length (lit b))%nat) by (destruct b; cbn; lia).
    assert (Q1 : skip_quote_when_literal_as_string o buf p = Ok p).
    { destruct C as (c & HC & CC). destruct o; [reflexivity| |congruence]. cbn [skip_quote_when_literal_as_string]. unfold has_more. replace (first p <? last p)%nat with true by lia.
      cbn [ensure bind]. unfold front. rewrite (rd_some _ _ _ HC). cbn [bind]. now replace (c =? c_quote) with false by (unfold c_quote; lia). }
    rewrite Q1. cbn [bind]. rewrite (read_lit_ok buf p b) by auto. cbn [bind]. set (q := set_first p _).
    assert (Q2 : skip_quote_when_literal_as_string o buf q = Ok q).
    { destruct o; [reflexivity| |congruence]. destruct (HM eq_refl) as [M|M]; [|congruence]. cbn [skip_quote_when_literal_as_string]. unfold has_more.
      subst q. cbn [first last set_first]. replace (first p + length (lit b) <? last p)%nat with true by lia. cbn [ensure bind]. unfold front. cbn [first set_first].
      assert (exists c, nth_error buf (first p + length (lit b)) = Some c /\ c <> 34) as (c & HC & NC).
      { destruct w as [|c w].
        - cbn [length] in *. rewrite Nat.add_0_r in EJ. subst j. destruct EE as [[_ X]|(_ & c & Hc & CL)]; [lia|]. exists c. split; [exact Hc|]. unfold closer in CL. lia.
        - destruct SW as [HC _]. exists c. split; [exact HC|]. apply Forall_inv in W. unfold json_ws in W. lia. }
      rewrite (rd_some _ _ _ HC). cbn [bind]. now replace (c =? c_quote) with false by (unfold c_quote; lia). }
    rewrite Q2. cbn [bind]. rewrite FIN by reflexivity. reflexivity.
  - cbn [length] in *. rewrite app_length in *. cbn [length] in *. destruct HS as [HQ HS]. apply sub_at_app in HS as [HS [HQ2 _]].
    assert (SQ : forall q, (first q < last q)%nat -> nth_error buf (first q) = Some 34 -> skip_quote_when_literal_as_string o buf q = Ok (remove_prefix q 1)).
    { intros q L N. destruct o; [congruence| |]; cbn [skip_quote_when_literal_as_string]; unfold is_at, has_more, front;
        replace (first q <? last q)%nat with true by lia; cbn [ensure bind]; rewrite (rd_some _ _ _ N); reflexivity. }
    rewrite SQ by (auto; lia). cbn [bind].
    rewrite (read_lit_ok buf (remove_prefix p 1) b); cbn [first last remove_prefix set_first]; [|exact HL|now replace (first p + 1)%nat with (S (first p)) by lia|lia].
    cbn [bind]. rewrite SQ; cbn [first last remove_prefix set_first]; [|lia|replace (first p + 1 + length (lit b))%nat with (S (first p) + length (lit b))%nat by lia; exact HQ2].
    cbn [bind]. rewrite FIN; [reflexivity| |reflexivity]. cbn [first remove_prefix set_first]. lia.
Qed.
Print Assumptions C124_read_partial.

(** What is accepted: with Never and Always what the option says and nothing else *)
Theorem C124_only_partial : forall o buf p v q, o <> LSMaybe -> parse_value_bool_opt true o false buf p = Ok (v, q) ->
  exists b t, v = VBool b /\ bool_text o b t /\ sub_at buf (first p) t /\ (first p + length t <= last p)%nat.
Proof.
  intros o buf p v q NM H. rewrite parse_checked in H. peel H. rename P into H1.
  peel H. destruct a0 as [b r]. apply read_lit_inv in P as (S1 & L1 & ->). peel H. rename P into H2. repeat peel H. injection H as <- _. exists b.
  destruct o; [|congruence|].
  - cbn in H1. injection H1 as <-. exists (lit b). split; [reflexivity|]. split; [now constructor|]. auto.
  - assert (QI : forall s s', skip_quote_when_literal_as_string LSAlways buf s = Ok s' -> (first s < last s)%nat /\ nth_error buf (first s) = Some 34 /\ s' = remove_prefix s 1).
    { intros s s' E. cbn in E. unfold is_at, has_more in E. destruct (Nat.ltb_spec (first s) (last s)); [|discriminate]. unfold front, rd in E.
      destruct (nth_error buf (first s)) as [c|]; [|discriminate]. cbn in E. destruct (c =? c_quote) eqn:C; [|discriminate]. apply N.eqb_eq in C. subst c.
      injection E as <-. auto. }
    apply QI in H1 as (A1 & A2 & ->). apply QI in H2 as (B1 & B2 & ->). cbn [first last remove_prefix set_first] in *.
    exists (34 :: lit b ++ [34]). split; [reflexivity|]. split; [now constructor|]. rewrite Nat.add_1_r in *. split.
    + split; [exact A2|]. apply sub_at_app. split; [exact S1|]. split; [exact B2|exact I].
    + cbn [length]. rewrite app_length. cbn [length]. lia.
Qed.
Print Assumptions C124_only_partial.

(** Unchecked input, and members that are read out of order *)
Theorem C124_unchecked_read_partial : forall o buf p b t j, is_bytes buf -> bool_text o b t -> sub_at buf (first p) t ->
  followed false buf (first p + length t) j (last p) ->
  parse_value_bool_opt false o false buf p = Ok (VBool b, set_first p j).
Proof.
  intros o buf p b t j HB HT HS HF. unfold parse_value_bool_opt.
  assert (NX : exists c, nth_error buf (first p + length t) = Some c /\ c <> 34).
  { destruct HF as (w & W & SW & EJ & LJ & EE). destruct w as [|c w].
    - cbn [length] in *. rewrite Nat.add_0_r in EJ. subst j. destruct EE as [[X _]|(_ & c & Hc & CL)]; [discriminate|]. exists c. split; [exact Hc|]. unfold closer in CL. lia.
    - destruct SW as [HC _]. exists c. split; [exact HC|]. apply Forall_inv in W. unfold json_ws in W. lia. }
  assert (FIN : forall q, first q = (first p + length t)%nat -> last q = last p ->
    (p <- trim_left false buf q ;; _ <- Ok tt ;; Ok (VBool b, p)) = Ok (VBool b, set_first q j)).
  { intros q F1 F2. assert (TR : trim_left false buf q = Ok (set_first q j)).
    { apply (followed_trim CNone false buf q j HB). now rewrite F1, F2. }
    now rewrite TR. }
  assert (C : exists c, nth_error buf (first p + (length t - length (lit b)) / 2) = Some c /\ c = if b then 116 else 102).
  { destruct HT; [|cbn [length]; rewrite app_length; cbn [length]; replace (S (length (lit b) + 1) - length (lit b))%nat with 2%nat by lia; change (2 / 2)%nat with 1%nat].
    - rewrite Nat.sub_diag. change (0 / 2)%nat with O. rewrite Nat.add_0_r. destruct b; destruct HS as [HC _]; eauto.
    - rewrite Nat.add_1_r. destruct b; destruct HS as (_ & HC & _); eauto. }
  destruct HT as [NO|NO].
  - rewrite Nat.sub_diag in C. change (0 / 2)%nat with O in C. rewrite Nat.add_0_r in C. destruct C as (c & HC & EC). destruct NX as (d & Hd & ND).
    assert (Q1 : skip_quote false o buf p = Ok p).
    { destruct o; [reflexivity| |congruence]. cbn [skip_quote]. unfold front. rewrite (rd_some _ _ _ HC). cbn [bind].
      now replace (c =? c_quote) with false by (unfold c_quote; destruct b; lia). }
    rewrite Q1. cbn [bind]. unfold front. rewrite (rd_some _ _ _ HC). cbn [bind].
    assert (Q2 : skip_quote false o buf (set_first p (first p + length (lit b))) = Ok (set_first p (first p + length (lit b)))).
    { destruct o; [reflexivity| |congruence]. cbn [skip_quote]. unfold front. cbn [first set_first]. rewrite (rd_some _ _ _ Hd). cbn [bind].
      now replace (d =? c_quote) with false by (unfold c_quote; lia). }
    destruct b; subst c; [change (116 =? c_t) with true|change (102 =? c_t) with false]; cbn iota beta; cbn [bind]; unfold remove_prefix; cbn [lit] in *;
      [change (first p + 4)%nat with (first p + length (bytes "true"))%nat|change (first p + 5)%nat with (first p + length (bytes "false"))%nat];
      rewrite Q2; cbn [bind]; now rewrite FIN.
  - cbn [length] in *. rewrite app_length in *. cbn [length] in *. destruct HS as [HQ HS]. apply sub_at_app in HS as [HS [HQ2 _]].
    replace (S (length (lit b) + 1) - length (lit b))%nat with 2%nat in C by lia. change (2 / 2)%nat with 1%nat in C. destruct C as (c & HC & EC).
    assert (SQ : forall q, nth_error buf (first q) = Some 34 -> skip_quote false o buf q = Ok (remove_prefix q 1)).
    { intros q N. destruct o; [congruence| |reflexivity]. cbn [skip_quote]. unfold front. rewrite (rd_some _ _ _ N). reflexivity. }
    rewrite SQ by auto. cbn [bind]. unfold front. cbn [first remove_prefix set_first]. rewrite (rd_some _ _ _ HC). cbn [bind].
    destruct b; subst c; [change (116 =? c_t) with true|change (102 =? c_t) with false]; cbn iota beta; cbn [bind];
      (rewrite SQ; [cbn [bind]|cbn [first remove_prefix set_first]; rewrite <- HQ2; f_equal; cbn; lia]);
      (rewrite FIN; [reflexivity|cbn [first remove_prefix set_first]; cbn; lia|reflexivity]).
Qed.
Print Assumptions C124_unchecked_read_partial.

(** Only the first byte is looked at. *)
Theorem C124_known_partial : forall o buf p,
  (forall b, sub_at buf (first p) (lit b) -> parse_value_bool_opt true o true buf p = Ok (VBool b, p)) /\
  (forall v q, parse_value_bool_opt true o true buf p = Ok (v, q) -> q = p /\
     (nth_error buf (first p) = Some 116 /\ v = VBool true \/ nth_error buf (first p) = Some 102 /\ v = VBool false)).
Proof.
  intros o buf p. unfold parse_value_bool_opt, front. split.
  - intros b HS. destruct b; destruct HS as [HC _]; rewrite (rd_some _ _ _ HC); reflexivity.
  - intros v q. unfold rd. destruct (nth_error buf (first p)) as [c|]; [|discriminate]. cbn [bind]. unfold c_t, c_f.
    destruct (c =? 116) eqn:E1; [apply N.eqb_eq in E1; subst c; intros H; injection H as <- <-; auto|].
    destruct (c =? 102) eqn:E2; [apply N.eqb_eq in E2; subst c; intros H; injection H as <- <-; auto|discriminate].
Qed.
Print Assumptions C124_known_partial.

(** ** Round trip *)

Theorem C124_round_trip_partial : forall o buf p b j, is_bytes buf -> (last p <= length buf)%nat ->
  sub_at buf (first p) (to_json_string_bool o b) -> followed true buf (first p + length (to_json_string_bool o b)) j (last p) ->
  (o = LSMaybe -> (first p + length (to_json_string_bool o b) < last p)%nat) ->
  parse_value_bool_opt true o false buf p = Ok (VBool b, set_first p j).
Proof.
  intros o buf p b j HB HL HS HF HM. apply C124_read_partial with (t := to_json_string_bool o b); auto.
  destruct o, b; try (apply (bt_plain _ true); discriminate); try (apply (bt_plain _ false); discriminate);
    [apply (bt_quoted _ true)|apply (bt_quoted _ false)]; discriminate.
Qed.
Print Assumptions C124_round_trip_partial.

(** ** No read outside of the document *)

Theorem C124_safe_partial : forall o buf p, (first p <= last p)%nat -> (last p <= length buf)%nat ->
  match parse_value_bool_opt true o false buf p with
  | Ok (_, q) => (first p <= first q <= last p)%nat
  | Err _ => True
  | _ => False
  end.
Proof.
  intros o buf p HF HL. rewrite parse_checked.
  assert (SQ : forall s, (first s <= last s)%nat -> (last s <= length buf)%nat ->
    match skip_quote_when_literal_as_string o buf s with Ok s' => (first s <= first s' <= last s)%nat /\ last s' = last s | Err _ => True | _ => False end).
  { intros s L1 L2. destruct o; cbn [skip_quote_when_literal_as_string]; [auto| |]; unfold is_at, has_more, front; destruct (Nat.ltb_spec (first s) (last s)); cbn; auto;
      destruct (rd_in buf (first s)) as (c & Hc); [lia| |lia|]; rewrite (rd_some _ _ _ Hc); cbn [bind]; destruct (c =? c_quote); cbn; auto; lia. }
  pose proof (SQ p HF HL) as X. destruct (skip_quote_when_literal_as_string o buf p) as [p1|?| |]; cbn [bind]; auto. destruct X as [X1 X2].
  assert (RL : match read_lit buf p1 with Ok (b, q) => True | Err _ => True | _ => False end).
  { unfold read_lit, starts_with. assert (EB : forall t i, (i + length t <= length buf)%nat -> exists b, eq_bytes buf i t = Ok b).
    { induction t as [|c t IH]; intros i L; cbn [eq_bytes length] in *; [eauto|]. destruct (rd_in buf i) as (d & Hd); [lia|]. rewrite (rd_some _ _ _ Hd). cbn [bind].
      destruct (IH (S i)) as (r & ->); [lia|]. cbn. eauto. }
    unfold ps_size. destruct (Nat.ltb_spec (last p1 - first p1) (length [116; 114; 117; 101])) as [L|L]; cbn [length] in L.
    - cbn [bind]. destruct (Nat.ltb_spec (last p1 - first p1) (length [102; 97; 108; 115; 101])) as [L2|L2]; cbn [length] in L2; [exact I|lia].
    - destruct (EB [116; 114; 117; 101] (first p1)) as (b & ->); [cbn [length]; lia|]. cbn [bind]. destruct b; [exact I|].
      destruct (Nat.ltb_spec (last p1 - first p1) (length [102; 97; 108; 115; 101])) as [L2|L2]; cbn [length] in L2; [exact I|].
      destruct (EB [102; 97; 108; 115; 101] (first p1)) as (b & ->); [cbn [length]; lia|]. cbn [bind]. destruct b; exact I. }
  destruct (read_lit buf p1) as [[b q]|?| |] eqn:E; cbn [bind]; auto. apply read_lit_inv in E as (_ & L3 & ->).
  set (q := set_first p1 _). assert (Q1 : first q = (first p1 + length (lit b))%nat) by reflexivity. assert (Q2 : last q = last p1) by reflexivity.
  pose proof (SQ q ltac:(lia) ltac:(lia)) as Y. destruct (skip_quote_when_literal_as_string o buf q) as [p2|?| |]; cbn [bind]; auto. destruct Y as [Y1 Y2].
  destruct (trim_safe buf p2) as (k & -> & K1 & K2); [lia|]. cbn [bind]. unfold end_of_item_ok, has_more, front. cbn [first last set_first].
  destruct (Nat.ltb_spec k (last p2)).
  - destruct (rd_in buf k) as (c & Hc); [lia|]. rewrite (rd_some _ _ _ Hc). cbn [bind]. destruct (at_end_of_item c); cbn; auto. lia.
  - cbn. lia.
Qed.
Print Assumptions C124_safe_partial.

(** ** Where it does not hold *)

Definition whole (s : string) : ps := new_ps 0 (length (doc_of s)).
Definition read (o : literal_as_string) (s : string) : res (val * ps) := parse_value_bool_opt true o false (doc_of s) (whole s).

(** Maybe: one quote is enough, and a literal at the end of the data is refused because
    a byte is wanted behind it. *)
Theorem C124_half_refuted :
  read LSMaybe "'true,1" = Ok (VBool true, set_first (whole "'true,1") 5) /\
  read LSMaybe "false',1" = Ok (VBool false, set_first (whole "false',1") 6) /\
  (forall t, sub_at (doc_of "'true,1") 0 t -> ~ bool_text LSMaybe true t) /\
  (forall t, sub_at (doc_of "false',1") 0 (t ++ [44]) -> ~ bool_text LSMaybe false t).
Proof.
  split; [vm_compute; reflexivity|]. split; [vm_compute; reflexivity|]. split; intros t H B; inversion B; subst t; cbn in H; intuition discriminate.
Qed.
Print Assumptions C124_half_refuted.

Theorem C124_end_refuted : read LSMaybe "true" = Err UnexpectedEndOfData /\ bool_text LSMaybe true (doc_of "true") /\
  to_json_string_bool LSMaybe true = doc_of "true".
Proof. split; [vm_compute; reflexivity|]. split; [apply (bt_plain LSMaybe true); discriminate|reflexivity]. Qed.
Print Assumptions C124_end_refuted.

(** A class { a: unsigned, b: boolean } that is read from a document where b comes first *)
Definition ab (o : literal_as_string) : list member :=
  [mkmember (bytes "a") false (parse_value default_cfg uint); mkmember (bytes "b") false (parse_value_bool_opt true o)].
Definition read_ab (o : literal_as_string) (s : string) : res val :=
  '(v, _) <- parse_value_class default_cfg false (ab o) false (doc_of s) (whole s) ;; Ok v.
Definition ab_u (o : literal_as_string) : list member :=
  [mkmember (bytes "a") false (parse_value_u false default_cfg uint); mkmember (bytes "b") false (parse_value_bool_opt false o)].
Definition read_ab_u (o : literal_as_string) (s : string) : res val :=
  '(v, _) <- parse_value_class_u false default_cfg false (ab_u o) false (doc_of s) (whole s) ;; Ok v.

(** Read in order the documents are refused; read out of order only the first byte
    counts, and the quotes are not looked at. *)
Theorem C124_order_refuted :
  read_ab LSAlways "{'a':1,'b':'tomorrow'} " = Err InvalidLiteral /\ read_ab LSAlways "{'b':'tomorrow','a':1} " = Ok (VClass [VInt 1%Z; VBool true]) /\
  read_ab LSAlways "{'a':1,'b':true} " = Err InvalidNumberUnexpectedQuoting /\ read_ab LSAlways "{'b':true,'a':1} " = Ok (VClass [VInt 1%Z; VBool true]) /\
  read_ab LSNever "{'a':1,'b':'false'} " = Err InvalidLiteral /\ read_ab LSNever "{'b':'false','a':1} " = Ok (VClass [VInt 1%Z; VBool false]).
Proof. repeat split; vm_compute; reflexivity. Qed.
Print Assumptions C124_order_refuted.

(** Unchecked input: the counter of a string without escapes is not zero, so that a
    false in quotes that is read out of order is true. *)
Theorem C124_unchecked_refuted :
  read_ab_u LSAlways "{'a':1,'b':'false'} " = Ok (VClass [VInt 1%Z; VBool false]) /\
  read_ab_u LSAlways "{'b':'false','a':1} " = Ok (VClass [VInt 1%Z; VBool true]) /\
  read_ab LSAlways "{'b':'false','a':1} " = Ok (VClass [VInt 1%Z; VBool false]).
Proof. repeat split; vm_compute; reflexivity. Qed.
Print Assumptions C124_unchecked_refuted.

Example C124_ex :
  read LSAlways "'true' , 1" = Ok (VBool true, set_first (whole "'true' , 1") 7) /\
  read LSMaybe "'false']" = Ok (VBool false, set_first (whole "'false']") 7) /\
  read LSMaybe "false]" = Ok (VBool false, set_first (whole "false]") 5) /\
  read LSNever "false" = Ok (VBool false, set_first (whole "false") 5) /\
  read LSAlways "true" = Err InvalidNumberUnexpectedQuoting /\ read LSAlways "'true" = Err InvalidNumberUnexpectedQuoting /\
  to_json_string_bool LSAlways false = doc_of "'false'".
Proof. repeat split; vm_compute; reflexivity. Qed.

Example C124_unchecked_ex :
  parse_value_bool_opt false LSMaybe false (doc_of "true ,1") (whole "true ,1") = Ok (VBool true, set_first (whole "true ,1") 5) /\
  parse_value_bool_opt false LSMaybe false (doc_of "'false',1") (whole "'false',1") = Ok (VBool false, set_first (whole "'false',1") 7) /\
  parse_value_bool_opt true LSMaybe true (doc_of "false") (whole "false") = Ok (VBool false, whole "false") /\
  parse_value_bool_opt true LSMaybe true (doc_of "no") (whole "no") = Err InvalidLiteral.
Proof. repeat split; vm_compute; reflexivity. Qed.
