(** C111: only documents of the type are accepted. *)
From Coq Require Import String.
From Coq Require Import List NArith ZArith Bool Lia Arith ZifyBool ZifyNat ZifyN.
From Verif Require Import Base Mem PolicyModel IntModel StrScanModel SpecNum SpecText SpecJson SpecUnicode SpecCompact SpecTyped ValueModel TypedProofs PropertiesTyped SpecTokens UniqueProofs SpecLax LaxProofs PropertiesSkip.
Import ListNotations.
Local Open Scope N_scope.

Lemma sub_at_split : forall tx buf, sub_at buf 0 tx -> exists r, buf = tx ++ r.
Proof.
  assert (G : forall tx buf i, sub_at buf i tx -> exists r, skipn i buf = tx ++ r).
  { induction tx as [|c tx IH]; intros buf i H; [exists (skipn i buf); reflexivity|]. destruct H as [H1 H2]. destruct (IH _ _ H2) as (r & E).
    exists r. cbn [app]. rewrite <- E. clear - H1. revert buf H1. induction i as [|i IH]; intros [|b buf] H; try discriminate; [injection H as ->; reflexivity|]. apply IH. exact H. }
  intros tx buf H. exact (G tx buf 0%nat H).
Qed.

(** Full claim: a document that is read to a value is a JSON text of that value.
    It is false (below).  Proved: it is a text of the grammar in SpecLax, which
    lists everything that is accepted besides JSON, and the value is the one the
    grammar gives; up to a zero byte at the end.
    Partial: no classes, tuples that allow more elements, key/value arrays, custom
    types and variants. *)
Theorem C111_accepted_partial : forall g t doc x, c_ex g = ExConstexpr -> lax_type t = true -> is_bytes doc -> N.of_nat (length doc) < 2^32 ->
  from_json g true t doc = Ok x -> exists tx z, doc = tx ++ z /\ (z = [] \/ z = [0]) /\ lax t x tx [].
Proof.
  intros g t doc x HG HT HB H32 E. unfold from_json in E. peel E. peel E. apply rd_ok_nth in P0. cbv zeta in E. peel E. destruct a1 as [v p].
  set (l := if a0 =? 0 then (length doc - 1)%nat else length doc) in *.
  assert (HL : (l <= length doc)%nat) by (unfold l; destruct (a0 =? 0); lia).
  assert (HYP : is_bytes doc /\ (l <= length doc)%nat /\ (nth_error doc l = None \/ nth_error doc l = Some 0) /\ N.of_nat (length doc) < 2^32).
  { split; [exact HB|]. split; [exact HL|]. split; [|exact H32]. unfold l. destruct (N.eqb_spec a0 0) as [->|]; [now right|left; apply nth_error_None; lia]. }
  assert (S0 : sound l (new_ps 0 l)) by (unfold sound, new_ps; cbn; repeat split; auto; lia).
  destruct (value_lax doc l HYP g HG t HT _ _ _ S0 P1) as (tx & LX & T).
  peel E. destruct (trim_took doc l HYP _ _ (proj2 (proj2 T)) P2) as (w & W & T2). peel E. injection E as <-.
  pose proof (took_app doc l HYP _ _ _ _ _ T T2) as (S & F & N1 & N2 & N3 & N4). cbn [first new_ps] in S, F.
  destruct (ps_empty a1) eqn:EM; [|discriminate]. unfold ps_empty in EM. rewrite N1 in EM. cbn [orb] in EM. apply Nat.leb_le in EM.
  assert (FL : length (tx ++ w) = l) by lia.
  destruct (sub_at_split _ _ S) as (z & EZ). exists (tx ++ w), z. split; [exact EZ|]. split.
  2:{ apply lx_behind; [|exact W]. rewrite (took_left doc l HYP _ _ _ T2) in LX. unfold left in LX. rewrite skipn_all2 in LX; [exact LX|]. rewrite firstn_length. lia. }
  assert (LZ : (length doc = l + length z)%nat) by (rewrite EZ at 1; rewrite app_length; lia).
  unfold l in *. destruct (N.eqb_spec a0 0) as [->|].
  - right. destruct z as [|b [|b' z]]; cbn [length] in LZ; try lia.
    + exfalso. destruct doc; [discriminate P0|cbn [length] in LZ; lia].
    + f_equal. rewrite <- FL in P0. rewrite EZ, nth_error_app2, Nat.sub_diag in P0 by lia. cbn in P0. congruence.
  - left. destruct z; [reflexivity|cbn [length] in LZ; lia].
Qed.
Print Assumptions C111_accepted_partial.

(** Without MustVerifyEndOfDataIsValid the document starts with such a text. *)
Theorem C111_start_partial : forall g verify t doc x, c_ex g = ExConstexpr -> lax_type t = true -> is_bytes doc -> N.of_nat (length doc) < 2^32 ->
  from_json g verify t doc = Ok x -> exists tx r z, doc = tx ++ r ++ z /\ (z = [] \/ z = [0]) /\ lax t x tx r.
Proof.
  intros g verify t doc x HG HT HB H32 E. unfold from_json in E. peel E. peel E. apply rd_ok_nth in P0. cbv zeta in E. peel E. destruct a1 as [v p].
  set (l := if a0 =? 0 then (length doc - 1)%nat else length doc) in *.
  assert (HL : (l <= length doc)%nat) by (unfold l; destruct (a0 =? 0); lia).
  assert (HYP : is_bytes doc /\ (l <= length doc)%nat /\ (nth_error doc l = None \/ nth_error doc l = Some 0) /\ N.of_nat (length doc) < 2^32).
  { split; [exact HB|]. split; [exact HL|]. split; [|exact H32]. unfold l. destruct (N.eqb_spec a0 0) as [->|]; [now right|left; apply nth_error_None; lia]. }
  assert (S0 : sound l (new_ps 0 l)) by (unfold sound, new_ps; cbn; repeat split; auto; lia).
  destruct (value_lax doc l HYP g HG t HT _ _ _ S0 P1) as (tx & LX & T). exists tx, (left doc l p), (skipn l doc).
  split; [|split; [|assert (v = x) by (destruct verify; [peel E; peel E|]; congruence); now subst v]].
  - rewrite app_assoc, <- (took_left doc l HYP _ _ _ T). unfold left. cbn [first new_ps skipn]. symmetry. apply firstn_skipn.
  - clear LX E T. unfold l. destruct (N.eqb_spec a0 0) as [->|NZ]; [right|left; apply skipn_all].
    destruct (exists_last (l := doc)) as (d & c & ->); [intros ->; discriminate P0|]. rewrite app_length in P0 |- *. cbn [length] in P0 |- *.
    replace (length d + 1 - 1)%nat with (length d) in P0 |- * by lia. rewrite nth_error_app2, Nat.sub_diag in P0 by lia. injection P0 as ->.
    rewrite skipn_app, skipn_all, Nat.sub_diag. reflexivity.
Qed.
Print Assumptions C111_start_partial.

(** ** What follows for some types *)

(** An unsigned number: digits and whitespace behind them, nothing else *)
Theorem C111_unsigned_partial : forall g w rc doc x, c_ex g = ExConstexpr -> is_bytes doc -> N.of_nat (length doc) < 2^32 ->
  from_json g true (TUInt w rc) doc = Ok x -> exists ds b z, doc = ds ++ b ++ z /\ digits ds /\ ds <> [] /\ blanks b /\ (z = [] \/ z = [0]) /\
    x = VInt (Z.of_N ((dec_val ds mod 2^64) mod 2^w)).
Proof.
  intros g w rc doc x HG HB H32 E. apply C111_accepted_partial in E as (tx & z & -> & HZ & LX); auto.
  assert (G : exists ds b, tx = ds ++ b /\ digits ds /\ ds <> [] /\ blanks b /\ x = VInt (Z.of_N ((dec_val ds mod 2^64) mod 2^w))).
  { clear - LX. remember [] as rr eqn:ER in LX. clear ER. remember (TUInt w rc) as t eqn:ET. induction LX; try discriminate.
    - injection ET as -> ->. exists ds, []. rewrite app_nil_r. split; [reflexivity|]. split; [assumption|]. split; [assumption|]. split; [exact (Forall_nil _)|reflexivity].
    - subst t. discriminate.
    - destruct (IHLX ET) as (ds & b & -> & D & NE & B & EX). exists ds, (b ++ w0). rewrite app_assoc. split; [reflexivity|].
      split; [exact D|]. split; [exact NE|]. split; [apply Forall_app; auto|exact EX]. }
  destruct G as (ds & b & -> & D & NE & B & EX). exists ds, b, z. rewrite <- app_assoc. auto 10.
Qed.
Print Assumptions C111_unsigned_partial.

(** An array: it has its brackets, whatever the elements *)
Theorem C111_brackets_partial : forall g t doc x, c_ex g = ExConstexpr -> lax_type t = true -> is_bytes doc -> N.of_nat (length doc) < 2^32 ->
  from_json g true (TArr t) doc = Ok x -> exists a m b z, doc = a ++ 91 :: m ++ 93 :: b ++ z /\ blanks a /\ blanks b /\ (z = [] \/ z = [0]).
Proof.
  intros g t doc x HG HT HB H32 E. apply C111_accepted_partial in E as (tx & z & -> & HZ & LX); auto.
  assert (G : exists a m b, tx = a ++ 91 :: m ++ 93 :: b /\ blanks a /\ blanks b).
  { clear - LX. remember [] as rr eqn:ER in LX. clear ER. remember (TArr t) as u eqn:ET. induction LX; try discriminate.
    - exists [], w, []. split; [reflexivity|]. split; constructor.
    - exists [], (w ++ tx), []. split; [cbn [app]; now rewrite <- app_assoc|]. split; constructor.
    - destruct (IHLX ET) as (a & m & b & -> & A & B). exists (w ++ a), m, b. rewrite app_assoc. split; [reflexivity|]. split; [apply Forall_app; auto|exact B].
    - destruct (IHLX ET) as (a & m & b & -> & A & B). exists a, m, (b ++ w). split; [repeat (rewrite <- ?app_assoc; cbn [app]); reflexivity|].
      split; [exact A|apply Forall_app; auto]. }
  destruct G as (a & m & b & -> & A & B). exists a, m, b, z. split; [repeat (rewrite <- ?app_assoc; cbn [app]); reflexivity|]. auto.
Qed.
Print Assumptions C111_brackets_partial.

Example C111_ex : from_json default_cfg true (TMap (TTuple true [uint; TNullable TBool])) (doc_of "{'a': [1 ,null] }") =
    Ok (VMap [([97], VTuple [VInt 1; VNone])]) /\
  lax_type (TMap (TTuple true [uint; TNullable TBool])) = true /\ c_ex default_cfg = ExConstexpr /\
  from_json default_cfg true (TArr uint) (bytes "[1 2]") = Err UnexpectedEndOfData /\
  from_json default_cfg true (TArr uint) (bytes "1,2]") = Err InvalidArrayStart.
Proof. repeat split; vm_compute; reflexivity. Qed.

(** ** Refuted: documents that are no JSON texts and are read *)

Lemma elems_first : forall sb es t, jelems sb es t -> exists w c r, t = w ++ c :: r /\ ws w /\ 32 < c /\ c <> 44.
Proof.
  intros sb es t H. destruct H as [w1 v t w2 W1 HT W2|w1 v t w2 vs r W1 HT W2 HR];
    destruct (kind_head _ _ _ HT) as (c & u & -> & K); exists w1, c; eexists; (split; [cbn [app]; reflexivity|]); split; auto;
    destruct v; cbn [kind_char] in K; unfold numc in K; lia.
Qed.

Lemma text_end : forall sb v t, jtext sb v t -> exists r c, t = r ++ [c] /\ 32 < c /\ c <> 44.
Proof.
  intros sb v t H. destruct H.
  - exists [110; 117; 108], 108. split; [reflexivity|lia].
  - exists [116; 114; 117], 101. split; [reflexivity|lia].
  - exists [102; 97; 108; 115], 101. split; [reflexivity|lia].
  - destruct (jnum_chars _ H) as [F NE]. destruct (exists_last NE) as (r & c & ->).
    exists r, c. split; [reflexivity|]. apply Forall_app in F as [_ F]. apply Forall_inv in F. unfold numc in F. lia.
  - exists (34 :: b), 34. split; [reflexivity|lia].
  - exists (91 :: w), 93. split; [reflexivity|lia].
  - exists (91 :: t), 93. split; [reflexivity|lia].
  - exists (123 :: w), 125. split; [reflexivity|lia].
  - exists (123 :: t), 125. split; [reflexivity|lia].
Qed.

Lemma elems_last : forall sb es t, jelems sb es t -> exists r c w, t = r ++ c :: w /\ ws w /\ c <> 44.
Proof.
  intros sb es t H. induction H as [w1 v t w2 W1 HT W2|w1 v t w2 vs r W1 HT W2 HR IH].
  - destruct (text_end _ _ _ HT) as (r & c & -> & _ & C). exists (w1 ++ r), c, w2. split; [|auto]. repeat (rewrite <- ?app_assoc; cbn [app]). reflexivity.
  - destruct IH as (r' & c & w & -> & W & C). eexists (w1 ++ t ++ w2 ++ 44 :: r'), c, w. split; [|auto]. repeat (rewrite <- ?app_assoc; cbn [app]). reflexivity.
Qed.

Lemma no_array : forall t sb v, (forall es, ~ jelems sb es t) -> ~ ws t -> ~ jtext sb v (91 :: t ++ [93]).
Proof.
  intros t sb v H1 H2 H. inversion H as [| | |n HJ| |w W|es u HE|w W|ms u HM].
  - destruct (jnum_chars _ HJ) as [F _]. apply Forall_inv in F. unfold numc in F. lia.
  - match goal with E : _ ++ [93] = _ ++ [93] |- _ => apply app_inj_tail in E as [-> _] end. auto.
  - match goal with E : _ ++ [93] = _ ++ [93] |- _ => apply app_inj_tail in E as [-> _] end. eapply H1; eauto.
Qed.

(** Leading zeros (for a minus sign without digits see C07_minus_refuted) *)
Theorem C111_zeros_refuted : exists doc, from_json default_cfg true uint doc = Ok (VInt 7) /\ forall v, ~ jtext str_body v doc.
Proof.
  exists (bytes "007"). split; [vm_compute; reflexivity|]. intros v H.
  change (bytes "007") with [48; 48; 55] in H. inversion H. now apply jnum_zeros.
Qed.
Print Assumptions C111_zeros_refuted.

(** A comma behind the last element *)
Theorem C111_trailing_refuted : exists doc, from_json default_cfg true (TArr uint) doc = Ok (VArr [VInt 1]) /\ forall v, ~ jtext str_body v doc.
Proof.
  exists (bytes "[1,]"). split; [vm_compute; reflexivity|]. intros v. apply (no_array [49; 44]).
  - intros es H. destruct (elems_last _ _ _ H) as (r & c & w & E & W & C).
    destruct r as [|a [|b r]]; injection E; intros; subst; try congruence.
    + apply Forall_inv in W. unfold json_ws in W. lia.
    + now destruct r.
  - intros W. apply Forall_inv in W. unfold json_ws in W. lia.
Qed.
Print Assumptions C111_trailing_refuted.

(** Nothing in place of an optional element *)
Theorem C111_nothing_refuted : exists doc, from_json default_cfg true (TArr (TNullable uint)) doc = Ok (VArr [VNone; VSome (VInt 1)]) /\ forall v, ~ jtext str_body v doc.
Proof.
  exists (bytes "[,1]"). split; [vm_compute; reflexivity|]. intros v. apply (no_array [44; 49]).
  - intros es H. destruct (elems_first _ _ _ H) as (w & c & r & E & W & C1 & C2). destruct w as [|a w]; injection E; intros; subst; [congruence|].
    apply Forall_inv in W. unfold json_ws in W. lia.
  - intros W. apply Forall_inv in W. unfold json_ws in W. lia.
Qed.
Print Assumptions C111_nothing_refuted.

(** No commas between the members of a map and the elements of a tuple *)
Theorem C111_missing_refuted :
  (exists doc, from_json default_cfg true (TMap uint) doc = Ok (VMap [([97], VInt 1); ([98], VInt 2)]) /\ forall v, ~ jtext rfc_body v doc) /\
  (exists doc, from_json default_cfg true (TTuple true [uint; uint]) doc = Ok (VTuple [VInt 1; VInt 2]) /\ forall v, ~ jtext rfc_body v doc).
Proof.
  split; [exists (doc_of "{'a':1 'b':2}")|exists (doc_of "[1 2]")]; (split; [vm_compute; reflexivity|]); apply not_json; vm_compute; reflexivity.
Qed.
Print Assumptions C111_missing_refuted.
