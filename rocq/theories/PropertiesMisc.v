(** Properties C32, C40, C41, C55. *)
From Coq Require Import String.
From Coq Require Import List NArith ZArith Bool Lia Arith ZifyBool ZifyNat ZifyN.
From Verif Require Import Base Mem Loop PolicyModel MiscModel Dec.
Import ListNotations.

(** ** C32 *)

(** [mem] with [t] written at [p]. *)
Definition put_at (mem : list N) (p : nat) (t : list N) : list N :=
  firstn p mem ++ t ++ skipn (p + length t) mem.

Lemma skipn_add : forall (l : list N) a b, skipn b (skipn a l) = skipn (a + b) l.
Proof. induction l as [|x l IH]; intros [|a] b; cbn [skipn Nat.add]; auto. now destruct b. Qed.
Lemma put_at_length : forall mem p t, p + length t <= length mem -> length (put_at mem p t) = length mem.
Proof. intros. unfold put_at. rewrite !app_length, firstn_length, skipn_length. lia. Qed.
Lemma put_at_nil : forall mem p, put_at mem p [] = mem.
Proof. intros. unfold put_at. cbn [length app]. rewrite Nat.add_0_r. apply firstn_skipn. Qed.
Lemma put_at_app : forall mem p a b, p + length a + length b <= length mem ->
  put_at (put_at mem p a) (p + length a) b = put_at mem p (a ++ b).
Proof.
  intros mem p a b L. unfold put_at. rewrite app_length.
  assert (LF : length (firstn p mem) = p) by (rewrite firstn_length; lia).
  assert (LA : length (firstn p mem ++ a) = p + length a) by (rewrite app_length; lia).
  rewrite !app_assoc. f_equal.
  - f_equal. rewrite firstn_app, LA. rewrite (firstn_all2 (firstn p mem ++ a)) by lia.
    rewrite Nat.sub_diag. cbn [firstn]. now rewrite app_nil_r.
  - rewrite skipn_app, LA. rewrite skipn_all2 by lia. cbn [app].
    replace (p + length a + length b - (p + length a)) with (length b) by lia.
    rewrite skipn_add. f_equal. lia.
Qed.

Lemma copy_put : forall mem p t, p + length t <= length mem -> copy_to_buffer mem p t = Ok (put_at mem p t).
Proof. intros. unfold copy_to_buffer. replace (p + length t <=? length mem) with true by lia. reflexivity. Qed.

Definition fits (s : span) : Prop := sp_at s + sp_size s <= length (sp_mem s).

Lemma write_all_ok : forall svs s, fits s -> length (concat svs) <= sp_size s ->
  span_write_all s svs = Ok (mkspan (put_at (sp_mem s) (sp_at s) (concat svs))
     (sp_at s + length (concat svs)) (sp_size s - length (concat svs))).
Proof.
  unfold fits. induction svs as [|sv r IH]; intros s F L; cbn [span_write_all concat].
  - cbn [length]. rewrite put_at_nil, Nat.add_0_r, Nat.sub_0_r. destruct s; reflexivity.
  - cbn [concat] in L. rewrite app_length in *.
    destruct (length sv =? 0) eqn:E0.
    + cbn [bind]. destruct sv; [|discriminate]. cbn [app length] in *. rewrite IH by lia. reflexivity.
    + rewrite copy_put by lia. cbn [bind]. replace (length sv <=? sp_size s) with true by lia. cbn [bind].
      rewrite IH; cbn [sp_mem sp_at sp_size].
      * rewrite put_at_app by lia. f_equal. f_equal; lia.
      * rewrite put_at_length by lia. lia.
      * lia.
Qed.

Lemma total_ok : forall svs, (N.of_nat (length (concat svs)) < 2^64)%N -> total_size svs = N.of_nat (length (concat svs)).
Proof.
  induction svs as [|sv r IH]; intros H; [reflexivity|]. cbn [concat] in H. rewrite app_length in H.
  unfold total_size in *. cbn [fold_right concat]. rewrite app_length. rewrite IH by lia.
  rewrite N.mod_small; lia.
Qed.

Definition small_op (o : op) : Prop := (N.of_nat (length (op_bytes o)) < 2^64)%N.

Lemma op_ok : forall s o, fits s -> small_op o ->
  (length (op_bytes o) <= sp_size s ->
   span_op s o = Ok (mkspan (put_at (sp_mem s) (sp_at s) (op_bytes o)) (sp_at s + length (op_bytes o)) (sp_size s - length (op_bytes o)))) /\
  (sp_size s < length (op_bytes o) -> span_op s o = Err OutputError).
Proof.
  intros s o F SM. unfold fits, small_op in *. destruct o as [svs|c]; cbn [op_bytes span_op] in *.
  - unfold span_write. rewrite total_ok by assumption. split; intro L.
    + replace (N.of_nat (length (concat svs)) <=? N.of_nat (sp_size s))%N with true by lia. cbn [ensure bind].
      now apply write_all_ok.
    + replace (N.of_nat (length (concat svs)) <=? N.of_nat (sp_size s))%N with false by lia. reflexivity.
  - unfold span_put. cbn [length] in *. split; intro L.
    + replace (sp_size s =? 0) with false by lia. cbn [negb ensure bind]. rewrite copy_put by (cbn [length]; lia). reflexivity.
    + replace (sp_size s =? 0) with true by lia. reflexivity.
Qed.

(** Every sequence of writes, every span.  When it runs to its end, the memory is
    changed exactly by the output, and that lies within the span.  When it
    throws, the memory is changed by the output of the operations before the one
    that did not fit.  Nothing else in the memory changes ([put_at]). *)
Theorem C32_span_no_overrun : forall s os, sp_at s + sp_size s <= length (sp_mem s) ->
  Forall small_op os ->
  let total := concat (map op_bytes os) in
  (length total <= sp_size s /\
   span_run s os = Ok (mkspan (put_at (sp_mem s) (sp_at s) total) (sp_at s + length total) (sp_size s - length total), true)) \/
  (sp_size s < length total /\ exists os1 o os2, os = os1 ++ o :: os2 /\
    let done := concat (map op_bytes os1) in
    length done <= sp_size s /\ sp_size s < length done + length (op_bytes o) /\
    span_run s os = Ok (mkspan (put_at (sp_mem s) (sp_at s) done) (sp_at s + length done) (sp_size s - length done), false)).
Proof.
  intros s os. revert s. induction os as [|o os IH]; intros s F SM total.
  - left. unfold total. cbn [map concat length]. split; [lia|]. cbn [span_run].
    rewrite put_at_nil, Nat.add_0_r, Nat.sub_0_r. destruct s; reflexivity.
  - inversion SM as [|? ? S1 S2]; subst. unfold total. cbn [map concat]. rewrite app_length.
    destruct (op_ok s o F S1) as [OK BAD].
    destruct (Nat.le_gt_cases (length (op_bytes o)) (sp_size s)) as [L|L].
    + specialize (OK L). cbn [span_run]. rewrite OK.
      set (s1 := mkspan _ _ _). specialize (IH s1).
      assert (F1 : sp_at s1 + sp_size s1 <= length (sp_mem s1)).
      { unfold s1. cbn [sp_at sp_size sp_mem]. rewrite put_at_length by lia. lia. }
      specialize (IH F1 S2). cbv zeta in IH. unfold s1 in IH, F1 |- *. clear s1. cbn [sp_at sp_size sp_mem] in IH, F1.
      destruct IH as [[L1 E]|(L1 & os1 & o1 & os2 & -> & L2 & L3 & E)].
      * left. split; [lia|]. rewrite E. cbn [sp_at sp_size sp_mem]. rewrite put_at_app by lia. do 2 f_equal. f_equal; lia.
      * right. split; [lia|]. exists (o :: os1), o1, os2. split; [reflexivity|].
        cbv zeta. cbn [map concat]. rewrite app_length. split; [lia|]. split; [lia|].
        rewrite E. cbn [sp_at sp_size sp_mem]. rewrite put_at_app by lia. do 2 f_equal. f_equal; lia.
    + specialize (BAD L). right. split; [lia|]. exists [], o, os. split; [reflexivity|]. cbv zeta. cbn [map concat length].
      split; [lia|]. split; [lia|]. cbn [span_run]. rewrite BAD. rewrite put_at_nil, Nat.add_0_r, Nat.sub_0_r. destruct s; reflexivity.
Qed.
Print Assumptions C32_span_no_overrun.

(** The bytes before and after the span are as before. *)
Theorem C32_outside_untouched : forall s os i s' b, sp_at s + sp_size s <= length (sp_mem s) -> Forall small_op os ->
  span_run s os = Ok (s', b) -> i < sp_at s \/ sp_at s + sp_size s <= i ->
  nth_error (sp_mem s') i = nth_error (sp_mem s) i.
Proof.
  intros s os i s' b F SM E O.
  assert (G : forall t, length t <= sp_size s -> nth_error (put_at (sp_mem s) (sp_at s) t) i = nth_error (sp_mem s) i).
  { intros t L. unfold put_at.
    assert (LF : length (firstn (sp_at s) (sp_mem s)) = sp_at s) by (rewrite firstn_length; lia).
    destruct O as [O|O].
    - rewrite nth_error_app1 by lia. pose proof (firstn_skipn (sp_at s) (sp_mem s)) as X.
      transitivity (nth_error (firstn (sp_at s) (sp_mem s) ++ skipn (sp_at s) (sp_mem s)) i).
      + now rewrite nth_error_app1 by lia.
      + now rewrite X.
    - rewrite nth_error_app2 by lia. rewrite nth_error_app2 by lia.
      pose proof (firstn_skipn (sp_at s + length t) (sp_mem s)) as X.
      assert (LG : length (firstn (sp_at s + length t) (sp_mem s)) = sp_at s + length t) by (rewrite firstn_length; lia).
      transitivity (nth_error (firstn (sp_at s + length t) (sp_mem s) ++ skipn (sp_at s + length t) (sp_mem s)) i).
      + rewrite nth_error_app2 by lia. f_equal. lia.
      + now rewrite X. }
  destruct (C32_span_no_overrun s os F SM) as [[L E1]|(_ & os1 & o & os2 & _ & L & _ & E1)]; rewrite E in E1; injection E1 as -> _;
    cbn [sp_mem]; now apply G.
Qed.
Print Assumptions C32_outside_untouched.

Example C32_ex : let s := mkspan (repeat 0%N 6) 1 4 in
  span_run s [OPut 34%N; OWrite [[65%N]; [66%N]]; OPut 34%N] = Ok (mkspan [0;34;65;66;34;0]%N 5 0, true) /\
  span_run s [OPut 34%N; OWrite [[65;66;67]; [68]]%N] = Ok (mkspan [0;34;0;0;0;0]%N 2 3, false).
Proof. vm_compute. split; reflexivity. Qed.

(** ** C55 *)
Lemma fill_ok : forall svs mem p, p + length (concat svs) <= length mem ->
  fill mem p svs = Ok (put_at mem p (concat svs)).
Proof.
  induction svs as [|sv r IH]; intros mem p L; cbn [fill concat].
  - now rewrite put_at_nil.
  - cbn [concat] in L. rewrite app_length in L. destruct (length sv =? 0) eqn:E.
    + destruct sv; [|discriminate]. cbn [app length] in *. now rewrite IH by lia.
    + rewrite copy_put by lia. cbn [bind]. rewrite IH by (rewrite put_at_length; lia). now rewrite put_at_app by lia.
Qed.

(** A growing string receives exactly the bytes written, in order. *)
Theorem C55_string_output : forall os out, string_run out os = Ok (out ++ concat (map op_bytes os)).
Proof.
  induction os as [|o os IH]; intros out; cbn [string_run map concat].
  - now rewrite app_nil_r.
  - assert (E : string_op out o = Ok (out ++ op_bytes o)).
    { destruct o as [svs|c]; cbn [string_op op_bytes]; [|reflexivity].
      assert (T : fold_right (fun (sv : list N) a => length sv + a) 0 svs = length (concat svs)).
      { clear. induction svs; cbn [fold_right concat]; [reflexivity|]. rewrite app_length. lia. }
      rewrite T. rewrite fill_ok by (rewrite app_length, repeat_length; lia). f_equal. unfold put_at.
      rewrite firstn_app, Nat.sub_diag, firstn_all. cbn [firstn]. rewrite app_nil_r.
      rewrite skipn_all2 by (rewrite app_length, repeat_length; lia). now rewrite app_nil_r. }
    rewrite E. cbn [bind]. rewrite IH. now rewrite app_assoc.
Qed.
Print Assumptions C55_string_output.

(** A C stream does too, as long as no byte from 0x80 on is given to [put]. *)
Theorem C55_file_output_partial : forall os out, Forall (fun o => match o with OPut c => (c < 128)%N | _ => True end) os ->
  file_run out os = Ok (out ++ concat (map op_bytes os)).
Proof.
  induction os as [|o os IH]; intros out F; cbn [file_run map concat].
  - now rewrite app_nil_r.
  - inversion F as [|? ? F1 F2]; subst.
    assert (E : file_op out o = Ok (out ++ op_bytes o)).
    { destruct o as [svs|c]; cbn [file_op op_bytes]; [reflexivity|]. unfold file_put.
      replace (c <? 128)%N with true by lia. rewrite N.mod_small by lia. rewrite Z.eqb_refl. reflexivity. }
    rewrite E. cbn [bind]. rewrite IH by assumption. now rewrite app_assoc.
Qed.
Print Assumptions C55_file_output_partial.

(** Otherwise it throws although the byte was written without error. *)
Theorem C55_file_output_refuted : exists out c, is_bytes [c] /\ file_put out c = Err OutputError.
Proof. exists [], 195%N. split; [repeat constructor|vm_compute; reflexivity]. Qed.
Print Assumptions C55_file_output_refuted.

Example C55_ex : string_run [] [OPut 34%N; OWrite [[195;169]%N; [65%N]]; OPut 34%N] = Ok [34;195;169;65;34]%N.
Proof. vm_compute. reflexivity. Qed.

(** ** C41 *)
(** Positions after the first byte of the document.  The numbers are counted from
    zero: newlines before the position, bytes since the last of them. *)
Theorem C41_line_partial : forall doc pos, 0 < pos <= length doc ->
  find_line_number_of doc pos 0 = Ok (N.of_nat (count_occ N.eq_dec (firstn pos doc) 10%N)).
Proof.
  intros doc pos L. unfold find_line_number_of. replace (0 <? pos) with true by lia.
  replace (pos <=? length doc) with true by lia. cbn [ensure bind skipn]. rewrite Nat.sub_0_r.
  generalize (firstn pos doc) as l. intro l. f_equal.
  assert (G : forall l a, fold_left (fun count c => if (c =? 10)%N then (count + 1)%N else count) l a
      = (a + N.of_nat (count_occ N.eq_dec l 10%N))%N).
  { clear. induction l as [|x l IH]; intro a; cbn [fold_left count_occ].
    - cbn. lia.
    - rewrite IH. destruct (N.eq_dec x 10) as [->|NE].
      + rewrite N.eqb_refl. lia.
      + replace (x =? 10)%N with false by lia. reflexivity. }
  rewrite G. lia.
Qed.
Print Assumptions C41_line_partial.

Theorem C41_column_partial : forall doc line before, 0 < length (before ++ line) ->
  (before = [] \/ exists b, before = b ++ [10%N]) -> ~ In 10%N line ->
  forall rest, doc = before ++ line ++ rest ->
  find_column_number_of doc (length (before ++ line)) 0 = Ok (N.of_nat (length line)).
Proof.
  intros doc line before L B NI rest ->. unfold find_column_number_of.
  replace (0 <? length (before ++ line)) with true by lia. cbn [ensure bind skipn]. rewrite Nat.sub_0_r.
  replace (length (before ++ line) <=? length (before ++ line ++ rest)) with true by (rewrite !app_length; lia).
  rewrite app_assoc. rewrite firstn_app, Nat.sub_diag, firstn_all. cbn [firstn]. rewrite app_nil_r, rev_app_distr.
  f_equal. assert (NR : ~ In 10%N (rev line)) by (rewrite <- in_rev; exact NI).
  rewrite <- (rev_length line). revert NR. generalize (rev line) as l. intros l NR.
  assert (E : find_distance (rev before) = 0%N).
  { destruct B as [->|(b & ->)]; [reflexivity|]. rewrite rev_app_distr. reflexivity. }
  induction l as [|x l IH]; cbn [app find_distance length].
  - exact E.
  - replace (x =? 10)%N with false. 2:{ symmetry. apply N.eqb_neq. intros ->. apply NR. now left. }
    rewrite IH by (intro X; apply NR; now right). lia.
Qed.
Print Assumptions C41_column_partial.

(** Full claim: the same for the first byte.  Both functions throw there. *)
Theorem C41_start_refuted : forall doc, find_line_number_of doc 0 0 = Err UnexpectedEndOfData /\
  find_column_number_of doc 0 0 = Err UnexpectedEndOfData.
Proof. intro doc. split; reflexivity. Qed.
Print Assumptions C41_start_refuted.

Example C41_ex : let doc := bytes "ab" ++ [10%N] ++ bytes "cde" ++ [10%N] ++ bytes "fg" in
  find_line_number_of doc 8 0 = Ok 2%N /\ find_column_number_of doc 8 0 = Ok 1%N.
Proof. vm_compute. split; reflexivity. Qed.

(** ** C40 *)
(** [pieces n doc segs]: [doc] is cut into consecutive pieces, each of which but
    the last ends with a newline. *)
Definition pieces (doc : list N) (segs : list (list N)) : Prop :=
  concat segs = doc /\ Forall (fun d => d <> []) segs /\
  forall a d b, segs = a ++ d :: b -> b <> [] -> exists d', d = d' ++ [10%N].

(** What a range covers of its piece: all but white space at the end. *)
Definition shows (seg : list N) (r : option (list N)) : Prop :=
  exists t w, seg = t ++ w /\ Forall (fun c => isspace c = true) w /\
    (r = Some t \/ t = [] /\ r = None).

Lemma drop_space_spec : forall l, exists w, l = w ++ drop_space l /\ Forall (fun c => isspace c = true) w.
Proof.
  induction l as [|c l (w & E & F)]; [exists []; split; [reflexivity|constructor]|].
  cbn [drop_space]. destruct (isspace c) eqn:EC.
  - exists (c :: w). split; [cbn [app]; now f_equal|now constructor].
  - exists []. split; [reflexivity|constructor].
Qed.
Lemma trim_suffix_spec : forall l, exists w, l = trim_suffix l ++ w /\ Forall (fun c => isspace c = true) w.
Proof.
  intro l. destruct (drop_space_spec (rev l)) as (w & E & F). exists (rev w). unfold trim_suffix.
  rewrite <- rev_app_distr, <- E, rev_involutive. split; [reflexivity|].
  apply Forall_rev. exact F.
Qed.

Lemma line_end_spec : forall l, l <> [] -> exists n, to_line_end l = S n /\ S n <= length l /\
  (S n < length l -> nth_error l n = Some 10%N).
Proof.
  induction l as [|c l IH]; intro NE; [congruence|]. cbn [to_line_end].
  destruct (N.eqb_spec c 10) as [->|NC].
  - exists 0. cbn [length nth_error]. split; [reflexivity|]. split; [lia|auto].
  - destruct l as [|d l].
    + exists 0. cbn. split; [reflexivity|]. split; [lia|lia].
    + destruct IH as (n & E & L & H); [discriminate|]. exists (S n). rewrite E. cbn [length nth_error] in *.
      split; [reflexivity|]. split; [lia|]. intro X. apply H. lia.
Qed.

Fixpoint collect (rs : list (option (list N))) : list (list N) :=
  match rs with [] => [] | Some d :: r => d :: collect r | None :: r => collect r end.

Lemma part_loop : forall seg f doc out, length doc < f ->
  exists segs rs, pieces doc segs /\ Forall2 shows segs rs /\
    loop (part_body seg) f (doc, out) = Ok (out ++ collect rs) /\
    (length segs - 1) * S seg <= length doc - 1.
Proof.
  intros seg. induction f as [|f IH]; intros doc out L; [lia|]. cbn [loop]. unfold part_body at 1.
  destruct (length doc =? 0) eqn:E0.
  { destruct doc; [|discriminate]. exists [], []. cbn [bind collect]. rewrite app_nil_r.
    split; [|split; [constructor|split; [reflexivity|cbn; lia]]].
    split; [reflexivity|]. split; [constructor|]. intros [|] d b E; discriminate. }
  destruct (length doc <=? seg) eqn:E1.
  { exists [doc], [Some doc]. cbn [bind collect].
    split; [|split; [|split; [reflexivity|cbn; lia]]].
    - split; [cbn; now rewrite app_nil_r|]. split; [constructor; [|constructor]; destruct doc; discriminate|].
      intros [|x a] d b E NB; [injection E as _ <-; congruence|]. destruct a; discriminate.
    - constructor; [|constructor]. exists doc, []. rewrite app_nil_r. split; [reflexivity|]. split; [constructor|auto]. }
  assert (NS : skipn seg doc <> []).
  { intro X. assert (length (skipn seg doc) = 0) by (rewrite X; reflexivity). rewrite skipn_length in H. lia. }
  destruct (line_end_spec _ NS) as (n & EN & LN & HN). rewrite EN. rewrite skipn_length in LN, HN.
  set (sz := seg + S n) in *. cbn [bind]. set (d := trim_suffix (firstn sz doc)).
  assert (LF : length (firstn sz doc) = sz) by (rewrite firstn_length; unfold sz; lia).
  destruct (IH (skipn sz doc) (if length d =? 0 then out else out ++ [d])) as (segs & rs & (P1 & P2 & P3) & SH & E & CN).
  { rewrite skipn_length. unfold sz. lia. }
  destruct (trim_suffix_spec (firstn sz doc)) as (w & EW & FW). fold d in EW.
  exists (firstn sz doc :: segs), ((if length d =? 0 then None else Some d) :: rs).
  split; [|split; [|split]].
  - split; [cbn [concat]; rewrite P1; apply firstn_skipn|]. split.
    + constructor; [|exact P2]. intro X. rewrite X in LF. cbn in LF. unfold sz in LF. lia.
    + intros [|x a] d0 b E2 NB.
      * injection E2 as <- <-.
        assert (LB : sz < length doc).
        { destruct (Nat.lt_ge_cases sz (length doc)) as [|G]; [assumption|]. exfalso. rewrite skipn_all2 in P1 by lia.
          destruct segs as [|x segs]; [congruence|]. inversion P2; subst. destruct x; [congruence|discriminate]. }
        assert (N10 : nth_error doc (seg + n) = Some 10%N).
        { specialize (HN ltac:(unfold sz in LB; lia)). rewrite <- HN. clear. revert doc n.
          induction seg as [|k IHk]; intros doc n; [reflexivity|]. destruct doc; cbn; [now destruct n|apply IHk]. }
        exists (firstn (seg + n) doc). unfold sz. replace (seg + S n) with (S (seg + n)) by lia.
        clear - N10. revert doc N10. generalize (seg + n) as k. induction k as [|k IHk]; intros [|x doc] H; try discriminate.
        -- cbn in *. now injection H as ->.
        -- cbn [firstn app]. f_equal. now apply IHk.
      * injection E2 as _ E2. apply (P3 a d0 b E2 NB).
  - constructor; [|exact SH]. exists d, w. split; [exact EW|]. split; [exact FW|].
    destruct (length d =? 0) eqn:ED; [right|left; reflexivity]. destruct d; [auto|discriminate].
  - rewrite E. destruct (length d =? 0); cbn [collect]; [reflexivity|]. now rewrite <- app_assoc.
  - cbn [length]. rewrite skipn_length in CN.
    destruct segs as [|x segs]; [cbn [length]; lia|]. cbn [length] in *.
    assert (LB : sz < length doc).
    { destruct (Nat.lt_ge_cases sz (length doc)) as [|G]; [assumption|]. exfalso. rewrite skipn_all2 in P1 by lia.
      inversion P2; subst. destruct x; [congruence|discriminate]. }
    unfold sz in *. nia.
Qed.

(** Every document, every number of partitions: the ranges are the consecutive
    pieces of the document, each piece but the last ending with a newline, with
    white space at the end of a piece left out (and blank pieces omitted); there
    are at most as many as asked for. *)
Theorem C40_partition : forall n doc, exists segs rs,
  (doc <> [] -> pieces doc segs) /\ Forall2 shows segs rs /\ partition_jsonl n doc = Ok (collect rs) /\
  (length segs <= N.to_nat n \/ length segs <= 1).
Proof.
  intros n doc. unfold partition_jsonl. destruct (n <=? 1)%N eqn:EN.
  - exists [doc], [Some doc]. split; [|split; [|split; [reflexivity|right; cbn; lia]]].
    + intro ND. split; [cbn; now rewrite app_nil_r|]. split; [constructor; [|constructor]; exact ND|].
      intros [|x a] d b E NB; [injection E as _ <-; congruence|]. destruct a; discriminate.
    + constructor; [|constructor]. exists doc, []. rewrite app_nil_r. split; [reflexivity|]. split; [constructor|auto].
  - set (seg := N.to_nat (N.of_nat (length doc) / n)).
    destruct (part_loop seg (S (length doc)) doc [] ltac:(lia)) as (segs & rs & P & SH & E & CN).
    exists segs, rs. split; [auto|]. split; [exact SH|]. split; [exact E|].
    destruct doc as [|c doc].
    + right. destruct P as (P1 & P2 & _). destruct segs as [|x segs]; [cbn; lia|]. inversion P2; subst. destruct x; [congruence|discriminate].
    + left. pose proof (N.div_mod (N.of_nat (length (c :: doc))) n ltac:(lia)) as DM.
      pose proof (N.mod_lt (N.of_nat (length (c :: doc))) n ltac:(lia)) as ML.
      assert (SQ : N.of_nat seg = (N.of_nat (length (c :: doc)) / n)%N) by (unfold seg; lia).
      rewrite <- SQ in DM. clearbody seg. cbn [length] in *.
      assert (X : ((N.of_nat (length segs) - 1) * (N.of_nat seg + 1) <= N.of_nat (length doc))%N) by nia.
      nia.
Qed.
Print Assumptions C40_partition.

Example C40_ex : partition_jsonl 2 (bytes "1" ++ [10%N] ++ bytes "22" ++ [10%N] ++ bytes "3" ++ [10%N] ++ bytes "4")
  = Ok [bytes "1" ++ [10%N] ++ bytes "22"; bytes "3" ++ [10%N] ++ bytes "4"].
Proof. vm_compute. reflexivity. Qed.
