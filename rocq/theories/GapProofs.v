(** Runs of whitespace and comments. *)
From Coq Require Import List NArith ZArith Bool Lia Arith ZifyBool ZifyNat ZifyN.
From Verif Require Import Base Mem Loop PolicyModel IntValueProofs SpecNum SpecText SpecJson StrScanModel SkipModel SkipProofs.
Import ListNotations.
Local Open Scope N_scope.

(** ** Specification *)

(** Whitespace and hash comments; a comment ends with its newline. *)
Inductive hash_gap : list N -> Prop :=
| hg_nil : hash_gap []
| hg_ws : forall c g, json_ws c -> hash_gap g -> hash_gap (c :: g)
| hg_line : forall b g, ~ In 10 b -> hash_gap g -> hash_gap (35 :: b ++ 10 :: g).

(** Contents of a block comment: no star-slash inside, and none formed with the
    closing star. *)
Definition block_body (b : list N) : Prop := forall x y, b ++ [42] <> x ++ 42 :: 47 :: y.
(** The contents with no two stars in a row, the closing one included. *)
Inductive no_double_star : list N -> Prop :=
| ds_nil : no_double_star []
| ds_plain : forall c b, c <> 42 -> no_double_star b -> no_double_star (c :: b)
| ds_star : forall c b, c <> 42 -> c <> 47 -> no_double_star b -> no_double_star (42 :: c :: b).

(** Whitespace, line comments and block comments, contents of the latter
    restricted by [P]. *)
Inductive cpp_gap (P : list N -> Prop) : list N -> Prop :=
| cg_nil : cpp_gap P []
| cg_ws : forall c g, json_ws c -> cpp_gap P g -> cpp_gap P (c :: g)
| cg_line : forall b g, ~ In 10 b -> cpp_gap P g -> cpp_gap P (47 :: 47 :: b ++ 10 :: g)
| cg_block : forall b g, P b -> cpp_gap P g -> cpp_gap P (47 :: 42 :: b ++ 42 :: 47 :: g).

Lemma no_double_star_body : forall b, no_double_star b -> block_body b.
Proof.
  unfold block_body. induction 1; intros x y E.
  - destruct x as [|? [|? ?]]; discriminate.
  - destruct x as [|d x]; cbn in E; [congruence|]. injection E as -> E. eapply IHno_double_star; eauto.
  - destruct x as [|d x]; cbn in E; [congruence|]. injection E as <- E. destruct x as [|d x]; cbn in E; [congruence|].
    injection E as <- E. eapply IHno_double_star; eauto.
Qed.

(** What comes after the gap: the end of the data, or a byte above space that
    starts no comment. *)
Definition gap_end (buf : list N) (j last : nat) : Prop :=
  j = last \/ exists b, nth_error buf j = Some b /\ 32 < b < 256 /\ b <> 47 /\ b <> 35.

(** ** Searching *)

Lemma memchr_checked_ok : forall c u buf i last, ~ In c u -> sub_at buf i (u ++ [c]) -> (i + length u < last)%nat ->
  memchr_checked c buf i last = Ok (i + length u)%nat.
Proof.
  intros c u buf i last NI HS HL. unfold memchr_checked.
  match goal with |- loop ?bd _ _ = _ => set (body := bd) end.
  apply sub_at_app in HS as [HS [HC _]].
  apply (loop_exit body (fun s => last - s)%nat) with (s' := (i + length u)%nat); [| |lia].
  - clear HC. revert i HS HL. induction u as [|d u IH]; intros i HS HL; cbn [length] in *; [rewrite Nat.add_0_r; constructor|].
    destruct HS as [H1 H2]. apply runs_step with (s1 := S i); [|lia|].
    + subst body. cbv beta. destruct (Nat.ltb_spec i last); [|lia]. rewrite (rd_some _ _ _ H1). cbn [bind].
      destruct (N.eqb_spec d c) as [->|]; [destruct NI; left; auto|reflexivity].
    + replace (i + S (length u))%nat with (S i + length u)%nat by lia. apply IH; auto; [|lia]. intros X; apply NI; right; auto.
  - subst body. cbv beta. destruct (Nat.ltb_spec (i + length u) last); [|lia]. rewrite (rd_some _ _ _ HC). cbn [bind].
    now rewrite N.eqb_refl.
Qed.

(** The block comment loop reaches the end of a body without double stars. *)
Lemma block_comment_ok : forall b buf i last, no_double_star b -> sub_at buf i (b ++ [42; 47]) -> (i + length b + 2 <= last)%nat ->
  block_comment_checked buf i last = Ok (i + length b + 2)%nat.
Proof.
  intros b buf i last ND HS HL. unfold block_comment_checked.
  match goal with |- loop ?bd _ _ = _ => set (body := bd) end.
  (* every body is plain bytes up to a star *)
  assert (SPLIT : forall b, no_double_star b -> exists u v, ~ In 42 u /\ b = u ++ v /\
     (v = [] \/ exists c w, v = 42 :: c :: w /\ c <> 47 /\ no_double_star w)).
  { clear. induction 1.
    - exists [], []. cbn; auto.
    - destruct IHno_double_star as (u & v & NI & -> & X). exists (c :: u), v. repeat split; auto. cbn. intuition congruence.
    - exists [], (42 :: c :: b). cbn. repeat split; eauto 6. }
  remember (length b) as n eqn:EN. assert (LN : (length b <= n)%nat) by lia. rewrite EN in *. clear EN. 
  assert (G : forall n b i, (length b <= n)%nat -> no_double_star b -> sub_at buf i (b ++ [42; 47]) -> (i + length b + 2 <= last)%nat ->
    exists k, runs body (fun s => last - s)%nat i k /\ body k = Ok (inr (i + length b + 2)%nat)).
  { clear b i ND HS HL LN n. induction n as [|n IH]; intros b i LN ND HS HL.
    all: destruct (SPLIT b ND) as (u & v & NI & -> & X).
    all: rewrite app_length in *; rewrite <- app_assoc in HS; apply sub_at_app in HS as [S1 S2].
    all: assert (FIND : forall w, v ++ [42; 47] = 42 :: w -> memchr_checked c_star buf i last = Ok (i + length u)%nat)
      by (intros w Ew; rewrite Ew in S2; destruct S2; apply memchr_checked_ok; auto; [apply sub_at_app; split; cbn; auto|lia]).
    all: assert (EXIT : v = [] -> body i = Ok (inr (i + (length u + length v) + 2)%nat))
      by (intros ->; cbn [length app] in *; subst body; cbv beta; destruct (Nat.ltb_spec i last); [|lia];
          rewrite (FIND [47]) by reflexivity; cbn [bind]; cbv zeta; destruct (Nat.ltb_spec (i + length u) last); [|lia];
          destruct (Nat.ltb_spec (S (i + length u)) last); [|lia]; destruct S2 as (_ & S2 & _);
          rewrite (rd_some _ _ _ S2); cbn [bind]; change (47 =? c_slash) with true; cbn iota; do 2 f_equal; lia).
    - destruct X as [->|(c & w & -> & _)]; [|cbn [length] in LN; lia]. exists i. split; [constructor|auto].
    - destruct X as [->|(c & w & -> & NS & NW)]; [exists i; split; [constructor|auto]|].
      cbn [length app] in *. destruct S2 as (S2 & S3 & S4).
      destruct (IH w (S (S (i + length u)))) as (k & R & B); auto; [lia|lia|].
      exists k. split; [|rewrite B; do 2 f_equal; lia].
      apply runs_step with (s1 := S (S (i + length u))); [|lia|auto].
      subst body. cbv beta. destruct (Nat.ltb_spec i last); [|lia]. rewrite (FIND (c :: w ++ [42; 47])) by reflexivity.
      cbn [bind]. cbv zeta. destruct (Nat.ltb_spec (i + length u) last); [|lia].
      destruct (Nat.ltb_spec (S (i + length u)) last); [|lia]. rewrite (rd_some _ _ _ S3). cbn [bind].
      now replace (c =? c_slash) with false by (unfold c_slash; lia). }
  destruct (G (length b) b i) as (k & R & B); auto.
  eapply loop_exit; eauto.
Qed.

(** ** One run of comments *)

Definition ws_head (g : list N) : Prop := g = [] \/ exists c r, g = c :: r /\ json_ws c.

Lemma cpp_skip_ok : forall g buf i last, cpp_gap no_double_star g -> sub_at buf i g -> (i + length g <= last)%nat ->
  gap_end buf (i + length g) last ->
  exists a r, g = a ++ r /\ cpp_gap no_double_star r /\ ws_head r /\ cpp_comments_checked buf i last = Ok (i + length a)%nat.
Proof.
  intros g buf i last HG HS HL HE. unfold cpp_comments_checked.
  match goal with |- context [loop ?bd _ _] => set (body := bd) end.
  assert (G : exists a r, g = a ++ r /\ cpp_gap no_double_star r /\ ws_head r /\ 
     runs body (fun s => last - s)%nat i (i + length a)%nat /\ body (i + length a)%nat = Ok (inr (i + length a)%nat)).
  { revert i HS HL HE. induction HG as [|c g W HG IH|b g NB HG IH|b g NB HG IH]; intros i HS HL HE; cbn [length] in *.
    - exists [], []. cbn [length]. rewrite Nat.add_0_r in *. split; [auto|]. split; [constructor|]. split; [left; auto|].
      split; [constructor|]. subst body. cbv beta. destruct (Nat.ltb_spec i last); [|reflexivity].
      destruct HE as [|(b & Hb & _ & N1 & _)]; [lia|]. rewrite (rd_some _ _ _ Hb). cbn [bind].
      now replace (b =? c_slash) with false by (unfold c_slash; lia).
    - exists [], (c :: g). cbn [length]. rewrite Nat.add_0_r. split; [auto|]. split; [constructor; auto|]. split; [right; eauto|].
      split; [constructor|]. subst body. cbv beta. destruct (Nat.ltb_spec i last); [|lia]. destruct HS as [S1 _].
      rewrite (rd_some _ _ _ S1). cbn [bind]. apply json_ws_not_comment in W.
      now replace (c =? c_slash) with false by (unfold c_slash; lia).
    - rewrite app_length in *. cbn [length] in *. destruct HS as (S1 & S2 & S3). 
      change (b ++ 10 :: g) with (b ++ [10] ++ g) in *. rewrite app_assoc in *. pose proof S3 as S4. apply sub_at_app in S4 as [S4 S5].
      rewrite app_length in S5. cbn [length] in S5.
      assert (F : memchr_checked c_nl buf i last = Ok (i + S (S (length b)))%nat).
      { apply (memchr_checked_ok 10 (47 :: 47 :: b)); cbn [length]; [|cbn; auto|lia]. cbn. intuition discriminate. }
      destruct (IH (S (S i) + (length b + 1))%nat) as (a & r & -> & HR & HW & R & B); auto; [lia| |].
      { replace (S (S i) + (length b + 1) + length g)%nat with (i + S (S (length b + S (length g))))%nat by lia. auto. }
      exists (47 :: 47 :: (b ++ [10]) ++ a), r. split; [cbn; rewrite <- !app_assoc; reflexivity|]. split; [auto|]. split; [auto|].
      cbn [length]. rewrite !app_length. cbn [length].
      replace (i + S (S (length b + 1 + length a)))%nat with (S (S i) + (length b + 1) + length a)%nat by lia. split; auto.
      eapply runs_step; [| |exact R]; [|lia]. subst body. cbv beta. destruct (Nat.ltb_spec i last); [|lia].
      rewrite (rd_some _ _ _ S1). cbn [bind]. change (47 =? c_slash) with true. cbn iota. rewrite (rd_some _ _ _ S2). cbn [bind].
      change (47 =? c_slash) with true. cbn iota. rewrite F. cbn [bind].
      destruct (Nat.ltb_spec (i + S (S (length b))) last); [|lia]. do 2 f_equal. lia.
    - rewrite app_length in *. cbn [length] in *. destruct HS as (S1 & S2 & S3). 
      change (b ++ 42 :: 47 :: g) with (b ++ [42; 47] ++ g) in *. rewrite app_assoc in *. pose proof S3 as S4. apply sub_at_app in S4 as [S4 S5].
      rewrite app_length in S5. cbn [length] in S5.
      assert (F : block_comment_checked buf (i + 2) last = Ok (i + 2 + length b + 2)%nat).
      { apply block_comment_ok; auto; [|lia]. now replace (i + 2)%nat with (S (S i)) by lia. }
      destruct (IH (S (S i) + (length b + 2))%nat) as (a & r & -> & HR & HW & R & B); auto; [lia| |].
      { replace (S (S i) + (length b + 2) + length g)%nat with (i + S (S (length b + S (S (length g)))))%nat by lia. auto. }
      exists (47 :: 42 :: (b ++ [42; 47]) ++ a), r. split; [cbn; rewrite <- !app_assoc; reflexivity|]. split; [auto|]. split; [auto|].
      cbn [length]. rewrite !app_length. cbn [length].
      replace (i + S (S (length b + 2 + length a)))%nat with (S (S i) + (length b + 2) + length a)%nat by lia. split; auto.
      eapply runs_step; [| |exact R]; [|lia]. subst body. cbv beta. destruct (Nat.ltb_spec i last); [|lia].
      rewrite (rd_some _ _ _ S1). cbn [bind]. change (47 =? c_slash) with true. cbn iota. rewrite (rd_some _ _ _ S2). cbn [bind].
      change (42 =? c_slash) with false. change (42 =? c_star) with true. cbn iota. rewrite F. cbn [bind]. do 2 f_equal. lia. }
  destruct G as (a & r & E & HR & HW & R & B). exists a, r. repeat split; auto. eapply loop_exit; eauto.
Qed.

Lemma hash_skip_ok : forall g buf i last, hash_gap g -> sub_at buf i g -> (i + length g <= last)%nat ->
  gap_end buf (i + length g) last ->
  exists a r, g = a ++ r /\ hash_gap r /\ ws_head r /\ hash_comments_checked buf i last = Ok (i + length a)%nat.
Proof.
  intros g buf i last HG HS HL HE. unfold hash_comments_checked.
  match goal with |- context [loop ?bd _ _] => set (body := bd) end.
  assert (G : exists a r, g = a ++ r /\ hash_gap r /\ ws_head r /\ 
     runs body (fun s => last - s)%nat i (i + length a)%nat /\ body (i + length a)%nat = Ok (inr (i + length a)%nat)).
  { revert i HS HL HE. induction HG as [|c g W HG IH|b g NB HG IH]; intros i HS HL HE; cbn [length] in *.
    - exists [], []. cbn [length]. rewrite Nat.add_0_r in *. split; [auto|]. split; [constructor|]. split; [left; auto|].
      split; [constructor|]. subst body. cbv beta. destruct (Nat.ltb_spec i last); [|reflexivity].
      destruct HE as [|(b & Hb & _ & _ & N1)]; [lia|]. rewrite (rd_some _ _ _ Hb). cbn [bind].
      now replace (b =? c_hash) with false by (unfold c_hash; lia).
    - exists [], (c :: g). cbn [length]. rewrite Nat.add_0_r. split; [auto|]. split; [constructor; auto|]. split; [right; eauto|].
      split; [constructor|]. subst body. cbv beta. destruct (Nat.ltb_spec i last); [|lia]. destruct HS as [S1 _].
      rewrite (rd_some _ _ _ S1). cbn [bind]. apply json_ws_not_comment in W.
      now replace (c =? c_hash) with false by (unfold c_hash; lia).
    - rewrite app_length in *. cbn [length] in *. destruct HS as (S1 & S3). 
      change (b ++ 10 :: g) with (b ++ [10] ++ g) in *. rewrite app_assoc in *. pose proof S3 as S4. apply sub_at_app in S4 as [S4 S5].
      rewrite app_length in S5. cbn [length] in S5.
      assert (F : memchr_checked c_nl buf (S i) last = Ok (S i + length b)%nat).
      { apply memchr_checked_ok; auto. lia. }
      apply sub_at_app in S4 as [_ [S4 _]].
      destruct (IH (S i + (length b + 1))%nat) as (a & r & -> & HR & HW & R & B); auto; [lia| |].
      { replace (S i + (length b + 1) + length g)%nat with (i + S (length b + S (length g)))%nat by lia. auto. }
      exists (35 :: (b ++ [10]) ++ a), r. split; [cbn; rewrite <- !app_assoc; reflexivity|]. split; [auto|]. split; [auto|].
      cbn [length]. rewrite !app_length. cbn [length].
      replace (i + S (length b + 1 + length a))%nat with (S i + (length b + 1) + length a)%nat by lia. split; auto.
      eapply runs_step; [| |exact R]; [|lia]. subst body. cbv beta. destruct (Nat.ltb_spec i last); [|lia].
      rewrite (rd_some _ _ _ S1). cbn [bind]. change (35 =? c_hash) with true. cbn iota. rewrite F. cbn [bind].
      rewrite (rd_some _ _ _ S4). cbn [bind]. change (10 =? c_nl) with true. cbn iota. do 2 f_equal. lia. }
  destruct G as (a & r & E & HR & HW & R & B). exists a, r. repeat split; auto. eapply loop_exit; eauto.
Qed.

(** ** Whole gaps *)

Lemma gap_trim_ok : forall (G : list N -> Prop) skip, (forall c g, json_ws c -> G (c :: g) -> G g) ->
  (forall g (buf : list N) i last, G g -> sub_at buf i g -> (i + length g <= last)%nat -> gap_end buf (i + length g) last ->
    exists a r, g = a ++ r /\ G r /\ ws_head r /\ skip buf i last = Ok (i + length a)%nat) ->
  forall g buf i last, G g -> sub_at buf i g -> (i + length g <= last)%nat -> gap_end buf (i + length g) last ->
  comment_trim_checked skip buf i last = Ok (i + length g)%nat.
Proof.
  intros G skip GT SK g buf i last HG HS HL HE. unfold comment_trim_checked.
  destruct (SK g buf i last HG HS HL HE) as (a & r & -> & HR & HW & ->). cbn [bind].
  rewrite app_length in *. apply sub_at_app in HS as [_ HS].
  match goal with |- loop ?bd _ _ = _ => set (body := bd) end.
  assert (X : forall n r i, (length r <= n)%nat -> G r -> ws_head r -> sub_at buf i r -> (i + length r <= last)%nat -> gap_end buf (i + length r) last ->
    runs body (fun s => last - s)%nat i (i + length r)%nat /\ body (i + length r)%nat = Ok (inr (i + length r)%nat)).
  { clear -GT SK. intros n. induction n as [|n IH]; intros r i LN HG HW HS HL HE.
    all: destruct HW as [->|(c & g & -> & W)]; [|cbn [length] in *].
    1, 3: cbn [length]; rewrite Nat.add_0_r in *; split; [constructor|]; subst body; cbv beta; destruct (Nat.ltb_spec i last); [|reflexivity];
      destruct HE as [|(b & Hb & B1 & _)]; [lia|]; rewrite (rd_some _ _ _ Hb); cbn [bind];
      rewrite is_space_spec by lia; now replace ((1 <=? b) && (b <=? 32)) with false by lia.
    - lia.
    - destruct HS as [S1 S2]. 
      destruct (SK g buf (S i) last) as (a & r & -> & HR & HW & E); [now apply (GT c)|auto|lia| |].
      { replace (S i + length g)%nat with (i + S (length g))%nat by lia. auto. }
      rewrite app_length in *. apply sub_at_app in S2 as [_ S2].
      destruct (IH r (S i + length a)%nat) as (R & B); auto; try lia.
      { replace (S i + length a + length r)%nat with (i + S (length a + length r))%nat by lia. auto. }
      replace (S i + length a + length r)%nat with (i + S (length a + length r))%nat in * by lia. split; auto.
      eapply runs_step; [| |exact R]; [|lia].
      subst body. cbv beta. destruct (Nat.ltb_spec i last); [|lia]. rewrite (rd_some _ _ _ S1). cbn [bind].
      rewrite json_ws_space by auto. rewrite E. reflexivity. }
  destruct (X (length r) r (i + length a)%nat) as (R & B); auto; [lia| |].
  { now rewrite <- Nat.add_assoc. }
  rewrite <- Nat.add_assoc in *. apply (loop_exit body (fun s => last - s)%nat) with (s' := (i + (length a + length r))%nat); auto.
Qed.
