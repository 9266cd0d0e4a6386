(** Deciding the side conditions of concrete examples. *)
From Coq Require Import List NArith ZArith Bool Lia Arith.
From Verif Require Import Base Mem PolicyModel IntModel IntSerModel SpecNum SpecText SpecJson
  IntProofs IntSerProofs IntValueProofs.
Import ListNotations.
Local Open Scope N_scope.

(** Closes the side conditions of concrete examples. *)
Lemma is_bytes_dec : forall l, forallb byteb l = true -> is_bytes l.
Proof. intros l H. apply Forall_forall. intros x Hx. rewrite forallb_forall in H. apply N.ltb_lt, H, Hx. Qed.
Definition canonicalb (ds : list N) : bool :=
  forallb is_digb ds && match ds with [] => false | 48 :: _ :: _ => false | _ => true end.
Lemma canonical_dec : forall ds, canonicalb ds = true -> canonical ds.
Proof.
  intros ds H. apply andb_true_iff in H as [H1 H2]. split; [now apply forallb_digits|].
  split; [now destruct ds|]. intros r ->. now destruct r.
Qed.
Ltac ex := repeat match goal with
  | |- _ /\ _ => split
  | |- is_bytes _ => apply is_bytes_dec; reflexivity
  | |- digits _ => apply forallb_digits; reflexivity
  | |- canonical _ => apply canonical_dec; reflexivity
  | |- sub_at _ _ _ => vm_compute; repeat split
  | |- _ <> [] => discriminate
  | |- int_width _ => solve [left; reflexivity|right; left; reflexivity|right; right; left; reflexivity|right; right; right; reflexivity]
  | |- in_range _ _ => unfold in_range; split; [discriminate|reflexivity]
  | |- (_ <= _)%nat => vm_compute; lia
  | |- (_ <= _)%N => discriminate
  | |- (_ < _)%N => reflexivity
  | |- _ = _ => vm_compute; reflexivity
  end.

(** String bodies *)
Fixpoint str_bodyb (t : list N) : bool :=
  match t with
  | [] => true
  | 92 :: _ :: r => str_bodyb r
  | 92 :: _ => false
  | c :: r => negb (c =? 34) && str_bodyb r
  end.
Lemma str_body_dec : forall n t, (length t <= n)%nat -> str_bodyb t = true -> str_body t.
Proof.
  induction n; intros t Hn H; destruct t as [|c t]; cbn [length] in *; try lia; try apply sb_nil.
  destruct (N.eq_dec c 92) as [->|NB].
  - destruct t as [|d t]; [discriminate|]. apply sb_esc. apply IHn; [cbn [length] in *; lia|exact H].
  - assert (E : negb (c =? 34) && str_bodyb t = true).
    { rewrite <- H. cbn [str_bodyb]. destruct c as [|p]; auto.
      repeat (destruct p as [p|p|]; auto). contradiction. }
    apply andb_true_iff in E as [E1 E2]. apply sb_plain; auto; [intros ->; discriminate|].
    apply IHn; auto. lia.
Qed.
