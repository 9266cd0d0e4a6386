(** A necessary condition for being JSON, used to show that a text is not: after
    a string or a closed array or object comes whitespace, a separator, a closing
    bracket or the end. *)
From Coq Require Import List NArith Bool Lia.
From Verif Require Import SpecNum SpecText SpecJson.
Import ListNotations.
Local Open Scope N_scope.

Inductive tok := Before | Inside | Escape | After | Literal.
Definition is_ws (c : N) : bool := (c =? 32) || (c =? 9) || (c =? 10) || (c =? 13).
Definition step (s : tok) (c : N) : option tok :=
  match s with
  | Inside => Some (if c =? 34 then After else if c =? 92 then Escape else Inside)
  | Escape => Some Inside
  | Before =>
      Some (if is_ws c then Before else if c =? 34 then Inside
            else if (c =? 91) || (c =? 123) || (c =? 44) || (c =? 58) then Before
            else if (c =? 93) || (c =? 125) then After else Literal)
  | After =>
      if is_ws c then Some After else if (c =? 44) || (c =? 58) then Some Before
      else if (c =? 93) || (c =? 125) then Some After else None
  | Literal =>
      if is_ws c then Some After else if (c =? 44) || (c =? 58) then Some Before
      else if (c =? 93) || (c =? 125) then Some After
      else if (c =? 34) || (c =? 91) || (c =? 123) then None else Some Literal
  end.
Fixpoint run (s : tok) (l : list N) : option tok :=
  match l with [] => Some s | c :: r => match step s c with Some s' => run s' r | None => None end end.

Lemma run_app : forall a b s, run s (a ++ b) = match run s a with Some s' => run s' b | None => None end.
Proof. induction a as [|c a IH]; intros b s; cbn [run app]; [reflexivity|]. destruct (step s c); auto. Qed.

Definition ended (s : option tok) : Prop := s = Some After \/ s = Some Literal.

Lemma ws_is : forall c, json_ws c -> is_ws c = true.
Proof. intros c [->|[->|[->| ->]]]; reflexivity. Qed.
Lemma run_ws_before : forall w, ws w -> run Before w = Some Before.
Proof. unfold ws. induction 1 as [|c w H HW IH]; [reflexivity|]. cbn [run step]. rewrite (ws_is c H). exact IH. Qed.
Lemma run_ws_after : forall w, ws w -> run After w = Some After.
Proof. unfold ws. induction 1 as [|c w H HW IH]; [reflexivity|]. cbn [run step]. rewrite (ws_is c H). exact IH. Qed.
Lemma run_ws_ended : forall w s, ended (Some s) -> ws w -> ended (run s w).
Proof.
  intros w s [E|E] H; injection E as ->; [left; now apply run_ws_after|]. destruct w as [|c w]; [now right|].
  inversion H; subst. cbn [run step]. rewrite ws_is by assumption. left. now apply run_ws_after.
Qed.
Lemma run_string : forall b, rfc_body b -> run Inside b = Some Inside.
Proof.
  induction 1 as [|c t C1 C2 C3 HB IH|c t C1 HB IH|a b c d t A1 A2 A3 A4 HB IH]; cbn [run step]; auto.
  - destruct (N.eqb_spec c 34); [contradiction|]. destruct (N.eqb_spec c 92); [contradiction|]. exact IH.
  - assert (X : forall x, is_hex x -> step Inside x = Some Inside).
    { unfold is_hex, is_dig. intros x Hx. unfold step. rewrite (proj2 (N.eqb_neq x 34)), (proj2 (N.eqb_neq x 92)) by lia. reflexivity. }
    change (run Inside (a :: b :: c :: d :: t) = Some Inside). cbn [run]. rewrite (X a A1), (X b A2), (X c A3), (X d A4). exact IH.
Qed.
Definition numc (c : N) : Prop := 48 <= c <= 57 \/ c = 43 \/ c = 45 \/ c = 46 \/ c = 69 \/ c = 101.
Lemma run_num : forall l, Forall numc l -> run Literal l = Some Literal.
Proof.
  induction 1 as [|c l H HL IH]; [reflexivity|]. cbn [run].
  assert (E : step Literal c = Some Literal).
  { unfold step, is_ws. repeat match goal with |- context [?a =? ?b] => rewrite (proj2 (N.eqb_neq a b)) by (unfold numc in H; lia) end. reflexivity. }
  rewrite E. exact IH.
Qed.
Lemma run_num_first : forall l, l <> [] -> Forall numc l -> run Before l = Some Literal.
Proof.
  intros [|c l] NE H; [congruence|]. inversion H as [|? ? H1 H2]; subst. cbn [run].
  assert (E : step Before c = Some Literal).
  { unfold step, is_ws. repeat match goal with |- context [?a =? ?b] => rewrite (proj2 (N.eqb_neq a b)) by (unfold numc in H1; lia) end. reflexivity. }
  rewrite E. now apply run_num.
Qed.
Lemma digits_numc : forall l, digits l -> Forall numc l.
Proof. intros l H. unfold digits in H. eapply Forall_impl; [|exact H]. unfold is_dig, numc. intros a Ha. lia. Qed.

Lemma jnum_chars : forall n, jnum n -> Forall numc n /\ n <> [].
Proof.
  intros n H. destruct H as [sg i f e HS (HI & HN & _) HF HE]. split.
  - apply Forall_app. split; [destruct HS as [->| ->]; repeat constructor; unfold numc; lia|].
    apply Forall_app. split; [now apply digits_numc|]. apply Forall_app. split.
    + destruct HF; [constructor|]. constructor; [unfold numc; lia|now apply digits_numc].
    + destruct HE as [|e s ds HE HS' HD HN']; [constructor|]. constructor; [unfold numc; lia|]. apply Forall_app. split; [|now apply digits_numc].
      destruct HS' as [->|[->| ->]]; repeat constructor; unfold numc; lia.
  - destruct HS as [->| ->]; [|discriminate]. destruct i; [congruence|discriminate].
Qed.

(** Closing an array or object *)
Lemma run_close : forall s c, ended (Some s) -> c = 93 \/ c = 125 -> step s c = Some After.
Proof. intros s c [E|E] [->| ->]; injection E as ->; reflexivity. Qed.
Lemma run_comma : forall s, ended (Some s) -> step s 44 = Some Before.
Proof. intros s [E|E]; injection E as ->; reflexivity. Qed.

Theorem json_tokens :
  (forall v t, jtext rfc_body v t -> ended (run Before t)) /\
  (forall es t, jelems rfc_body es t -> ended (run Before t)) /\
  (forall ms t, jmembers rfc_body ms t -> ended (run Before t)).
Proof.
  assert (EI : forall r, ended r -> exists s, r = Some s /\ ended (Some s)) by (intros r [->| ->]; eexists; split; try reflexivity; [now left|now right]).
  assert (NAME : forall k l, rfc_body k -> run Before ((34 :: k ++ [34]) ++ l) = run After l).
  { intros k l HK. change ((34 :: k ++ [34]) ++ l) with ([34] ++ (k ++ [34]) ++ l). rewrite <- app_assoc, run_app. change (run Before [34]) with (Some Inside). cbv iota beta. rewrite run_app, (run_string k HK). reflexivity. }
  apply jtext_ind3; intros.
  - right. reflexivity.
  - right. reflexivity.
  - right. reflexivity.
  - right. destruct (jnum_chars n j) as [H1 H2]. now apply run_num_first.
  - left. rewrite <- (app_nil_r (34 :: b ++ [34])). now rewrite NAME.
  - left. change (91 :: w ++ [93]) with ([91] ++ w ++ [93]). rewrite run_app. change (run Before [91]) with (Some Before). cbv iota beta. rewrite run_app. now rewrite run_ws_before.
  - left. change (91 :: t ++ [93]) with ([91] ++ t ++ [93]). rewrite run_app. change (run Before [91]) with (Some Before). cbv iota beta. rewrite run_app.
    destruct (EI _ H) as (s & -> & Es). cbn [run]. now rewrite (run_close s 93) by auto.
  - left. change (123 :: w ++ [125]) with ([123] ++ w ++ [125]). rewrite run_app. change (run Before [123]) with (Some Before). cbv iota beta. rewrite run_app. now rewrite run_ws_before.
  - left. change (123 :: t ++ [125]) with ([123] ++ t ++ [125]). rewrite run_app. change (run Before [123]) with (Some Before). cbv iota beta. rewrite run_app.
    destruct (EI _ H) as (s & -> & Es). cbn [run]. now rewrite (run_close s 125) by auto.
  - rewrite run_app, run_ws_before by assumption. rewrite run_app. destruct (EI _ H) as (s & -> & Es). now apply run_ws_ended.
  - rewrite run_app, run_ws_before by assumption. rewrite run_app. destruct (EI _ H) as (s & -> & Es). rewrite run_app.
    destruct (EI _ (run_ws_ended w2 s Es w0)) as (s2 & -> & Es2). cbn [run]. rewrite (run_comma s2 Es2). assumption.
  - rewrite run_app, run_ws_before by assumption. rewrite NAME by assumption. rewrite run_app, run_ws_after by assumption. 
    match goal with |- context [run After (58 :: ?r)] => change (run After (58 :: r)) with (run Before r) end. rewrite run_app, run_ws_before by assumption. rewrite run_app. destruct (EI _ H) as (st & -> & Es). now apply run_ws_ended.
  - rewrite run_app, run_ws_before by assumption. rewrite NAME by assumption. rewrite run_app, run_ws_after by assumption. 
    match goal with |- context [run After (58 :: ?r)] => change (run After (58 :: r)) with (run Before r) end. rewrite run_app, run_ws_before by assumption. rewrite run_app. destruct (EI _ H) as (st & -> & Es). rewrite run_app.
    match goal with W : ws w4 |- _ => destruct (EI _ (run_ws_ended w4 st Es W)) as (s2 & -> & Es2) end. cbn [run]. rewrite (run_comma s2 Es2). assumption.
Qed.

(** So a text on which this fails is not JSON. *)
Lemma not_json : forall t, run Before t = None -> forall v, ~ jtext rfc_body v t.
Proof. intros t E v H. apply json_tokens in H. rewrite E in H. destruct H; discriminate. Qed.
