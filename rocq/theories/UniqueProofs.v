(** A text is the text of at most one value. *)
From Coq Require Import List NArith Bool Lia Arith ZifyBool ZifyNat ZifyN.
From Verif Require Import Base SpecNum SpecText SpecJson SpecTokens.
Import ListNotations.
Local Open Scope N_scope.

(** What may follow a value *)
Definition stop (r : list N) : Prop := match r with [] => True | c :: _ => json_ws c \/ c = 44 \/ c = 93 \/ c = 125 end.

Lemma stop_ws : forall w c r, ws w -> c = 44 \/ c = 93 \/ c = 125 -> stop (w ++ c :: r).
Proof. intros [|a w] c r H HC; cbn [app stop]; [tauto|]. inversion H; subst. now left. Qed.

Lemma ws_uniq : forall w w' c d x y, ws w -> ws w' -> ~ json_ws c -> ~ json_ws d -> w ++ c :: x = w' ++ d :: y -> w = w' /\ c :: x = d :: y.
Proof.
  induction w as [|a w IH]; intros [|b w'] c d x y H H' HC HD E; cbn [app] in E.
  - auto.
  - injection E as -> E. inversion H'; subst. contradiction.
  - injection E as <- E. inversion H; subst. contradiction.
  - injection E as <- E. inversion H; inversion H'; subst. destruct (IH w' c d x y) as [-> Q]; auto.
Qed.

Lemma body_uniq : forall k, str_body k -> forall k' x y, str_body k' -> k ++ 34 :: x = k' ++ 34 :: y -> k = k' /\ x = y.
Proof.
  induction 1 as [|c k H1 H2 HK IH|c k HK IH]; intros k' x y HK' E; destruct HK' as [|c' k' H1' H2' HK'|c' k' HK']; cbn [app] in E; injection E as E; subst; try congruence; auto.
  - match goal with E : _ ++ 34 :: _ = _ |- _ => destruct (IH _ _ _ HK' E) as [-> ->] end. auto.
  - match goal with E : _ ++ 34 :: _ = _ |- _ => destruct (IH _ _ _ HK' E) as [-> ->] end. auto.
Qed.

Lemma num_uniq : forall n n' r r', Forall numc n -> Forall numc n' -> stop r -> stop r' -> n ++ r = n' ++ r' -> n = n' /\ r = r'.
Proof.
  assert (NS : forall c r, stop (c :: r) -> numc c -> False) by (intros c r H1 H2; cbn [stop] in H1; unfold json_ws, numc in *; lia).
  induction n as [|a n IH]; intros [|b n'] r r' H H' HR HR' E; cbn [app] in E.
  - auto.
  - subst r. inversion H'; subst. exfalso. eauto.
  - subst r'. inversion H; subst. exfalso. eauto.
  - injection E as <- E. inversion H; inversion H'; subst. destruct (IH n' r r') as [-> ->]; auto.
Qed.

(** The first character of a value *)
Definition kind_char (v : jv) (c : N) : Prop :=
  match v with
  | JNull => c = 110 | JTrue => c = 116 | JFalse => c = 102
  | JNum _ => numc c /\ c <> 101 /\ c <> 69 /\ c <> 43 /\ c <> 46
  | JStr _ => c = 34 | JArr _ => c = 91 | JObj _ => c = 123
  end.
Lemma kind_head : forall sb v t, jtext sb v t -> exists c r, t = c :: r /\ kind_char v c.
Proof.
  intros sb v t H. destruct H as [| | |n HJ| | | | |]; try (eexists _, _; split; [reflexivity|reflexivity]).
  destruct HJ as [sg i f e Hs (HD & HN & _) _ _]. destruct i as [|d i]; [congruence|]. inversion HD; subst. unfold is_dig in *.
  destruct Hs as [-> | ->]; cbn [app kind_char]; eexists _, _; (split; [reflexivity|]); unfold numc; lia.
Qed.
Lemma kind_not_ws : forall v c, kind_char v c -> ~ json_ws c /\ c <> 93 /\ c <> 125.
Proof. intros v c H. destruct v; cbn [kind_char] in H; unfold json_ws, numc in *; lia. Qed.

Lemma value_start : forall sb v t w x, jtext sb v t -> exists c r, w ++ t ++ x = w ++ c :: r /\ ~ json_ws c /\ c <> 93 /\ c <> 125 /\ t ++ x = c :: r.
Proof.
  intros sb v t w x H. destruct (kind_head _ _ _ H) as (c & r & -> & HK). apply kind_not_ws in HK. cbn [app]. exists c, (r ++ x). tauto.
Qed.

Ltac flat := repeat (rewrite <- ?app_assoc in *; cbn [app] in *).


Lemma not93 : forall w v t u c x, ws w -> ws u -> jtext str_body v t -> (c = 93 \/ c = 125) -> forall y, w ++ t ++ y = u ++ c :: x -> False.
Proof.
  intros w v t u c x HW HU HT HC y E. destruct (value_start _ _ _ w y HT) as (d & r & E1 & N1 & N2 & N3 & E2). rewrite E1 in E.
  destruct (ws_uniq w u d c r x HW HU N1) as [_ Q]; auto; [unfold json_ws; lia|]. injection Q as -> _. lia.
Qed.

Theorem jtext_unique :
  (forall v t, jtext str_body v t -> forall v' t' r r', jtext str_body v' t' -> stop r -> stop r' -> t ++ r = t' ++ r' -> v = v' /\ r = r') /\
  (forall es t, jelems str_body es t -> forall es' t' r r', jelems str_body es' t' -> t ++ 93 :: r = t' ++ 93 :: r' -> es = es' /\ r = r') /\
  (forall ms t, jmembers str_body ms t -> forall ms' t' r r', jmembers str_body ms' t' -> t ++ 125 :: r = t' ++ 125 :: r' -> ms = ms' /\ r = r').
Proof.
  assert (W44 : ~ json_ws 44) by (unfold json_ws; lia). assert (W93 : ~ json_ws 93) by (unfold json_ws; lia).
  assert (W125 : ~ json_ws 125) by (unfold json_ws; lia). assert (W34 : ~ json_ws 34) by (unfold json_ws; lia). assert (W58 : ~ json_ws 58) by (unfold json_ws; lia).
  assert (KIND : forall v t v' t' r r', jtext str_body v t -> jtext str_body v' t' -> t ++ r = t' ++ r' -> exists c, kind_char v c /\ kind_char v' c).
  { intros v t v' t' r r' H H' E. destruct (kind_head _ _ _ H) as (c & u & -> & K). destruct (kind_head _ _ _ H') as (c' & u' & -> & K').
    cbn [app] in E. injection E as <- _. eauto. }
  apply jtext_ind3.
  1-3: intros v' t' r r' H' S S' E;
    match goal with H' : jtext _ ?v' _ |- ?v = _ /\ _ => destruct (KIND v _ v' t' r r' ltac:(constructor) H' E) as (c & K & K') end;
    destruct H'; cbn [kind_char] in K, K'; try (exfalso; unfold numc in *; lia); cbn [app] in E; injection E; auto.
  - intros n HJ v' t' r r' H' S S' E. destruct (KIND (JNum n) n v' t' r r' (t_num _ n HJ) H' E) as (c & K & K').
    destruct H' as [| | |n' HJ'| | | | |]; cbn [kind_char] in K, K'; try (exfalso; unfold numc in *; lia).
    destruct (num_uniq n n' r r') as [-> ->]; auto; now apply jnum_chars.
  - intros b HB v' t' r r' H' S S' E. destruct (KIND (JStr b) _ v' t' r r' (t_str _ b HB) H' E) as (c & K & K').
    destruct H' as [| | | |b' HB'| | | |]; cbn [kind_char] in K, K'; try (exfalso; unfold numc in *; lia).
    flat. injection E as E. destruct (body_uniq b HB b' r r' HB' E) as [-> ->]. auto.
  - intros w HW v' t' r r' H' S S' E. destruct (KIND (JArr []) _ v' t' r r' (t_arr0 _ w HW) H' E) as (c & K & K').
    destruct H' as [| | | | |w' HW'|es' t' HE'| |]; cbn [kind_char] in K, K'; try (exfalso; unfold numc in *; lia).
    + flat. injection E as E. destruct (ws_uniq _ _ _ _ _ _ HW HW' W93 W93 E) as [-> Q]. injection Q as ->. auto.
    + exfalso. flat. injection E as E. destruct HE' as [w1 v t w2 H1 H2 H3|w1 v t w2 es ts H1 H2 H3 H4]; flat; symmetry in E.
      * eapply (not93 w1 v t w 93 r); eauto.
      * eapply (not93 w1 v t w 93 r); eauto.
  - intros es t HE IH v' t' r r' H' S S' E. destruct (KIND (JArr es) _ v' t' r r' (t_arr _ es t HE) H' E) as (c & K & K').
    destruct H' as [| | | | |w' HW'|es' t' HE'| |]; cbn [kind_char] in K, K'; try (exfalso; unfold numc in *; lia).
    + exfalso. flat. injection E as E. destruct HE as [w1 v t w2 H1 H2 H3|w1 v t w2 es ts H1 H2 H3 H4]; flat; eapply (not93 w1 v t w' 93 r'); eauto.
    + flat. injection E as E. destruct (IH es' t' r r' HE' E) as [-> ->]. auto.
  - intros w HW v' t' r r' H' S S' E. destruct (KIND (JObj []) _ v' t' r r' (t_obj0 _ w HW) H' E) as (c & K & K').
    destruct H' as [| | | | | | |w' HW'|ms' t' HM']; cbn [kind_char] in K, K'; try (exfalso; unfold numc in *; lia).
    + flat. injection E as E. destruct (ws_uniq _ _ _ _ _ _ HW HW' W125 W125 E) as [-> Q]. injection Q as ->. auto.
    + exfalso. flat. injection E as E. destruct HM'; flat; destruct (ws_uniq _ _ _ _ _ _ HW H W125 W34 E) as [_ Q]; discriminate.
  - intros ms t HM IH v' t' r r' H' S S' E. destruct (KIND (JObj ms) _ v' t' r r' (t_obj _ ms t HM) H' E) as (c & K & K').
    destruct H' as [| | | | | | |w' HW'|ms' t' HM']; cbn [kind_char] in K, K'; try (exfalso; unfold numc in *; lia).
    + exfalso. flat. injection E as E. destruct HM; flat; symmetry in E; destruct (ws_uniq _ _ _ _ _ _ HW' H W125 W34 E) as [_ Q]; discriminate.
    + flat. injection E as E. destruct (IH ms' t' r r' HM' E) as [-> ->]. auto.
  (* elements *)
  - intros w1 v t w2 H1 HT IH H2 es' t' r r' HE' E. destruct HE' as [w1' v' t' w2' H1' HT' H2'|w1' v' t' w2' es' ts' H1' HT' H2' HE'].
    + flat. destruct (value_start _ _ _ w1 (w2 ++ 93 :: r) HT) as (c & u & E1 & N1 & _ & _ & E2).
      destruct (value_start _ _ _ w1' (w2' ++ 93 :: r') HT') as (c' & u' & E1' & N1' & _ & _ & E2'). rewrite E1, E1' in E.
      destruct (ws_uniq _ _ _ _ _ _ H1 H1' N1 N1' E) as [-> Q]. rewrite <- E2, <- E2' in Q.
      destruct (IH v' t' _ _ HT' (stop_ws w2 93 r H2 ltac:(auto)) (stop_ws w2' 93 r' H2' ltac:(auto)) Q) as [-> Q2].
      destruct (ws_uniq _ _ _ _ _ _ H2 H2' W93 W93 Q2) as [_ Q3]. injection Q3 as ->. auto.
    + exfalso. flat. destruct (value_start _ _ _ w1 (w2 ++ 93 :: r) HT) as (c & u & E1 & N1 & _ & _ & E2).
      destruct (value_start _ _ _ w1' (w2' ++ 44 :: ts' ++ 93 :: r') HT') as (c' & u' & E1' & N1' & _ & _ & E2'). rewrite E1, E1' in E.
      destruct (ws_uniq _ _ _ _ _ _ H1 H1' N1 N1' E) as [-> Q]. rewrite <- E2, <- E2' in Q.
      destruct (IH v' t' _ _ HT' (stop_ws w2 93 r H2 ltac:(auto)) (stop_ws w2' 44 (ts' ++ 93 :: r') H2' ltac:(auto)) Q) as [-> Q2].
      destruct (ws_uniq _ _ _ _ _ _ H2 H2' W93 W44 Q2) as [_ Q3]. discriminate.
  - intros w1 v t w2 es ts H1 HT IH H2 HE IHE es' t' r r' HE' E. destruct HE' as [w1' v' t' w2' H1' HT' H2'|w1' v' t' w2' es' ts' H1' HT' H2' HE'].
    + exfalso. flat. destruct (value_start _ _ _ w1 (w2 ++ 44 :: ts ++ 93 :: r) HT) as (c & u & E1 & N1 & _ & _ & E2).
      destruct (value_start _ _ _ w1' (w2' ++ 93 :: r') HT') as (c' & u' & E1' & N1' & _ & _ & E2'). rewrite E1, E1' in E.
      destruct (ws_uniq _ _ _ _ _ _ H1 H1' N1 N1' E) as [-> Q]. rewrite <- E2, <- E2' in Q.
      destruct (IH v' t' _ _ HT' (stop_ws w2 44 (ts ++ 93 :: r) H2 ltac:(auto)) (stop_ws w2' 93 r' H2' ltac:(auto)) Q) as [-> Q2].
      destruct (ws_uniq _ _ _ _ _ _ H2 H2' W44 W93 Q2) as [_ Q3]. discriminate.
    + flat. destruct (value_start _ _ _ w1 (w2 ++ 44 :: ts ++ 93 :: r) HT) as (c & u & E1 & N1 & _ & _ & E2).
      destruct (value_start _ _ _ w1' (w2' ++ 44 :: ts' ++ 93 :: r') HT') as (c' & u' & E1' & N1' & _ & _ & E2'). rewrite E1, E1' in E.
      destruct (ws_uniq _ _ _ _ _ _ H1 H1' N1 N1' E) as [-> Q]. rewrite <- E2, <- E2' in Q.
      destruct (IH v' t' _ _ HT' (stop_ws w2 44 (ts ++ 93 :: r) H2 ltac:(auto)) (stop_ws w2' 44 (ts' ++ 93 :: r') H2' ltac:(auto)) Q) as [-> Q2].
      destruct (ws_uniq _ _ _ _ _ _ H2 H2' W44 W44 Q2) as [_ Q3]. injection Q3 as Q3. destruct (IHE es' ts' r r' HE' Q3) as [-> ->]. auto.
  (* members *)
  - intros w1 k w2 w3 v t w4 H1 HK H2 H3 HT IH H4 ms' t' r r' HM' E.
    destruct HM' as [w1' k' w2' w3' v' t' w4' H1' HK' H2' H3' HT' H4'|w1' k' w2' w3' v' t' w4' ms' ts' H1' HK' H2' H3' HT' H4' HM']; flat;
      destruct (ws_uniq _ _ _ _ _ _ H1 H1' W34 W34 E) as [-> Q]; injection Q as Q; destruct (body_uniq k HK k' _ _ HK' Q) as [-> Q1];
      destruct (ws_uniq _ _ _ _ _ _ H2 H2' W58 W58 Q1) as [-> Q2]; injection Q2 as Q2.
    + destruct (value_start _ _ _ w3 (w4 ++ 125 :: r) HT) as (c & u & E1 & N1 & _ & _ & E2).
      destruct (value_start _ _ _ w3' (w4' ++ 125 :: r') HT') as (c' & u' & E1' & N1' & _ & _ & E2'). rewrite E1, E1' in Q2.
      destruct (ws_uniq _ _ _ _ _ _ H3 H3' N1 N1' Q2) as [-> Q3]. rewrite <- E2, <- E2' in Q3.
      destruct (IH v' t' _ _ HT' (stop_ws w4 125 r H4 ltac:(auto)) (stop_ws w4' 125 r' H4' ltac:(auto)) Q3) as [-> Q4].
      destruct (ws_uniq _ _ _ _ _ _ H4 H4' W125 W125 Q4) as [_ Q5]. injection Q5 as ->. auto.
    + exfalso. destruct (value_start _ _ _ w3 (w4 ++ 125 :: r) HT) as (c & u & E1 & N1 & _ & _ & E2).
      destruct (value_start _ _ _ w3' (w4' ++ 44 :: ts' ++ 125 :: r') HT') as (c' & u' & E1' & N1' & _ & _ & E2'). rewrite E1, E1' in Q2.
      destruct (ws_uniq _ _ _ _ _ _ H3 H3' N1 N1' Q2) as [-> Q3]. rewrite <- E2, <- E2' in Q3.
      destruct (IH v' t' _ _ HT' (stop_ws w4 125 r H4 ltac:(auto)) (stop_ws w4' 44 (ts' ++ 125 :: r') H4' ltac:(auto)) Q3) as [-> Q4].
      destruct (ws_uniq _ _ _ _ _ _ H4 H4' W125 W44 Q4) as [_ Q5]. discriminate.
  - intros w1 k w2 w3 v t w4 ms ts H1 HK H2 H3 HT IH H4 HM IHM ms' t' r r' HM' E.
    destruct HM' as [w1' k' w2' w3' v' t' w4' H1' HK' H2' H3' HT' H4'|w1' k' w2' w3' v' t' w4' ms' ts' H1' HK' H2' H3' HT' H4' HM']; flat;
      destruct (ws_uniq _ _ _ _ _ _ H1 H1' W34 W34 E) as [-> Q]; injection Q as Q; destruct (body_uniq k HK k' _ _ HK' Q) as [-> Q1];
      destruct (ws_uniq _ _ _ _ _ _ H2 H2' W58 W58 Q1) as [-> Q2]; injection Q2 as Q2.
    + exfalso. destruct (value_start _ _ _ w3 (w4 ++ 44 :: ts ++ 125 :: r) HT) as (c & u & E1 & N1 & _ & _ & E2).
      destruct (value_start _ _ _ w3' (w4' ++ 125 :: r') HT') as (c' & u' & E1' & N1' & _ & _ & E2'). rewrite E1, E1' in Q2.
      destruct (ws_uniq _ _ _ _ _ _ H3 H3' N1 N1' Q2) as [-> Q3]. rewrite <- E2, <- E2' in Q3.
      destruct (IH v' t' _ _ HT' (stop_ws w4 44 (ts ++ 125 :: r) H4 ltac:(auto)) (stop_ws w4' 125 r' H4' ltac:(auto)) Q3) as [-> Q4].
      destruct (ws_uniq _ _ _ _ _ _ H4 H4' W44 W125 Q4) as [_ Q5]. discriminate.
    + destruct (value_start _ _ _ w3 (w4 ++ 44 :: ts ++ 125 :: r) HT) as (c & u & E1 & N1 & _ & _ & E2).
      destruct (value_start _ _ _ w3' (w4' ++ 44 :: ts' ++ 125 :: r') HT') as (c' & u' & E1' & N1' & _ & _ & E2'). rewrite E1, E1' in Q2.
      destruct (ws_uniq _ _ _ _ _ _ H3 H3' N1 N1' Q2) as [-> Q3]. rewrite <- E2, <- E2' in Q3.
      destruct (IH v' t' _ _ HT' (stop_ws w4 44 (ts ++ 125 :: r) H4 ltac:(auto)) (stop_ws w4' 44 (ts' ++ 125 :: r') H4' ltac:(auto)) Q3) as [-> Q4].
      destruct (ws_uniq _ _ _ _ _ _ H4 H4' W44 W44 Q4) as [_ Q5]. injection Q5 as Q5. destruct (IHM ms' ts' r r' HM' Q5) as [-> ->]. auto.
Qed.

(** The value of a text *)
Theorem text_value : forall v v' t, jtext str_body v t -> jtext str_body v' t -> v = v'.
Proof. intros v v' t H H'. now destruct (proj1 jtext_unique v t H v' t [] [] H' I I eq_refl). Qed.
Theorem rfc_value : forall v v' t, jtext rfc_body v t -> jtext rfc_body v' t -> v = v'.
Proof. intros v v' t H H'. eapply text_value; eapply (proj1 (jtext_weaken rfc_body str_body rfc_str_body)); eauto. Qed.
