(** A text of the grammar of SpecLax that is a JSON text stands for what the JSON
    value means. *)
From Coq Require Import List NArith ZArith Bool Lia Arith ZifyBool ZifyNat ZifyN.
From Verif Require Import Base SpecNum SpecText SpecJson SpecUnicode SpecTokens UniqueProofs ValueModel SpecLax SpecMeans PropertiesSkip.
Import ListNotations.
Local Open Scope N_scope.

Definition solid (c : N) : Prop := ~ (1 <= c <= 32).

Lemma ws_blanks : forall w, ws w -> blanks w.
Proof. intros w H. eapply Forall_impl; [|exact H]. unfold json_ws. intros. lia. Qed.

Lemma bl_prefix : forall w y w' d z, blanks w -> solid d -> w ++ y = w' ++ d :: z -> exists u, w' = w ++ u /\ y = u ++ d :: z.
Proof.
  induction w as [|a w IH]; intros y w' d z W S E; cbn [app] in E; [exists w'; auto|]. pose proof (Forall_inv W) as A. apply Forall_inv_tail in W.
  destruct w' as [|b w']; injection E as <- E; [contradiction|]. destruct (IH _ _ _ _ W S E) as (u & -> & EY). exists u. auto.
Qed.

Lemma bl_uniq : forall w w' c d x y, blanks w -> blanks w' -> solid c -> solid d -> w ++ c :: x = w' ++ d :: y -> w = w' /\ c = d /\ x = y.
Proof.
  intros w w' c d x y W W' C D E. destruct (bl_prefix _ _ _ _ _ W D E) as (u & -> & EY). destruct u as [|b u].
  - rewrite app_nil_r. injection EY; auto.
  - exfalso. injection EY as <- _. apply Forall_app in W' as [_ W']. apply Forall_inv in W'. contradiction.
Qed.

(** The first character of a value is neither whitespace nor one that follows a value *)
Lemma text_head : forall v t, jtext str_body v t -> exists c r, t = c :: r /\ kind_char v c /\ solid c /\ c <> 44 /\ c <> 93 /\ c <> 125.
Proof.
  intros v t H. destruct (kind_head _ _ _ H) as (c & r & -> & K). exists c, r. split; [reflexivity|]. split; [exact K|].
  destruct v; cbn [kind_char] in K; unfold numc, solid in *; lia.
Qed.

Lemma no_front : forall c y u v tj rj, solid c -> ws u -> jtext str_body v tj -> c :: y = u ++ tj ++ rj ->
  u = [] /\ kind_char v c /\ c :: y = tj ++ rj /\ c <> 44 /\ c <> 93 /\ c <> 125.
Proof.
  intros c y u v tj rj C U T E. destruct (text_head _ _ T) as (d & r & -> & K & D & N1 & N2 & N3). cbn [app] in E.
  destruct (bl_uniq [] u c d y (r ++ rj) (Forall_nil _) (ws_blanks _ U) C D E) as (<- & <- & ->). auto 10.
Qed.

Definition plain (r : list N) : Prop := match r with [] => True | c :: _ => ~ numc c end.

Lemma run_uniq : forall n n' r r', Forall numc n -> Forall numc n' -> plain r -> plain r' -> n ++ r = n' ++ r' -> n = n' /\ r = r'.
Proof.
  induction n as [|a n IH]; intros [|b n'] r r' H H' HR HR' E; cbn [app] in E.
  - auto.
  - subst r. exfalso. apply HR. exact (Forall_inv H').
  - subst r'. exfalso. apply HR'. exact (Forall_inv H).
  - injection E as <- E. destruct (IH n' r r' (Forall_inv_tail H) (Forall_inv_tail H') HR HR' E) as [-> ->]. auto.
Qed.

Lemma digits_numc : forall ds, digits ds -> Forall numc ds.
Proof. intros ds H. eapply Forall_impl; [|exact H]. unfold is_dig, numc. intros. lia. Qed.
Lemma stop_plain : forall r, stop r -> plain r.
Proof. intros [|c r] H; [exact I|]. cbn [stop plain] in *. unfold json_ws, numc in *. lia. Qed.
Lemma ends_plain : forall r, ends_value r -> plain r.
Proof. intros [|c r] H; [exact I|]. cbn [ends_value plain In] in *. unfold numc in *. lia. Qed.

(** Nothing but an absent optional value is read in front of a bracket or comma *)
Lemma at_close : forall t x tx r, lax t x tx r -> forall u c y, ws u -> c = 93 \/ c = 44 -> tx ++ r = u ++ c :: y ->
  u = [] /\ tx = [] /\ x = VNone /\ exists t', t = TNullable t'.
Proof.
  assert (D : forall a z u c y, solid a -> a <> 93 -> a <> 44 -> ws u -> c = 93 \/ c = 44 -> a :: z = u ++ c :: y -> False).
  { intros a z u c y A N1 N2 U C E. destruct (bl_uniq [] u a c z y (Forall_nil _) (ws_blanks _ U) A) as (_ & -> & _); [unfold solid; lia|exact E|]. lia. }
  induction 1; intros u c y U C E.
  - exfalso. destruct ds as [|d ds]; [congruence|]. pose proof (Forall_inv H) as HD. unfold is_dig in HD. eapply (D d); eauto; unfold solid; lia.
  - exfalso. destruct neg; cbn [app] in E; [eapply (D 45); eauto; unfold solid; lia|]. destruct ds as [|d ds]; [now apply H0|].
    pose proof (Forall_inv H) as HD. unfold is_dig in HD. eapply (D d); eauto; unfold solid; lia.
  - exfalso. eapply (D 116); eauto; unfold solid; lia.
  - exfalso. eapply (D 102); eauto; unfold solid; lia.
  - exfalso. eapply (D 34); eauto; unfold solid; lia.
  - exfalso. eapply (D 110); eauto; unfold solid; lia.
  - destruct u as [|b u]; [eauto|]. exfalso. cbn [app] in E. subst r. apply Forall_inv in U. cbn in H. unfold json_ws in U. lia.
  - exfalso. destruct (IHlax _ _ _ U C E) as (-> & -> & _). apply H0. cbn [app] in E |- *. rewrite E. cbn. lia.
  - exfalso. eapply (D 91); eauto; unfold solid; lia.
  - exfalso. eapply (D 91); eauto; unfold solid; lia.
  - exfalso. eapply (D 123); eauto; unfold solid; lia.
  - exfalso. eapply (D 123); eauto; unfold solid; lia.
  - exfalso. eapply (D 91); eauto; unfold solid; lia.
  - exfalso. rewrite <- app_assoc in E. assert (S : solid c) by (unfold solid; lia). destruct (bl_prefix _ _ _ _ _ H0 S E) as (u' & -> & E').
    apply Forall_app in U as [_ U]. destruct (IHlax _ _ _ U C E') as (_ & _ & _ & t' & ->). discriminate.
  - rewrite <- app_assoc in E. destruct (IHlax _ _ _ U C E) as (-> & -> & -> & T). cbn [app] in *. destruct w as [|b w]; [auto|].
    exfalso. injection E as -> _. apply Forall_inv in H0. lia.
Qed.

Lemma elems_head : forall es t, jelems str_body es t -> exists w c r, t = w ++ c :: r /\ ws w /\ solid c /\ c <> 44 /\ c <> 93.
Proof.
  intros es t H. destruct H as [w1 v t w2 W1 HT W2|w1 v t w2 es ts W1 HT W2 HR]; destruct (text_head _ _ HT) as (c & r & -> & _ & S & N1 & N2 & _);
    exists w1, c; eexists; (split; [cbn [app]; reflexivity|]); auto.
Qed.
Lemma members_head : forall ms t, jmembers str_body ms t -> exists w r, t = w ++ 34 :: r /\ ws w.
Proof. intros ms t H. destruct H; exists w1; eexists; (split; [flat; reflexivity|assumption]). Qed.

(** Whitespace taken from the front of elements and members *)
Lemma elems_shift : forall es t, jelems str_body es t -> forall w y z, blanks w -> w ++ y = t ++ z -> exists t', y = t' ++ z /\ jelems str_body es t'.
Proof.
  intros es t H w y z W E. destruct H as [w1 v t w2 W1 HT W2|w1 v t w2 es ts W1 HT W2 HR]; destruct (text_head _ _ HT) as (c & r & -> & _ & S & _); flat;
    destruct (bl_prefix _ _ _ _ _ W S E) as (u & -> & ->); apply Forall_app in W1 as [_ W1].
  - exists (u ++ (c :: r) ++ w2). split; [flat; reflexivity|now constructor].
  - exists (u ++ (c :: r) ++ w2 ++ 44 :: ts). split; [flat; reflexivity|now constructor].
Qed.
Lemma members_shift : forall ms t, jmembers str_body ms t -> forall w y z, blanks w -> w ++ y = t ++ z -> exists t', y = t' ++ z /\ jmembers str_body ms t'.
Proof.
  intros ms t H w y z W E. assert (S : solid 34) by (unfold solid; lia).
  destruct H as [w1 k w2 w3 v t w4 W1 HK W2 W3 HT W4|w1 k w2 w3 v t w4 ms ts W1 HK W2 W3 HT W4 HM]; flat;
    destruct (bl_prefix _ _ _ _ _ W S E) as (u & -> & ->); apply Forall_app in W1 as [_ W1].
  - exists (u ++ (34 :: k ++ [34]) ++ w2 ++ 58 :: w3 ++ t ++ w4). split; [flat; reflexivity|now constructor].
  - exists (u ++ (34 :: k ++ [34]) ++ w2 ++ 58 :: w3 ++ t ++ w4 ++ 44 :: ts). split; [flat; reflexivity|now constructor].
Qed.

Definition rest (vs : list jv) (te : list N) : Prop := (vs = [] /\ ws te) \/ jelems str_body vs te.

Lemma rest_no_comma : forall vs te z w y, rest vs te -> blanks w -> w ++ 44 :: y = te ++ 93 :: z -> False.
Proof.
  intros vs te z w y [(-> & W)|H] B E.
  - destruct (bl_uniq w te 44 93 y z B (ws_blanks _ W)) as (_ & X & _); auto; [unfold solid; lia|unfold solid; lia|discriminate].
  - destruct (elems_head _ _ H) as (w' & c & r & -> & W & S & N1 & N2). flat.
    destruct (bl_uniq w w' 44 c y (r ++ 93 :: z) B (ws_blanks _ W)) as (_ & X & _); auto; unfold solid; lia.
Qed.

Lemma rest_shift : forall vs te w y z, rest vs te -> blanks w -> w ++ y = te ++ 93 :: z -> exists te', y = te' ++ 93 :: z /\ rest vs te'.
Proof.
  intros vs te w y z [(-> & U)|H] B E.
  - assert (S : solid 93) by (unfold solid; lia). destruct (bl_prefix _ _ _ _ _ B S E) as (u & -> & ->). apply Forall_app in U as [_ U]. exists u. split; [reflexivity|left; auto].
  - destruct (elems_shift _ _ H _ _ _ B E) as (t' & -> & H'). exists t'. split; [reflexivity|now right].
Qed.

Lemma jv_rest : forall v te rj tj, jtext str_body v tj -> kind_char v 91 -> 91 :: te = tj ++ rj ->
  exists vs t, v = JArr vs /\ rest vs t /\ te = t ++ 93 :: rj.
Proof.
  intros v te rj tj H K E. destruct H; cbn [kind_char] in K; try (exfalso; unfold numc in *; lia); flat; injection E as ->.
  - exists [], w. split; [reflexivity|]. split; [left; auto|reflexivity].
  - exists es, t. split; [reflexivity|]. split; [right; assumption|reflexivity].
Qed.

Lemma jv_members : forall v te rj tj, jtext str_body v tj -> kind_char v 123 -> 123 :: te = tj ++ rj ->
  exists ms t, v = JObj ms /\ ((ms = [] /\ ws t) \/ jmembers str_body ms t) /\ te = t ++ 125 :: rj.
Proof.
  intros v te rj tj H K E. destruct H; cbn [kind_char] in K; try (exfalso; unfold numc in *; lia); flat; injection E as ->.
  - exists [], w. split; [reflexivity|]. split; [left; auto|reflexivity].
  - exists ms, t. split; [reflexivity|]. split; [right; assumption|reflexivity].
Qed.

Lemma stop_ws93 : forall w r, ws w -> stop (w ++ 93 :: r).
Proof. intros. apply stop_ws; auto. Qed.

(** The separator is whitespace or has one comma *)
Lemma sep_close : forall s r, sep s r -> forall w w' c y, blanks w -> ws w' -> solid c -> c <> 44 -> w ++ s ++ r = w' ++ c :: y ->
  exists u, w' = w ++ s ++ u /\ ws u /\ blanks s /\ r = u ++ c :: y.
Proof.
  intros s r [(B & _)|(a & b & A & B & ->)] w w' c y W W' S NC E.
  - rewrite app_assoc in E. assert (WS : blanks (w ++ s)) by (apply Forall_app; auto).
    destruct (bl_prefix _ _ _ _ _ WS S E) as (u & -> & ->). exists u. rewrite app_assoc. split; [reflexivity|]. apply Forall_app in W' as [_ U]. auto.
  - exfalso. flat. rewrite app_assoc in E. assert (WA : blanks (w ++ a)) by (apply Forall_app; auto).
    destruct (bl_uniq (w ++ a) w' 44 c (b ++ r) y WA (ws_blanks _ W')) as (_ & X & _); auto; unfold solid; lia.
Qed.

Lemma sep_comma : forall s r, sep s r -> forall w w' y, blanks w -> ws w' -> w ++ s ++ r = w' ++ 44 :: y ->
  (exists b, blanks b /\ y = b ++ r) \/ (exists a u, ws (a :: u) /\ r = (a :: u) ++ 44 :: y).
Proof.
  intros s r [(B & NA)|(a & b & A & B & ->)] w w' y W W' E; assert (S : solid 44) by (unfold solid; lia).
  - right. rewrite app_assoc in E. assert (WS : blanks (w ++ s)) by (apply Forall_app; auto).
    destruct (bl_prefix _ _ _ _ _ WS S E) as (u & -> & ->). destruct u as [|a u]; [cbn in NA; congruence|]. exists a, u. apply Forall_app in W' as [_ U]. auto.
  - left. flat. rewrite app_assoc in E. assert (WA : blanks (w ++ a)) by (apply Forall_app; auto).
    destruct (bl_uniq (w ++ a) w' 44 44 (b ++ r) y WA (ws_blanks _ W')) as (_ & _ & <-); auto. exists b. auto.
Qed.

Lemma tuple_no_comma : forall ts xs tx r, ltuple ts xs tx r -> forall w z a u y, r = w ++ 93 :: z -> blanks w -> ws (a :: u) -> tx ++ r = (a :: u) ++ 44 :: y -> False.
Proof.
  intros ts xs tx r H w z a u y ER W U E. destruct H as [r|t ts x xs tx s tx' r HL HS HT].
  - cbn [app] in E. subst r.
    destruct (bl_uniq w (a :: u) 93 44 z y W (ws_blanks _ U)) as (_ & X & _); auto; [unfold solid; lia|unfold solid; lia|discriminate].
  - flat. destruct (at_close _ _ _ _ HL (a :: u) 44 y U (or_intror eq_refl)) as (X & _); [exact E|discriminate].
Qed.

Lemma pairs_head : forall t kxs tx r, lpairs t kxs tx r -> exists y, tx = 34 :: y.
Proof. intros t kxs tx r H. destruct H; eexists; cbn [app]; reflexivity. Qed.

Theorem lax_means :
  (forall t x tx r, lax t x tx r -> forall v tj rj u, ws u -> jtext str_body v tj -> stop rj -> tx ++ r = u ++ tj ++ rj ->
     means t v x /\ (v = JNull -> u = []) /\ exists w, blanks w /\ rj = w ++ r) /\
  (forall t xs tx r, lelems t xs tx r -> forall z vs te rj, r = 93 :: z -> jelems str_body vs te -> tx ++ r = te ++ 93 :: rj -> means_all t vs xs /\ z = rj) /\
  (forall t kxs tx r, lpairs t kxs tx r -> forall z ms tm rj, r = 125 :: z -> jmembers str_body ms tm -> tx ++ r = tm ++ 125 :: rj -> means_map t ms kxs /\ z = rj) /\
  (forall ts xs tx r, ltuple ts xs tx r -> forall w z vs te rj, r = w ++ 93 :: z -> blanks w -> rest vs te -> tx ++ r = te ++ 93 :: rj -> means_each ts vs xs /\ z = rj).
Proof.
  assert (S93 : solid 93) by (unfold solid; lia). assert (S44 : solid 44) by (unfold solid; lia). assert (S125 : solid 125) by (unfold solid; lia).
  assert (S58 : solid 58) by (unfold solid; lia). assert (S34 : solid 34) by (unfold solid; lia).
  assert (NIL : forall r : list N, exists w, blanks w /\ r = w ++ r) by (intros r; exists []; split; [exact (Forall_nil _)|reflexivity]).
  apply lax_ind4.
  - (* unsigned *) intros w rc ds r D NE EV v tj rj u U T S E. destruct ds as [|d ds]; [congruence|]. pose proof (Forall_inv D) as HD. unfold is_dig in HD. cbn [app] in E.
    destruct (no_front d _ u v tj rj ltac:(unfold solid; lia) U T E) as (-> & K & E' & _). destruct T as [| | |n HJ| | | | |]; cbn [kind_char] in K; try (exfalso; lia).
    destruct (run_uniq (d :: ds) n r rj (digits_numc _ D) (proj1 (jnum_chars _ HJ)) (ends_plain _ EV) (stop_plain _ S) E') as [<- <-].
    split; [|split; [auto|apply NIL]]. constructor; auto. intros W LT. rewrite (N.mod_small (dec_val (d :: ds)) (2^64)), N.mod_small; auto.
    eapply N.lt_le_trans; [exact LT|]. now apply N.pow_le_mono_r.
  - (* signed *) intros w rc neg ds z r D NE EV HZ v tj rj u U T S E.
    assert (HD : exists c y, (if neg then [45] else []) ++ ds = c :: y /\ (c = 45 \/ 48 <= c <= 57)).
    { destruct neg; [exists 45, ds; auto|]. destruct ds as [|d ds]; [now specialize (NE eq_refl)|]. pose proof (Forall_inv D) as HD. unfold is_dig in HD. exists d, ds. split; [reflexivity|lia]. }
    destruct HD as (c & y & EC & HC). pose proof E as E0. rewrite EC in E. cbn [app] in E.
    destruct (no_front c _ u v tj rj ltac:(unfold solid; lia) U T E) as (-> & K & _ & _). destruct T as [| | |n HJ| | | | |]; cbn [kind_char] in K; try (exfalso; lia).
    assert (NC : Forall numc ((if neg then [45] else []) ++ ds)).
    { apply Forall_app. split; [destruct neg; constructor; [unfold numc; lia|constructor]|now apply digits_numc]. }
    cbn [app] in E0. destruct (run_uniq _ n r rj NC (proj1 (jnum_chars _ HJ)) (ends_plain _ EV) (stop_plain _ S) E0) as [<- <-].
    split; [|split; [auto|apply NIL]]. constructor; auto. intros ->. destruct neg; [|now specialize (NE eq_refl)]. now apply jnum_minus.
  - intros r EV v tj rj u U T S E. cbn [app] in E. destruct (no_front 116 _ u v tj rj ltac:(unfold solid; lia) U T E) as (-> & K & E' & _).
    destruct T; cbn [kind_char] in K; try (exfalso; unfold numc in *; lia). injection E' as <-. split; [constructor|]. split; [auto|apply NIL].
  - intros r EV v tj rj u U T S E. cbn [app] in E. destruct (no_front 102 _ u v tj rj ltac:(unfold solid; lia) U T E) as (-> & K & E' & _).
    destruct T; cbn [kind_char] in K; try (exfalso; unfold numc in *; lia). injection E' as <-. split; [constructor|]. split; [auto|apply NIL].
  - intros b s r B HS v tj rj u U T S E. cbn [app] in E. destruct (no_front 34 _ u v tj rj S34 U T E) as (-> & K & E' & _).
    destruct T as [| | | |b' B'| | | |]; cbn [kind_char] in K; try (exfalso; unfold numc in *; lia). flat. injection E' as E'.
    destruct (body_uniq b B b' r rj B' E') as [<- <-]. split; [now constructor|]. split; [auto|apply NIL].
  - intros t r EV v tj rj u U T S E. cbn [app] in E. destruct (no_front 110 _ u v tj rj ltac:(unfold solid; lia) U T E) as (-> & K & E' & _).
    destruct T; cbn [kind_char] in K; try (exfalso; unfold numc in *; lia). injection E' as <-. split; [constructor|]. split; [auto|apply NIL].
  - (* nothing *) intros t r EN v tj rj u U T S E. exfalso. cbn [app] in E. destruct (text_head _ _ T) as (c & y & -> & _ & SC & N1 & N2 & N3).
    destruct u as [|a u]; cbn [app] in E; subst r; cbn [ends_nothing In] in EN; [lia|]. apply Forall_inv in U. unfold json_ws in U. lia.
  - (* some *) intros t x tx r HL IH NN NU v tj rj u U T S E. destruct (IH v tj rj u U T S E) as (M & MU & W).
    assert (v <> JNull). { intros ->. rewrite (MU eq_refl) in E. cbn [app] in E. inversion T; subst tj. eapply NU; eauto. }
    split; [now constructor|]. split; [auto|exact W].
  - (* arrays *) intros t w r W v tj rj u U T S E. cbn [app] in E. rewrite <- app_assoc in E. destruct (no_front 91 _ u v tj rj ltac:(unfold solid; lia) U T E) as (-> & K & E' & _).
    destruct (jv_rest _ _ _ _ T K E') as (vs & te & -> & R & EQ). cbn [app] in EQ. split; [|split; [auto|]].
    + constructor. destruct R as [(-> & _)|R]; [constructor|]. exfalso. destruct (elems_head _ _ R) as (w' & c & y & -> & W' & SC & N1 & N2). flat.
      destruct (bl_uniq w w' 93 c r _ W (ws_blanks _ W') S93 SC EQ) as (_ & X & _). congruence.
    + destruct R as [(-> & R)|R].
      * destruct (bl_uniq w te 93 93 r rj W (ws_blanks _ R) S93 S93 EQ) as (_ & _ & ->). apply NIL.
      * exfalso. destruct (elems_head _ _ R) as (w' & c & y & -> & W' & SC & N1 & N2). flat.
        destruct (bl_uniq w w' 93 c r _ W (ws_blanks _ W') S93 SC EQ) as (_ & X & _). congruence.
  - intros t xs w tx r W HL IH NA v tj rj u U T S E. flat. destruct (no_front 91 _ u v tj rj ltac:(unfold solid; lia) U T E) as (-> & K & E' & _).
    destruct (jv_rest _ _ _ _ T K E') as (vs & te & -> & R & EQ). destruct (rest_shift _ _ _ _ _ R W EQ) as (te' & EQ' & R').
    assert (RE : jelems str_body vs te').
    { destruct R' as [(-> & R')|R']; [|exact R']. exfalso. destruct te' as [|a te']; cbn [app] in EQ'; rewrite EQ' in NA; [now apply NA|]. clear NA.
      destruct HL as [t x tx r0 HL|t x tx w0 r0 HL W0|t x tx w0 xs0 tx' r0 HL W0 HE NA]; flat.
      - destruct (at_close _ _ _ _ HL (a :: te') 93 rj R' (or_introl eq_refl)) as (X & _); [exact EQ'|discriminate].
      - destruct (at_close _ _ _ _ HL (a :: te') 93 rj R' (or_introl eq_refl)) as (X & _); [exact EQ'|discriminate].
      - destruct (at_close _ _ _ _ HL (a :: te') 93 rj R' (or_introl eq_refl)) as (X & _); [exact EQ'|discriminate]. }
    destruct (IH r vs te' rj eq_refl RE EQ') as (M & ->). split; [now constructor|]. split; [discriminate|apply NIL].
  - (* maps *) intros t w r W v tj rj u U T S E. cbn [app] in E. rewrite <- app_assoc in E. destruct (no_front 123 _ u v tj rj ltac:(unfold solid; lia) U T E) as (-> & K & E' & _).
    destruct (jv_members _ _ _ _ T K E') as (ms & tm & -> & [(-> & R)|R] & EQ); cbn [app] in EQ.
    + destruct (bl_uniq w tm 125 125 r rj W (ws_blanks _ R) S125 S125 EQ) as (_ & _ & ->). split; [repeat constructor|]. split; [auto|apply NIL].
    + exfalso. destruct (members_head _ _ R) as (w' & y & -> & W'). flat.
      destruct (bl_uniq w w' 125 34 r _ W (ws_blanks _ W') S125 S34 EQ) as (_ & X & _). discriminate.
  - intros t kxs w tx r W HL IH v tj rj u U T S E. flat. destruct (no_front 123 _ u v tj rj ltac:(unfold solid; lia) U T E) as (-> & K & E' & _).
    destruct (jv_members _ _ _ _ T K E') as (ms & tm & -> & [(-> & R)|R] & EQ).
    + exfalso. destruct (pairs_head _ _ _ _ HL) as (y & ->). flat. destruct (bl_uniq w tm 34 125 _ rj W (ws_blanks _ R) S34 S125 EQ) as (_ & X & _). discriminate.
    + destruct (members_shift _ _ R _ _ _ W EQ) as (tm' & EQ' & R'). destruct (IH r ms tm' rj eq_refl R' EQ') as (M & ->).
      split; [now constructor|]. split; [discriminate|apply NIL].
  - (* tuples *) intros ts xs s w tx w' r HS W HL IH W' v tj rj u U T S E. flat. destruct (no_front 91 _ u v tj rj ltac:(unfold solid; lia) U T E) as (-> & K & E' & _).
    destruct (jv_rest _ _ _ _ T K E') as (vs & te & -> & R & EQ).
    assert (BS : blanks s). { destruct HS as [(B & _)|(a & b & A & B & ->)]; [exact B|]. exfalso. flat. now apply (rest_no_comma vs te rj a _ R A EQ). }
    destruct (rest_shift _ _ _ _ _ R BS EQ) as (te1 & EQ1 & R1). destruct (rest_shift _ _ _ _ _ R1 W EQ1) as (te2 & EQ2 & R2).
    destruct (IH w' r vs te2 rj eq_refl W' R2 EQ2) as (M & ->). split; [now constructor|]. split; [discriminate|apply NIL].
  - (* whitespace *) intros t x w tx r SK W HL IH v tj rj u U T S E. rewrite <- app_assoc in E. destruct (text_head _ _ T) as (c & y & EC & K & SC & _).
    rewrite EC in E. cbn [app] in E. destruct (bl_prefix _ _ _ _ _ W SC E) as (u' & -> & E'). apply Forall_app in U as [_ U'].
    destruct (IH v tj rj u' U' T S) as (M & _ & B); [rewrite EC; exact E'|]. split; [exact M|]. split; [|exact B]. intros ->. exfalso.
    destruct t; cbn [skips_blanks] in SK; try discriminate; inversion M.
  - intros t x tx w r HL IH W v tj rj u U T S E. rewrite <- app_assoc in E. destruct (IH v tj rj u U T S E) as (M & MU & w' & W' & ->).
    split; [exact M|]. split; [exact MU|]. exists (w' ++ w). rewrite <- app_assoc. split; [apply Forall_app; auto|reflexivity].
  - (* elements *) intros t x tx r HL IH z vs te rj -> R E. destruct R as [w1 v tv w2 W1 T W2|w1 v tv w2 es ts W1 T W2 R]; flat.
    + destruct (IH v tv (w2 ++ 93 :: rj) w1 W1 T (stop_ws93 _ _ W2) E) as (M & _ & w' & W' & EQ).
      destruct (bl_uniq w2 w' 93 93 rj z (ws_blanks _ W2) W' S93 S93 EQ) as (_ & _ & ->). split; [repeat constructor; exact M|reflexivity].
    + exfalso. destruct (IH v tv (w2 ++ 44 :: ts ++ 93 :: rj) w1 W1 T (stop_ws _ 44 _ W2 ltac:(auto)) E) as (M & _ & w' & W' & EQ).
      destruct (bl_uniq w2 w' 44 93 _ z (ws_blanks _ W2) W' S44 S93 EQ) as (_ & X & _). discriminate.
  - intros t x tx w r HL IH W z vs te rj -> R E. exfalso. destruct R as [w1 v tv w2 W1 T W2|w1 v tv w2 es ts W1 T W2 R]; flat.
    + destruct (IH v tv (w2 ++ 93 :: rj) w1 W1 T (stop_ws93 _ _ W2) E) as (M & _ & w' & W' & EQ).
      destruct (bl_uniq w2 w' 93 44 rj _ (ws_blanks _ W2) W' S93 S44 EQ) as (_ & X & _). discriminate.
    + destruct (IH v tv (w2 ++ 44 :: ts ++ 93 :: rj) w1 W1 T (stop_ws _ 44 _ W2 ltac:(auto)) E) as (M & _ & w' & W' & EQ).
      destruct (bl_uniq w2 w' 44 44 _ _ (ws_blanks _ W2) W' S44 S44 EQ) as (_ & _ & EQ'). destruct (elems_head _ _ R) as (a & c & y & -> & A & SC & N1 & N2). flat.
      destruct (bl_uniq a w c 93 _ z (ws_blanks _ A) W SC S93 EQ') as (_ & X & _). congruence.
  - intros t x tx w xs tx' r HL IH W HE IHE NA z vs te rj -> R E. destruct R as [w1 v tv w2 W1 T W2|w1 v tv w2 es ts W1 T W2 R]; flat.
    + exfalso. destruct (IH v tv (w2 ++ 93 :: rj) w1 W1 T (stop_ws93 _ _ W2) E) as (M & _ & w' & W' & EQ).
      destruct (bl_uniq w2 w' 93 44 rj _ (ws_blanks _ W2) W' S93 S44 EQ) as (_ & X & _). discriminate.
    + destruct (IH v tv (w2 ++ 44 :: ts ++ 93 :: rj) w1 W1 T (stop_ws _ 44 _ W2 ltac:(auto)) E) as (M & _ & w' & W' & EQ).
      destruct (bl_uniq w2 w' 44 44 _ _ (ws_blanks _ W2) W' S44 S44 EQ) as (_ & _ & EQ'). symmetry in EQ'. destruct (elems_shift _ _ R _ _ _ W EQ') as (ts' & EQ2 & R').
      destruct (IHE z es ts' rj eq_refl R' EQ2) as (MS & ->). split; [now constructor|reflexivity].
  - (* members *) intros t b k w1 w2 x tx s r B HK W1 W2 HL IH HS z ms tm rj -> R E.
    destruct R as [v1 k' v2 v3 v tv v4 V1 K V2 V3 T V4|v1 k' v2 v3 v tv v4 ms ts V1 K V2 V3 T V4 R]; flat.
    + destruct (bl_uniq [] v1 34 34 _ _ (Forall_nil _) (ws_blanks _ V1) S34 S34 E) as (<- & _ & E1). destruct (body_uniq b B k' _ _ K E1) as [<- E2].
      destruct (bl_uniq w1 v2 58 58 _ _ W1 (ws_blanks _ V2) S58 S58 E2) as (_ & _ & E3). destruct (text_head _ _ T) as (c & y & EC & _ & SC & _).
      rewrite EC in E3. cbn [app] in E3. destruct (bl_prefix _ _ _ _ _ W2 SC E3) as (u & -> & E4). apply Forall_app in V3 as [_ U].
      destruct (IH v tv (v4 ++ 125 :: rj) u U T (stop_ws _ 125 _ V4 ltac:(auto))) as (M & _ & w' & W' & EQ); [rewrite EC; exact E4|].
      symmetry in EQ. destruct (sep_close s _ HS w' v4 125 rj W' V4 S125 ltac:(discriminate) EQ) as (u2 & _ & U2 & _ & E5).
      destruct (bl_uniq [] u2 125 125 _ _ (Forall_nil _) (ws_blanks _ U2) S125 S125 E5) as (_ & _ & ->). split; [repeat constructor; auto|reflexivity].
    + exfalso. destruct (bl_uniq [] v1 34 34 _ _ (Forall_nil _) (ws_blanks _ V1) S34 S34 E) as (<- & _ & E1). destruct (body_uniq b B k' _ _ K E1) as [<- E2].
      destruct (bl_uniq w1 v2 58 58 _ _ W1 (ws_blanks _ V2) S58 S58 E2) as (_ & _ & E3). destruct (text_head _ _ T) as (c & y & EC & _ & SC & _).
      rewrite EC in E3. cbn [app] in E3. destruct (bl_prefix _ _ _ _ _ W2 SC E3) as (u & -> & E4). apply Forall_app in V3 as [_ U].
      destruct (IH v tv (v4 ++ 44 :: ts ++ 125 :: rj) u U T (stop_ws _ 44 _ V4 ltac:(auto))) as (M & _ & w' & W' & EQ); [rewrite EC; exact E4|].
      symmetry in EQ. destruct (sep_comma s _ HS w' v4 _ W' V4 EQ) as [(bb & BB & E5)|(a & u2 & U2 & E5)].
      * destruct (members_head _ _ R) as (w0 & y0 & -> & W0). flat. destruct (bl_uniq w0 bb 34 125 _ z (ws_blanks _ W0) BB S34 S125 E5) as (_ & X & _). discriminate.
      * injection E5 as <- _. apply Forall_inv in U2. unfold json_ws in U2. lia.
  - intros t b k w1 w2 x tx s kxs tx' r B HK W1 W2 HL IH HS HP IHP z ms tm rj -> R E. destruct (pairs_head _ _ _ _ HP) as (hy & EH).
    destruct R as [v1 k' v2 v3 v tv v4 V1 K V2 V3 T V4|v1 k' v2 v3 v tv v4 ms ts V1 K V2 V3 T V4 R]; flat.
    + exfalso. destruct (bl_uniq [] v1 34 34 _ _ (Forall_nil _) (ws_blanks _ V1) S34 S34 E) as (<- & _ & E1). destruct (body_uniq b B k' _ _ K E1) as [<- E2].
      destruct (bl_uniq w1 v2 58 58 _ _ W1 (ws_blanks _ V2) S58 S58 E2) as (_ & _ & E3). destruct (text_head _ _ T) as (c & y & EC & _ & SC & _).
      rewrite EC in E3. cbn [app] in E3. destruct (bl_prefix _ _ _ _ _ W2 SC E3) as (u & -> & E4). apply Forall_app in V3 as [_ U].
      destruct (IH v tv (v4 ++ 125 :: rj) u U T (stop_ws _ 125 _ V4 ltac:(auto))) as (M & _ & w' & W' & EQ); [rewrite EC; exact E4|].
      symmetry in EQ. destruct (sep_close s _ HS w' v4 125 rj W' V4 S125 ltac:(discriminate) EQ) as (u2 & _ & U2 & _ & E5). rewrite EH in E5. cbn [app] in E5.
      destruct (bl_uniq [] u2 34 125 _ _ (Forall_nil _) (ws_blanks _ U2) S34 S125 E5) as (_ & X & _). discriminate.
    + destruct (bl_uniq [] v1 34 34 _ _ (Forall_nil _) (ws_blanks _ V1) S34 S34 E) as (<- & _ & E1). destruct (body_uniq b B k' _ _ K E1) as [<- E2].
      destruct (bl_uniq w1 v2 58 58 _ _ W1 (ws_blanks _ V2) S58 S58 E2) as (_ & _ & E3). destruct (text_head _ _ T) as (c & y & EC & _ & SC & _).
      rewrite EC in E3. cbn [app] in E3. destruct (bl_prefix _ _ _ _ _ W2 SC E3) as (u & -> & E4). apply Forall_app in V3 as [_ U].
      destruct (IH v tv (v4 ++ 44 :: ts ++ 125 :: rj) u U T (stop_ws _ 44 _ V4 ltac:(auto))) as (M & _ & w' & W' & EQ); [rewrite EC; exact E4|].
      symmetry in EQ. destruct (sep_comma s _ HS w' v4 _ W' V4 EQ) as [(bb & BB & E5)|(a & u2 & U2 & E5)].
      * symmetry in E5. destruct (members_shift _ _ R _ _ _ BB E5) as (ts' & EQ2 & R'). destruct (IHP z ms ts' rj eq_refl R' EQ2) as (MS & ->).
        split; [now constructor|reflexivity].
      * exfalso. rewrite EH in E5. injection E5 as <- _. apply Forall_inv in U2. unfold json_ws in U2. lia.
  - (* elements of a tuple *) intros r w z vs te rj -> W R E. cbn [app] in E. destruct R as [(-> & R)|R].
    + destruct (bl_uniq w te 93 93 z rj W (ws_blanks _ R) S93 S93 E) as (_ & _ & ->). split; [constructor|reflexivity].
    + exfalso. destruct (elems_head _ _ R) as (a & c & y & -> & A & SC & N1 & N2). flat. destruct (bl_uniq w a 93 c z _ W (ws_blanks _ A) S93 SC E) as (_ & X & _). congruence.
  - intros t ts x xs tx s tx' r HL IH HS HT IHT w z vs te rj ER W R E. flat. destruct R as [(-> & R)|R].
    + destruct (at_close _ _ _ _ HL te 93 rj R (or_introl eq_refl) E) as (-> & -> & -> & t' & ->). cbn [app] in E.
      destruct (sep_close s _ HS [] [] 93 rj (Forall_nil _) (Forall_nil _) S93 ltac:(discriminate) E) as (u & EU & U & _ & E').
      destruct (IHT w z [] u rj ER W) as (M & ->); [left; auto|exact E'|]. split; [now constructor|reflexivity].
    + destruct R as [w1 v tv w2 W1 T W2|w1 v tv w2 es te W1 T W2 R]; flat.
      * destruct (IH v tv (w2 ++ 93 :: rj) w1 W1 T (stop_ws93 _ _ W2) E) as (M & _ & w' & W' & EQ). symmetry in EQ.
        destruct (sep_close s _ HS w' w2 93 rj W' W2 S93 ltac:(discriminate) EQ) as (u & _ & U & _ & E').
        destruct (IHT w z [] u rj ER W) as (MS & ->); [left; auto|exact E'|]. split; [now constructor|reflexivity].
      * destruct (IH v tv (w2 ++ 44 :: te ++ 93 :: rj) w1 W1 T (stop_ws _ 44 _ W2 ltac:(auto)) E) as (M & _ & w' & W' & EQ). symmetry in EQ.
        destruct (sep_comma s _ HS w' w2 _ W' W2 EQ) as [(bb & BB & E5)|(a & u2 & U2 & E5)].
        -- symmetry in E5. destruct (elems_shift _ _ R _ _ _ BB E5) as (te' & EQ2 & R'). destruct (IHT w z es te' rj ER W) as (MS & ->); [right; exact R'|exact EQ2|].
           split; [now constructor|reflexivity].
        -- exfalso. exact (tuple_no_comma _ _ _ _ HT w z a u2 _ ER W U2 E5).
Qed.
