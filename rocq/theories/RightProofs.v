(** Parsing what is a JSON text: success gives what the value means.  Arrays, maps,
    optional values and classes whose members need not be of the mapped types. *)
From Coq Require Import List NArith ZArith Bool Lia Arith ZifyBool ZifyNat ZifyN.
From Verif Require Import Base Mem Loop PolicyModel IntModel StrScanModel SkipModel SpecNum SpecText SpecJson SpecUnicode IntValueProofs
  StrScanProofs SkipProofs BracketProofs SkipSafe ScalarProofs PropertiesStr StrDecodeModel HashModel ValueModel NameProofs ClassProofs ClassProofs2 ArrayProofs
  SpecTyped TypedProofs UniqueProofs SpecLax LaxProofs SpecMeans MeansProofs.
Import ListNotations.
Local Open Scope N_scope.

Section Right.
  Context (buf : list N) (L : nat) (g : cfg).
  Hypothesis HYP : is_bytes buf /\ (L <= length buf)%nat /\ (nth_error buf L = None \/ nth_error buf L = Some 0) /\ N.of_nat (length buf) < 2^32.
  Hypothesis HX : c_ex g = ExConstexpr.
  Hypothesis HE : c_excl g = false.
  Set Default Proof Using "All".

  Local Notation sound := (sound L).
  Local Notation left := (left buf L).

  (** Where the text of [v] is followed by what may follow a value, the parser fails
      or gives a value that is [R] and stops behind the text. *)
  Definition right (P : parser) (v : jv) (R : val -> Prop) : Prop :=
    forall p t j x q, sound p -> jtext str_body v t -> sub_at buf (first p) t -> followed true buf (first p + length t) j L ->
      P false buf p = Ok (x, q) -> R x /\ sound q /\ (first p + length t <= first q <= j)%nat.

  Lemma sound_wf : forall p, sound p -> wf buf p.
  Proof. intros p (A & B & C & D). destruct HYP as (HB & HL & _). split; [exact HB|]. split; [exact A|]. split; [lia|]. exists L. split; [exact C|lia]. Qed.

  Lemma sound_set : forall p i, sound p -> (i <= L)%nat -> sound (set_first p i).
  Proof. intros p i (A & B & C & D) HI. split; [exact A|]. split; [exact B|]. split; [exact C|exact HI]. Qed.

  Lemma sound_moved : forall p q, sound p -> moved p q -> (first q <= L)%nat -> sound q.
  Proof. intros p q (A & B & C & D) (E & F & G & H) HI. split; [congruence|]. split; [congruence|]. split; [congruence|exact HI]. Qed.

  Lemma left_length : forall p, sound p -> length (left p) = (L - first p)%nat.
  Proof. intros p (A & B & C & D). destruct HYP as (_ & HL & _). unfold LaxProofs.left. rewrite skipn_length, firstn_length. lia. Qed.

  Lemma text_took : forall p t, sound p -> sub_at buf (first p) t -> (first p + length t <= L)%nat -> took buf L p t (set_first p (first p + length t)).
  Proof. intros p t S HS HL. split; [exact HS|]. split; [reflexivity|]. now apply sound_set. Qed.

  Lemma followed_stop : forall p j, sound p -> followed true buf (first p) j L -> stop (left p).
  Proof.
    intros p j S (t & W & HS & -> & HL & E). destruct t as [|c t].
    - cbn [length] in *. rewrite Nat.add_0_r in *. destruct E as [[_ E]|(LT & b & Hb & C)].
      + destruct (left p) as [|c r] eqn:EL; [exact I|]. pose proof (left_length p S) as X. rewrite EL in X. cbn [length] in X. lia.
      + rewrite (took_left buf L HYP p [b] (set_first p (first p + 1))); [|apply text_took; auto; [split; [exact Hb|exact I]|cbn; lia]].
        cbn [app stop]. unfold closer in C. lia.
    - rewrite (took_left buf L HYP p (c :: t) (set_first p (first p + length (c :: t)))); [|apply text_took; auto].
      cbn [app stop]. left. now apply Forall_inv in W.
  Qed.

  Lemma followed_blanks : forall i j w, followed true buf i j L -> sub_at buf i w -> blanks w -> (i + length w <= L)%nat -> (i + length w <= j)%nat.
  Proof.
    intros i j w (t & W & HS & -> & HL & E) SW BW LW. destruct E as [[_ E]|(LT & b & Hb & C)]; [lia|].
    destruct (le_lt_dec (length w) (length t)) as [|LL]; [lia|]. exfalso.
    destruct (nth_error w (length t)) as [c|] eqn:EC; [|apply nth_error_None in EC; lia].
    pose proof (sub_at_nth _ _ _ _ _ SW EC) as N0. rewrite N0 in Hb. injection Hb as ->.
    apply nth_error_In in EC. unfold blanks in BW. rewrite Forall_forall in BW. apply BW in EC. unfold closer in C. lia.
  Qed.

  (** The types of C111 *)
  Lemma right_lax : forall t v, lax_type t = true -> right (parse_value g t) v (means t v).
  Proof.
    intros t v HT p tx j x q S T HS HF E. pose proof (followed_le _ _ _ _ _ HF) as FL.
    destruct (value_lax buf L HYP g HX t HT p x q S E) as (ty & LX & T1).
    assert (T2 : took buf L p tx (set_first p (first p + length tx))) by (apply text_took; auto; lia).
    assert (SE : sound (set_first p (first p + length tx))) by apply T2.
    pose proof (took_left buf L HYP _ _ _ T1) as E1. pose proof (took_left buf L HYP _ _ _ T2) as E2. rewrite E1 in E2.
    destruct (proj1 lax_means t x ty (left q) LX v tx (left (set_first p (first p + length tx))) []) as (M & _ & w & W & EW); auto.
    - exact (Forall_nil _).
    - apply (followed_stop _ j SE). exact HF.
    - split; [exact M|]. split; [apply T1|].
      destruct (left_sub buf L HYP _ w (left q) SE EW) as (SW & LW). cbn [first set_first] in SW, LW.
      pose proof (followed_blanks _ _ _ HF SW W LW) as LJ.
      assert (EL : length (left (set_first p (first p + length tx))) = (length w + length (left q))%nat) by (rewrite EW; apply app_length).
      rewrite !left_length in EL by (auto; apply T1). cbn [first set_first] in EL. destruct T1 as (_ & _ & _ & _ & _ & LQ). lia.
  Qed.

  (** ** Arrays *)

  Lemma array_right_loop : forall (P : parser) (R : jv -> val -> Prop) e j, (e < L)%nat -> ws_run buf (S e) j L ->
    forall es v0 fuel p vs q vs', Forall (fun v => right P v (R v)) (v0 :: es) -> sound p -> at_elem buf (first p) e (v0 :: es) ->
      loop (array_body P buf) fuel (p, vs) = Ok (q, vs') -> exists xs, vs' = vs ++ xs /\ Forall2 R (v0 :: es) xs /\ sound q /\ first q = j.
  Proof.
    intros P R e j HL HF. pose proof HYP as (HB & HLB & _ & H32).
    induction es as [|v1 es IH]; intros v0 fuel p vs q0 vs' HR HS0 HA E;
      (destruct fuel as [|fuel]; [discriminate|]); cbn [loop] in E; unfold array_body at 1 in E;
      pose proof (at_elem_end _ _ _ _ HA) as [LE BE]; pose proof HS0 as (HN & HLp & HC & HLf);
      (assert (HM : has_more p = true) by (unfold has_more; apply Nat.ltb_lt; lia)); rewrite HM in E; cbn [ensure bind] in E;
      destruct (at_elem_cons _ _ _ _ _ HA) as (t & Ht & HS & HRem);
      destruct (rem_e_followed _ _ _ _ L HRem HL) as (j1 & FJ & JE & JB & RJ);
      pose proof (Forall_inv HR) as R1; pose proof (Forall_inv_tail HR) as R2;
      (destruct (P false buf p) as [[x q]| | |] eqn:EP; cbn [bind] in E; try discriminate E);
      destruct (R1 p t j1 x q HS0 Ht HS FJ EP) as (RX & SQ & LQ);
      (assert (LQl : last q = L) by apply SQ);
      (assert (FQ : followed true buf (first q) j1 (last q)) by (rewrite LQl; eapply followed_from; eauto));
      rewrite (trim_followed buf q j1 HB FQ) in E; cbn [bind] in E;
      (assert (HM1 : has_more (set_first q j1) = true) by (unfold has_more; cbn [first last set_first]; apply Nat.ltb_lt; lia));
      rewrite HM1 in E; unfold front at 1 in E; cbn [first set_first] in E; rewrite (rd_some _ _ _ JB) in E; cbn [bind] in E.
    - change ((93 =? c_comma) || (93 =? c_rbrack)) with true in E. cbn [ensure bind] in E.
      destruct (move_next_rem_e buf (set_first q j1) e [] HB) as (i & EM & LI & AI); [cbn [first set_first]; apply RJ; lia|cbn [last set_first]; lia|].
      rewrite EM in E. cbn [bind] in E. destruct AI as [-> AI].
      assert (HM2 : has_more (set_first (set_first q j1) e) = true) by (unfold has_more; cbn [first last set_first]; apply Nat.ltb_lt; lia).
      rewrite HM2 in E. unfold front in E. cbn [first set_first ensure bind] in E. rewrite (rd_some _ _ _ AI) in E. cbn [bind] in E. change (93 =? c_rbrack) with true in E. cbn iota in E.
      unfold end_of_array in E. rewrite (trim_left_run buf (remove_prefix (set_first (set_first q j1) e) 1) j HB) in E.
      2:{ unfold remove_prefix. cbn [first last set_first]. rewrite LQl. now replace (e + 1)%nat with (S e) by lia. }
      cbn [bind] in E. injection E as <- <-. exists [x]. split; [reflexivity|]. split; [constructor; [exact RX|constructor]|].
      pose proof (ws_run_le _ _ _ _ HF). split; [|reflexivity]. split; [apply SQ|]. split; [apply SQ|]. split; [apply SQ|]. cbn. lia.
    - change ((44 =? c_comma) || (44 =? c_rbrack)) with true in E. cbn [ensure bind] in E.
      destruct (move_next_rem_e buf (set_first q j1) e (v1 :: es) HB) as (i & EM & LI & AI); [cbn [first set_first]; apply RJ; lia|cbn [last set_first]; lia|].
      rewrite EM in E. cbn [bind] in E. pose proof (at_elem_end _ _ _ _ AI) as [LIE _].
      assert (HM2 : has_more (set_first (set_first q j1) i) = true) by (unfold has_more; cbn [first last set_first]; apply Nat.ltb_lt; lia).
      rewrite HM2 in E. unfold front in E. cbn [first set_first ensure bind] in E.
      destruct (at_elem_byte _ _ _ _ AI) as (b & Hb & SB). rewrite (rd_some _ _ _ Hb) in E. cbn [bind] in E. unfold starter in SB.
      replace (b =? c_rbrack) with false in E by (unfold c_rbrack; lia). cbn iota in E.
      destruct (IH v1 fuel (set_first (set_first q j1) i) (vs ++ [x]) q0 vs' R2) as (xs & EX & FX & SQ0 & FQ0); auto.
      + split; [apply SQ|]. split; [apply SQ|]. split; [apply SQ|]. cbn. lia.
      + exists (x :: xs). rewrite <- app_assoc in EX. split; [exact EX|]. split; [constructor; auto|auto].
  Qed.

  Lemma array_right : forall (P : parser) (R : jv -> val -> Prop) es p t j x q, Forall (fun v => right P v (R v)) es ->
    sound p -> jtext str_body (JArr es) t -> sub_at buf (first p) t -> ws_run buf (first p + length t) j L ->
    parse_value_array P buf p = Ok (x, q) -> exists xs, x = VArr xs /\ Forall2 R es xs /\ sound q /\ first q = j.
  Proof.
    intros P R es p t j x q HR SP HT HS HF E. pose proof (ws_run_le _ _ _ _ HF) as FL.
    pose proof SP as (HN & HLp & HC & HLf). pose proof HYP as (HB & HLB & _ & H32).
    destruct (array_start buf (first p) es t HT HS) as (w & c & S0 & W & S1 & C1 & C2 & LW & HA).
    unfold parse_value_array in E. rewrite (trim_here buf p 91) in E by (auto; lia). cbn [bind] in E.
    rewrite is_at_yes in E by (auto; lia). cbn [ensure bind] in E.
    assert (F1 : first (remove_prefix p 1) = S (first p)) by (unfold remove_prefix; cbn [first set_first]; lia).
    rewrite (trim_unchecked_to buf (remove_prefix p 1) w c) in E by (auto; rewrite F1; exact S1). cbn [bind] in E. rewrite F1 in E.
    set (p1 := set_first (remove_prefix p 1) (S (first p) + length w)) in *.
    set (e := (first p + length t - 1)%nat) in *.
    assert (FE : ws_run buf (S e) j L) by (replace (S e) with (first p + length t)%nat by (unfold e; lia); exact HF).
    pose proof (at_elem_end _ _ _ _ HA) as [LE BE]. destruct (at_elem_byte _ _ _ _ HA) as (b & Hb & SB).
    unfold front in E. change (first p1) with (S (first p) + length w)%nat in E. rewrite (rd_some _ _ _ Hb) in E. cbn [bind] in E.
    destruct es as [|v0 es].
    - subst b. change (93 =? c_rbrack) with true in E. cbn iota in E.
      destruct HA as [HA _]. unfold end_of_array in E.
      rewrite (trim_left_run buf (remove_prefix p1 1) j HB) in E.
      2:{ change (last (remove_prefix p1 1)) with (last p). rewrite HLp. unfold remove_prefix, p1. cbn [first set_first].
          replace (S (first p) + length w + 1)%nat with (S e) by lia. exact FE. }
      cbn [bind] in E. injection E as <- <-. exists []. split; [reflexivity|]. split; [constructor|]. split; [|reflexivity].
      split; [exact HN|]. split; [exact HLp|]. split; [exact HC|]. cbn. lia.
    - unfold starter in SB. replace (b =? c_rbrack) with false in E by (unfold c_rbrack; lia).
      destruct (loop (array_body P buf) (S (length buf)) (p1, [])) as [[q1 vs]| | |] eqn:EQ; cbn [bind] in E; try discriminate E. injection E as <- <-.
      destruct (array_right_loop P R e j ltac:(lia) FE es v0 (S (length buf)) p1 [] q1 vs HR) as (xs & -> & FX & SQ & FQ); auto.
      { split; [exact HN|]. split; [exact HLp|]. split; [exact HC|]. unfold p1. cbn. lia. }
      exists xs. auto.
  Qed.

  (** ** Maps *)

  Lemma key_right : forall p k s q z, sound p -> str_body k -> sub_at buf (first p) (34 :: k ++ 34 :: z) -> (first p + length k + 2 + length z <= L)%nat ->
    parse_value_string_escaped true false (c_ex g) true buf p = Ok (s, q) -> stands k s /\ sound q /\ first q = (first p + length k + 2)%nat.
  Proof.
    intros p k s q z SP HK HS HL E. rewrite HX in E. destruct (string_took buf L HYP p s q SP E) as (b & HB & ST & T).
    assert (HS' : sub_at buf (first p) (34 :: k ++ [34])).
    { destruct HS as [A B]. split; [exact A|]. apply sub_at_app in B as [B1 [B2 _]]. apply sub_at_app. cbn. auto. }
    assert (T2 : took buf L p (34 :: k ++ [34]) (set_first p (first p + length (34 :: k ++ [34])))).
    { apply text_took; auto. cbn [length]. rewrite app_length. cbn [length]. lia. }
    pose proof (took_left buf L HYP _ _ _ T) as E1. rewrite (took_left buf L HYP _ _ _ T2) in E1. cbn [app] in E1. rewrite <- !app_assoc in E1. cbn [app] in E1.
    injection E1 as E1. destruct (body_uniq _ HK _ _ _ HB E1) as [-> _]. split; [exact ST|]. split; [apply T|].
    destruct T as (_ & T & _). rewrite T. cbn [length]. rewrite app_length. cbn [length]. lia.
  Qed.

  Definition pair_right (R : jv -> val -> Prop) (m : list N * jv) (kx : list N * val) : Prop := stands (fst m) (fst kx) /\ R (snd m) (snd kx).

  Lemma map_right_loop : forall (P : parser) (R : jv -> val -> Prop) e j, (e < L)%nat -> ws_run buf (S e) j L ->
    forall ms m0 fuel p vs q vs', Forall (fun m => right P (snd m) (R (snd m))) (m0 :: ms) -> sound p -> at_member buf (first p) e (m0 :: ms) ->
      loop (map_body g P buf) fuel (p, vs) = Ok (q, vs') -> exists xs, vs' = vs ++ xs /\ Forall2 (pair_right R) (m0 :: ms) xs /\ sound q /\ first q = j.
  Proof.
    intros P R e j HL HF. pose proof HYP as (HB & HLB & _ & H32).
    induction ms as [|m1 ms IH]; intros [k v] fuel p vs q0 vs' HR HS0 HA E;
      (destruct fuel as [|fuel]; [discriminate|]); cbn [loop] in E; unfold map_body at 1 in E;
      pose proof (at_member_end _ _ _ _ HA) as [LE BE]; pose proof HS0 as (HN & HLp & HC & HLf);
      (assert (HM : has_more p = true) by (unfold has_more; apply Nat.ltb_lt; lia)); rewrite HM in E; cbn [ensure bind] in E;
      destruct (at_member_cons _ _ _ _ _ _ HA) as (w2 & w3 & t & Hk & W2 & W3 & Ht & HS & HRem);
      destruct (rem_followed _ _ _ _ L HRem HL) as (j1 & FJ & JE & RJ);
      pose proof (Forall_inv HR) as R1; pose proof (Forall_inv_tail HR) as R2; cbn [snd] in R1;
      pose proof (followed_le _ _ _ _ _ FJ) as FL1;
      destruct (jtext_head _ _ _ Ht) as (c & r & ET & ST);
      (destruct (parse_value_string_escaped true false (c_ex g) true buf p) as [[s p0]| | |] eqn:EK; cbn [bind] in E; try discriminate E);
      (destruct (key_right p k s p0 (w2 ++ 58 :: w3 ++ t) HS0 Hk HS) as (STK & SP0 & FP0);
        [rewrite app_length; cbn [length]; rewrite app_length; lia|exact EK|]);
      (assert (S2 : sub_at buf (first p0) (w2 ++ 58 :: w3 ++ t))
        by (destruct HS as [_ B]; apply sub_at_app in B as [_ [_ B]];
            match goal with H : sub_at buf ?a _ |- sub_at buf ?b _ => now replace b with a by lia end));
      (assert (LP0 : last p0 = L) by apply SP0);
      rewrite (trim_end_of_name_ok buf p0 w2 w3 c) in E; auto;
      try (unfold starter in ST; lia); try (rewrite LP0, FP0; subst t; cbn [length] in *; lia);
      try (subst t; apply sub_at_app in S2 as [A [B C]]; apply sub_at_app in C as [C [D _]];
           apply sub_at_app; split; [exact A|]; cbn [sub_at]; split; [exact B|]; apply sub_at_app; cbn; auto; fail);
      cbn [bind] in E;
      set (p1 := set_first p0 (first p0 + length w2 + 1 + length w3)) in *;
      (assert (SP1 : sound p1) by (apply sound_set; [exact SP0|lia]));
      (assert (S3 : sub_at buf (first p1) t)
        by (apply sub_at_app in S2 as [_ [_ C]]; apply sub_at_app in C as [_ C]; unfold p1; cbn [first set_first];
            match goal with H : sub_at buf ?a t |- sub_at buf ?b t => now replace b with a by lia end));
      (assert (F1 : followed true buf (first p1 + length t) j1 L)
        by (unfold p1; cbn [first set_first];
            match goal with H : followed true buf ?a j1 _ |- followed true buf ?b j1 _ => now replace b with a by lia end));
      (destruct (P false buf p1) as [[x q]| | |] eqn:EP; cbn [bind] in E; try discriminate E);
      destruct (R1 p1 t j1 x q SP1 Ht S3 F1 EP) as (RX & SQ & LQ);
      (assert (LQl : last q = L) by apply SQ);
      (assert (RQ : rem buf (first q) e _) by (apply RJ; unfold p1 in LQ; cbn [first set_first] in LQ; lia));
      (assert (LQE : (e < last q)%nat) by lia);
      destruct (move_next_rem buf q e _ HB RQ LQE) as (i & EM & LI & AI); rewrite EM in E; cbn [bind] in E;
      pose proof (at_member_end _ _ _ _ AI) as [LIE _];
      (assert (HM2 : has_more (set_first q i) = true) by (unfold has_more; cbn [first last set_first]; apply Nat.ltb_lt; lia));
      rewrite HM2 in E; unfold front in E; cbn [first set_first ensure bind] in E;
      destruct (at_member_byte _ _ _ _ AI) as (b & Hb & SB); rewrite (rd_some _ _ _ Hb) in E; cbn [bind] in E; subst b.
    - change (125 =? c_rbrace) with true in E. cbn iota in E. destruct AI as [-> _].
      rewrite (trim_left_run buf (remove_prefix (set_first q e) 1) j HB) in E.
      2:{ unfold remove_prefix. cbn [first last set_first]. rewrite LQl. now replace (e + 1)%nat with (S e) by lia. }
      cbn [bind] in E. injection E as <- <-. exists [(s, x)]. split; [reflexivity|]. split; [constructor; [split; assumption|constructor]|].
      pose proof (ws_run_le _ _ _ _ HF). split; [|reflexivity]. split; [apply SQ|]. split; [apply SQ|]. split; [apply SQ|]. cbn. lia.
    - change (34 =? c_rbrace) with false in E. cbn iota in E.
      destruct (IH m1 fuel (set_first q i) (vs ++ [(s, x)]) q0 vs' R2) as (xs & EX & FX & SQ0 & FQ0); auto.
      + split; [apply SQ|]. split; [apply SQ|]. split; [apply SQ|]. cbn. lia.
      + exists ((s, x) :: xs). rewrite <- app_assoc in EX. split; [exact EX|]. split; [constructor; [split; assumption|assumption]|auto].
  Qed.

  Lemma map_right : forall (P : parser) (R : jv -> val -> Prop) ms p t j x q, Forall (fun m => right P (snd m) (R (snd m))) ms ->
    sound p -> jtext str_body (JObj ms) t -> sub_at buf (first p) t -> ws_run buf (first p + length t) j L ->
    parse_value_keyvalue g P buf p = Ok (x, q) -> exists xs, x = VMap xs /\ Forall2 (pair_right R) ms xs /\ sound q /\ first q = j.
  Proof.
    intros P R ms p t j x q HR SP HT HS HF E. pose proof (ws_run_le _ _ _ _ HF) as FL.
    pose proof SP as (HN & HLp & HC & HLf). pose proof HYP as (HB & HLB & _ & H32).
    destruct (object_start g buf (first p) ms t HT HS) as (w & c & S0 & W & S1 & C1 & LW & HA).
    unfold parse_value_keyvalue in E. rewrite is_at_yes in E by (auto; lia). cbn [ensure bind] in E.
    assert (F1 : first (remove_prefix p 1) = S (first p)) by (unfold remove_prefix; cbn [first set_first]; lia).
    rewrite (trim_to buf (remove_prefix p 1) w c) in E; auto; [|rewrite F1; exact S1|rewrite F1; cbn [last remove_prefix set_first]; lia]. cbn [bind] in E. rewrite F1 in E.
    set (p1 := set_first (remove_prefix p 1) (S (first p) + length w)) in *.
    set (e := (first p + length t - 1)%nat) in *.
    assert (FE : ws_run buf (S e) j L) by (replace (S e) with (first p + length t)%nat by (unfold e; lia); exact HF).
    pose proof (at_member_end _ _ _ _ HA) as [LE BE]. destruct (at_member_byte _ _ _ _ HA) as (b & Hb & SB).
    assert (PE : ps_empty p1 = false).
    { unfold ps_empty, p1. cbn [isnull first last set_first remove_prefix]. rewrite HN. cbn [orb]. lia. }
    rewrite PE in E. cbn [negb ensure bind] in E.
    unfold front in E. change (first p1) with (S (first p) + length w)%nat in E. rewrite (rd_some _ _ _ Hb) in E. cbn [bind] in E. subst b.
    destruct ms as [|m0 ms].
    - change (125 =? c_rbrace) with true in E. cbn iota in E. destruct HA as [HA _].
      rewrite (trim_left_run buf (remove_prefix p1 1) j HB) in E.
      2:{ change (last (remove_prefix p1 1)) with (last p). rewrite HLp. unfold remove_prefix, p1. cbn [first set_first].
          replace (S (first p) + length w + 1)%nat with (S e) by lia. exact FE. }
      cbn [bind] in E. injection E as <- <-. exists []. split; [reflexivity|]. split; [constructor|]. split; [|reflexivity].
      split; [exact HN|]. split; [exact HLp|]. split; [exact HC|]. cbn. lia.
    - change (34 =? c_rbrace) with false in E. cbn iota in E.
      destruct (loop (map_body g P buf) (S (length buf)) (p1, [])) as [[q1 vs]| | |] eqn:EQ; cbn [bind] in E; try discriminate E. injection E as <- <-.
      destruct (map_right_loop P R e j ltac:(lia) FE ms m0 (S (length buf)) p1 [] q1 vs HR) as (xs & -> & FX & SQ & FQ); auto.
      { split; [exact HN|]. split; [exact HLp|]. split; [exact HC|]. unfold p1. cbn. lia. }
      exists xs. auto.
  Qed.

  (** ** Classes *)

  (** What member [m] gets from the members [all] of the document *)
  Definition got (m : member) (R : jv -> val -> Prop) (all : list (list N * jv)) (x : val) : Prop :=
    match assoc (m_name m) all with Some v => R v x | None => m_nullable m = true /\ x = VNone end.

  (** What is asked of its parser *)
  Definition able (names : list (list N)) (m : member) (R : jv -> val -> Prop) (all : list (list N * jv)) : Prop :=
    forall v, assoc (m_name m) all = Some v -> right (m_parse m) v (R v) /\ (v = JNull -> m_nullable m = true -> R JNull VNone) /\
      (overtakes names all (m_name m) -> v <> JNull -> forall r x q, located g buf v r -> m_parse m true buf r = Ok (x, q) -> R v x).

  Definition core (p : ps) : Prop := isnull p = false /\ last p = L /\ clast p = Some L.
  Definition skipped (names : list (list N)) (all : list (list N * jv)) (k : list N) (v : jv) (r : ps) : Prop := overtakes names all k /\ located g buf v r.

  Lemma core_sound : forall p, core p -> (first p <= L)%nat -> sound p.
  Proof. intros p (A & B & C) H. split; [exact A|]. split; [exact B|]. split; [exact C|exact H]. Qed.

  Section Members.
    Context (names : list (list N)) (exact : bool) (all : list (list N * jv)).
    Hypothesis NDN : NoDup names.

    Lemma core_moved : forall p q, moved p q -> core p -> core q.
    Proof. intros p q (A & B & C & D) (E & F & G). split; [congruence|]. split; congruence. Qed.

    Lemma member_right : forall pos e passed rest p locs m R x p' locs', passed ++ rest = all -> nth_error names pos = Some (m_name m) -> core p ->
      inv_in g names exact buf (skipped names all) pos e passed rest p locs -> able names m R all ->
      parse_class_member g exact names pos (m_nullable m) (m_parse m) buf p locs = Ok (x, p', locs') ->
      got m R all x /\ core p' /\ exists passed' rest', passed' ++ rest' = all /\ inv_in g names exact buf (skipped names all) (S pos) e passed' rest' p' locs'.
    Proof.
      intros pos e passed rest p locs m R x p' locs' HA0 Hn KP (HW & HL & HA & HR & HLo) HG EC. unfold parse_class_member in EC.
      pose proof HW as (HB & HN & HLp & cl & HC & HCL). pose proof HYP as (_ & HLB & _ & H32).
      assert (X : exists i, move_next buf p = Ok (set_first p i) /\ (first p <= i)%nat /\ at_member buf i e rest).
      { destruct HA as [HA|HA].
        - exists (first p). split; [|split; [lia|exact HA]]. rewrite (move_next_here buf p e rest HB HA). destruct p; reflexivity.
        - apply move_next_rem; auto. }
      clear HA. destruct X as (i & E1 & L1 & HA). rewrite E1 in EC. cbn [bind] in EC.
      set (p1 := set_first p i) in *.
      pose proof (at_member_end _ _ _ _ HA) as [LE BE].
      assert (M1 : moved p p1) by apply moved_first.
      assert (W1 : wf buf p1) by (apply (moved_wf buf p); auto; unfold p1; cbn [first last set_first]; lia).
      assert (PE : ps_empty p1 = false).
      { unfold ps_empty, p1. cbn [isnull first last set_first]. rewrite HN. cbn [orb]. lia. }
      change i with (first p1) in HA. change (last p) with (last p1) in HL.
      rewrite PE, (front_member buf p1 e rest HA) in EC. cbn [bind] in EC.
      replace ((match rest with [] => 125 | _ => 34 end =? c_quote) || (match rest with [] => 125 | _ => 34 end =? c_rbrace)) with true in EC
        by (destruct rest; reflexivity).
      cbn [ensure bind] in EC. unfold find_class_member in EC.
      assert (PL : (pos < length names)%nat) by (apply nth_error_Some; congruence).
      assert (BR : is_at buf p1 c_rbrace = Ok (match rest with [] => true | _ => false end)).
      { destruct (at_member_byte _ _ _ _ HA) as (b & Hb & Eb). unfold is_at, has_more, front. replace (first p1 <? last p1)%nat with true by (cbn [first] in *; unfold p1 in *; cbn [first last set_first] in *; lia).
        rewrite (rd_some _ _ _ Hb). cbn [bind]. subst b. destruct rest; reflexivity. }
      rewrite BR in EC. cbn [bind] in EC.
      destruct (m_nullable m || negb (isnull (nth pos locs no_loc)) || negb (match rest with [] => true | _ => false end)); cbn [ensure bind] in EC; [|discriminate EC].
      assert (TU : trim_left_unchecked buf p1 = Ok p1).
      { destruct (at_member_byte _ _ _ _ HA) as (b & Hb & Eb). apply (trim_unchecked_here buf p1 b); auto. destruct rest; lia. }
      rewrite TU in EC. cbn [bind] in EC.
      destruct (isnull (nth pos locs no_loc)) eqn:I.
      - (* not seen yet *)
        assert (RLn : (length rest < S (length buf))%nat).
        { destruct rest as [|? ?]; [cbn; lia|]. destruct HA as (tm & HM & _ & HS & _). apply jmembers_length in HM. apply sub_at_length in HS; [|intros Y; apply app_eq_nil in Y as [_ Y]; discriminate].
          rewrite app_length in HS. cbn [length] in *. lia. }
        assert (HKL : forall p k v t j r q, overtakes names all k -> core p -> wf buf p -> jtext str_body v t -> sub_at buf (first p) t ->
          followed true buf (first p + length t) j (last p) -> skip_val g buf p = Ok (r, q) -> behind buf (first p) -> v <> JNull -> skipped names all k v r).
        { intros q0 k v t j0 r q' N0 KQ WQ T S F E B _. split; [exact N0|]. exists q0, t, j0, q'. split; [exact WQ|]. auto. }
        destruct (find_loop_in g HX HE names NDN exact buf H32 core (skipped names all) all core_moved HKL pos e PL rest p1 locs passed _ HA0 RLn (core_moved _ _ M1 KP) W1 HL HA HR HLo I) as (p2 & locs2 & EL & M2 & L2 & RES).
        rewrite EL in EC. cbn [bind negb orb] in EC. pose proof (core_moved _ _ M2 (core_moved _ _ M1 KP)) as K2.
        destruct RES as [(d & FA)|(A2 & I2 & LO2)].
        + destruct FA as (nm & v & t & rest' & En & EA & Ht & HS & HRem & I2 & LO2).
          assert (nm = m_name m) as -> by congruence.
          rewrite I2 in EC. cbn [negb] in EC.
          destruct (rem_followed _ _ _ _ L HRem) as (j & FJ & JE & RJ); [rewrite <- (proj1 (proj2 (core_moved _ _ M1 KP))); exact HL|].
          assert (EV : assoc (m_name m) all = Some v).
          { rewrite <- HA0, <- EA. apply (assoc_mid names); [|eapply nth_error_In; eauto]. rewrite EA. apply HR. }
          destruct (HG v EV) as (RV & _ & _).
          destruct (m_parse m false buf p2) as [[y q]| | |] eqn:EP; cbn [bind] in EC; try discriminate EC. injection EC as <- <- <-.
          assert (LL : last p1 = L) by apply (core_moved _ _ M1 KP).
          destruct (RV p2 t j y q) as (RX & SQ & LQ); auto; [apply core_sound; [exact K2|]; lia|].
          unfold got. rewrite EV. split; [exact RX|]. split; [split; [apply SQ|]; split; apply SQ|].
          exists ((passed ++ d) ++ [(m_name m, v)]), rest'. split; [rewrite <- HA0, <- EA, <- !app_assoc; reflexivity|].
          split; [now apply sound_wf|]. split; [replace (last q) with L by (symmetry; apply SQ); lia|]. split; [right; apply RJ; exact LQ|].
          split; [|exact LO2].
          assert (NI : ~ In (m_name m) (map fst rest')).
          { destruct HR as (ND & _). rewrite <- EA in ND. apply (once_mid names _ _ _ _ ND). eapply nth_error_In; eauto. }
          assert (ER : rest = (d ++ [(m_name m, v)]) ++ rest').
          { rewrite <- app_assoc in EA. apply app_inv_head in EA. rewrite <- app_assoc. auto. }
          eapply (rest_ok_next g names exact buf H32); [exact Hn| |exact NI]. rewrite ER in HR. apply rest_ok_suffix in HR. now rewrite app_assoc in HR.
        + rewrite I2 in EC. cbn [negb orb] in EC. destruct (m_nullable m) eqn:EN; [|discriminate EC]. injection EC as <- <- <-.
          split.
          * unfold got. destruct (assoc (m_name m) all) as [v|] eqn:EV; [|auto]. destruct LO2 as [_ LO2]. specialize (LO2 pos _ (le_n _) Hn).
            rewrite HA0, EV in LO2. destruct (HG v EV) as (_ & NV & _).
            assert (v = JNull) as ->; [|auto]. destruct v; auto; exfalso; (destruct LO2 as [_ LO2]; destruct LO2 as [Y _]; [discriminate|congruence]).
          * split; [exact K2|]. exists (passed ++ rest), []. split; [rewrite app_nil_r; exact HA0|].
            split; [apply (moved_wf buf p1); auto; rewrite (proj1 M2); lia|]. split; [rewrite (proj1 M2); exact HL|]. split; [left; exact A2|]. split; [|now apply (locs_ok_weaken g names buf H32)].
            destruct HR as (Y1 & Y2 & Y3). split; [now rewrite app_nil_r|]. split; [constructor|]. intros _ k [].
      - (* seen before *)
        assert (EL : loop (find_body g exact names pos buf) (S (length buf)) (p1, locs) = Ok (p1, locs)).
        { cbn [loop]. unfold find_body. rewrite I. reflexivity. }
        rewrite EL in EC. cbn [bind negb orb] in EC. rewrite I in EC.
        pose proof HLo as [LL HLo']. specialize (HLo' pos _ (le_n _) Hn).
        destruct (assoc (m_name m) passed) as [v|] eqn:EV; [|congruence].
        assert (NJ : v <> JNull) by (intros ->; destruct HLo' as [Y _]; specialize (Y eq_refl); congruence).
        destruct (proj2 HLo' NJ) as [_ [OV LOC]].
        assert (EVA : assoc (m_name m) all = Some v) by (rewrite <- HA0, assoc_app, EV; reflexivity).
        destruct (HG v EVA) as (_ & _ & KN).
        destruct (m_parse m true buf (nth pos locs no_loc)) as [[y q]| | |] eqn:EP; cbn [bind] in EC; try discriminate EC. injection EC as <- <- <-.
        unfold got. rewrite EVA. split; [exact (KN OV NJ _ _ _ LOC EP)|]. split; [exact (core_moved _ _ M1 KP)|].
        exists passed, rest. split; [exact HA0|]. split; [exact W1|]. split; [exact HL|]. split; [left; exact HA|]. split; [|now apply (locs_ok_weaken g names buf H32)].
        eapply (rest_ok_next g names exact buf H32); [exact Hn|exact HR|]. apply assoc_some_in in EV. destruct HR as (ND & _).
        apply nth_error_In in Hn. specialize (ND _ Hn). rewrite map_app, count_occ_app in ND.
        apply (count_occ_In (list_eq_dec N.eq_dec)) in EV.
        intros Y. apply (count_occ_In (list_eq_dec N.eq_dec)) in Y. lia.
    Qed.

    Lemma members_right : forall (mr : list (member * (jv -> val -> Prop))) pre e passed rest p locs xs p', passed ++ rest = all ->
      names = pre ++ map (fun x => m_name (fst x)) mr -> core p -> inv_in g names exact buf (skipped names all) (length pre) e passed rest p locs ->
      Forall (fun x => able names (fst x) (snd x) all) mr -> parse_members g exact names (length pre) (map fst mr) buf p locs = Ok (xs, p') ->
      Forall2 (fun x y => got (fst x) (snd x) all y) mr xs /\ core p' /\ exists passed' rest' locs', passed' ++ rest' = all /\ inv_in g names exact buf (skipped names all) (length names) e passed' rest' p' locs'.
    Proof.
      induction mr as [|[m R] mr IH]; intros pre e passed rest p locs xs p' HA0 EN KP HI HG E; cbn [map parse_members fst] in E.
      - injection E as <- <-. split; [constructor|]. split; [exact KP|]. exists passed, rest, locs. split; [exact HA0|].
        cbn [map] in EN. rewrite app_nil_r in EN. replace (length names) with (length pre) by (rewrite EN; reflexivity). exact HI.
      - cbn [map fst] in EN. destruct (parse_class_member g exact names (length pre) (m_nullable m) (m_parse m) buf p locs) as [[[y p1] locs1]| | |] eqn:E1; cbn [bind] in E; try discriminate E.
        destruct (member_right (length pre) e passed rest p locs m R y p1 locs1) as (G1 & K1 & pa1 & re1 & A1 & I1); auto.
        { rewrite EN, nth_error_app2, Nat.sub_diag by lia. reflexivity. }
        { exact (Forall_inv HG). }
        destruct (parse_members g exact names (S (length pre)) (map fst mr) buf p1 locs1) as [[ys p2]| | |] eqn:E2; cbn [bind] in E; try discriminate E. injection E as <- <-.
        destruct (IH (pre ++ [m_name m]) e pa1 re1 p1 locs1 ys p2) as (G2 & K2 & pa2 & re2 & lo2 & A2 & I2); auto.
        + rewrite EN, <- app_assoc. reflexivity.
        + rewrite app_length, Nat.add_comm. exact I1.
        + exact (Forall_inv_tail HG).
        + rewrite app_length, Nat.add_comm. exact E2.
        + split; [constructor; auto|]. split; [exact K2|]. exists pa2, re2, lo2. auto.
    Qed.
  End Members.

  Definition object_fits (exact : bool) (names : list (list N)) (js : list (list N * jv)) : Prop :=
    NoDup names /\ once names js /\ Forall (fun k => name_ok g k /\ tells g names k) (map fst js) /\
    (exact = true -> forall k, In k (map fst js) -> In k names).

  Lemma class_right : forall exact (mr : list (member * (jv -> val -> Prop))) js p t j x q, object_fits exact (map m_name (map fst mr)) js ->
    Forall (fun x => able (map m_name (map fst mr)) (fst x) (snd x) js) mr ->
    sound p -> jtext str_body (JObj js) t -> sub_at buf (first p) t -> ws_run buf (first p + length t) j L ->
    parse_json_class g exact (map fst mr) buf p = Ok (x, q) ->
    exists xs, x = VClass xs /\ Forall2 (fun x y => got (fst x) (snd x) js y) mr xs /\ sound q /\ first q = j.
  Proof.
    intros exact mr js p t j x q (ND & NDJ & FO & EX) HG SP HT HS HF E. unfold parse_json_class in E.
    pose proof SP as (HN & HLp & HC & HLf). pose proof HYP as (HB & HLB & _ & H32). pose proof (ws_run_le _ _ _ _ HF) as FL.
    destruct (object_start g buf (first p) js t HT HS) as (w & c & S0 & W & S1 & C1 & LW & HA).
    rewrite (trim_here buf p 123) in E by (auto; lia). cbn [bind] in E.
    rewrite is_at_yes in E by (auto; lia). cbn [ensure bind] in E.
    set (ms := map fst mr) in *. set (names := map m_name ms) in *.
    set (e := (first p + length t - 1)%nat) in *.
    set (p0 := remove_prefix (set_class p (Some (first p)) (Some (last p))) 1) in *.
    assert (F0 : first p0 = S (first p)) by (unfold p0, remove_prefix; cbn [first set_first set_class]; lia).
    assert (L0 : last p0 = L) by exact HLp.
    rewrite (trim_to buf p0 w c) in E; auto; [|rewrite F0; exact S1|rewrite F0, L0; lia].
    cbn [bind] in E. rewrite F0 in E. set (p1 := set_first p0 (S (first p) + length w)) in *.
    assert (LE : (e < L)%nat) by lia.
    assert (K1 : core p1) by (split; [exact HN|]; split; [exact L0|]; unfold p1, p0; cbn; congruence).
    assert (W1 : wf buf p1) by (apply sound_wf, core_sound; [exact K1|]; unfold p1; cbn; lia).
    destruct (parse_members g exact names 0 ms buf p1 (map (fun _ => no_loc) ms)) as [[xs p2]| | |] eqn:E2; cbn [bind] in E; try discriminate E.
    assert (I0 : inv_in g names exact buf (skipped names js) (length (@nil (list N))) e [] js p1 (map (fun _ => no_loc) ms)).
    { split; [exact W1|]. split; [change (last p1) with (last p0); lia|]. split; [left; exact HA|]. split.
      - split; [exact NDJ|]. split; [exact FO|]. intros HEx k Hk. apply EX in Hk; auto. apply In_nth_error in Hk as (m & Hm). exists m. split; [cbn; lia|exact Hm].
      - split; [unfold names; now rewrite !map_length|]. intros m nm _ _. cbn [assoc].
        destruct (nth_in_or_default m (map (fun _ : member => no_loc) ms) no_loc) as [Y| ->]; [|reflexivity].
        apply in_map_iff in Y as (? & <- & _). reflexivity. }
    destruct (members_right names exact js ND mr [] e [] js p1 (map (fun _ => no_loc) ms) xs p2 eq_refl) as (GX & K2 & pa & re & lo & A2 & I2); auto.
    { unfold names, ms. rewrite map_map. reflexivity. }
    destruct (cleanup_ok g HX names exact buf H32 (skipped names js) e pa re p2 lo (cfirst p, clast p) j I2) as (q2 & EQ & Q1 & Q2 & Q3).
    { replace (last p2) with L by (symmetry; apply K2). now replace (S e) with (first p + length t)%nat by (unfold e; lia). }
    rewrite EQ in E. cbn [bind] in E. injection E as <- <-. exists xs. split; [reflexivity|]. split; [exact GX|].
    split; [|exact Q3]. split; [cbn; rewrite Q2; apply K2|]. split; [cbn; rewrite Q1; apply K2|]. split; [exact HC|]. cbn. lia.
  Qed.
End Right.
