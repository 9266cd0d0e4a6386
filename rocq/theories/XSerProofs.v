(** Real numbers and dates inside other types: what is written stands for the
    value. *)
From Coq Require Import List NArith ZArith QArith Qreals Reals Bool Lia Lra Arith ZifyBool ZifyNat ZifyN.
From Coq Require Import SpecFloat.
From Flocq Require Import Core BinarySingleNaN.
From Verif Require Import Base Mem Loop IntModel IntSerModel IntSerProofs IntValueProofs SpecNum SpecText SpecJson SpecCompact SpecUnicode
  PropertiesInt StrEncodeModel StrEncodeProofs PropertiesStrOut ValueModel NameProofs SpecTyped SerModel SpecSer PropertiesTyped VariantProofs SerProofs SerProofs2
  RealModel SpecReal RealProofs FloatModel SpecDouble RealSerModel RealSerProofs RealSerProofs2 PropertiesRealSer
  SpecDate DateModel DateProofs DateTextProofs PropertiesDate PropertiesDateText XModel SpecX XProofs.
Import ListNotations.
Local Open Scope N_scope.

(** ** Dates *)

Lemma two_field : forall z a b, two z a b -> field [a; b] z.
Proof.
  intros z a b (A & B & ->). split; [exact (Forall_cons _ A (Forall_cons _ B (Forall_nil _)))|]. split; reflexivity.
Qed.

Lemma dig_plain : forall ds, digits ds -> plain_name ds.
Proof. intros ds H. unfold plain_name. eapply Forall_impl; [|exact H]. unfold is_dig. intros a Ha. lia. Qed.

Lemma date_text_plain : forall b tp, date_text b tp -> plain_name b.
Proof.
  intros b tp [Y M D h mi s fr m d hh mm ss ns k DY NY (FM & _) (FD & _) (Fh & _) (Fmi & _) (Fs & _) FF _ _ _ _ _].
  assert (PF : plain_name fr) by (destruct FF as [[-> _]|(ds & -> & DD & _)]; [constructor|constructor; [lia|now apply dig_plain]]).
  assert (A : forall a b, plain_name a -> plain_name b -> plain_name (a ++ b)) by (intros; unfold plain_name in *; now apply Forall_app).
  assert (C : forall c a, 32 <= c < 256 /\ c <> 34 /\ c <> 92 -> plain_name a -> plain_name (c :: a)) by (intros; constructor; auto).
  repeat first [apply A; [now apply dig_plain|]|apply C; [lia|]|apply A; [exact PF|]]. constructor.
Qed.

Lemma date_written : forall tp, datable tp -> exists b, to_json_string_date tp = Ok (34 :: b ++ [34]) /\ date_text b tp.
Proof.
  intros tp [Htp Hms]. destruct (C44_from_time_point tp Htp) as (y & m & d & h & mn & s & ms & k & E & V & D & T & Hm & Et).
  assert (Ems : (tp mod 1000 = ms)%Z) by lia. rewrite Ems in Hms.
  assert (Hk : (0 <= k < 2 ^ 31)%Z) by (destruct T as [? [? ?]]; lia).
  pose proof (proj1 (day_no_iff y m d k V) D) as Ek.
  assert (Hk' : (- 2 ^ 31 <= k < 2 ^ 31)%Z) by lia.
  pose proof (dfc_year y m d k V Ek Hk') as Hy.
  assert (Hd31 : (1 <= m <= 12 /\ 1 <= d <= 31)%Z).
  { destruct V as [Hmm Hd]. split; [exact Hmm|]. unfold month_len in Hd.
    destruct (m =? 2)%Z; [destruct (leap y)|destruct (_ || _)]; lia. }
  assert (Hy0 : (0 <= y)%Z).
  { clear -Ek Hk Hd31. unfold dfc, before_year in Ek.
    assert (Hmo : (0 <= moff m <= 337)%Z) by (unfold moff; destruct (2 <? m)%Z eqn:?; lia).
    set (q := moff m) in *. clearbody q. destruct (m <=? 2)%Z; lia. }
  pose proof T as [Hh [Hmn Hs]]. destruct Hd31 as [Hm12 Hd31].
  unfold to_json_string_date. rewrite E. cbn [bind c_year c_month c_day c_hour c_minute c_second c_nano].
  assert (R32 : in_range 32 y) by (unfold in_range; change (2 ^ (32 - 1))%N with 2147483648%N; lia).
  assert (W32 : int_width 32) by (unfold int_width; auto).
  destruct (C05_signed_canonical 32 y W32 R32) as (Y & EY & CY).
  unfold canonical_int in CY. replace (y <? 0)%Z with false in CY by lia.
  destruct CY as [(DY & NY & _) VY].
  destruct (out2_ok m) as (m1 & m2 & E1 & T1); [lia|].
  destruct (out2_ok d) as (d1 & d2 & E2 & T2); [lia|].
  destruct (out2_ok h) as (h1 & h2 & E3 & T3); [lia|].
  destruct (out2_ok mn) as (n1 & n2 & E4 & T4); [lia|].
  destruct (out2_ok s) as (s1 & s2 & E5 & T5); [lia|].
  destruct (frac_ok ms) as (fr & E6 & T6); [lia|].
  rewrite EY, E1, E2, E3, E4, E5, E6. cbn [bind].
  exists (Y ++ 45 :: [m1; m2] ++ 45 :: [d1; d2] ++ 84 :: [h1; h2] ++ 58 :: [n1; n2] ++ 58 :: [s1; s2] ++ fr ++ [90]). split.
  - f_equal. unfold c_quote, c_minus, c_colon. cbn [app]. repeat (rewrite <- !app_assoc; cbn [app]). reflexivity.
  - assert (EY2 : Z.of_N (dec_val Y) = y) by (rewrite <- VY; lia).
    replace tp with ((((k * 24 + h) * 60 + mn) * 60 + s) * 1000 + (ms * 1000000) / 1000000)%Z by (rewrite Z.div_mul by lia; lia).
    eapply (date_of Y [m1; m2] [d1; d2] [h1; h2] [n1; n2] [s1; s2] fr m d h mn s (ms * 1000000) k); eauto using two_field; rewrite ?EY2; auto; lia.
Qed.

(** ** Doubles *)

Lemma val_real_val : forall d, val_real (real_val d) = Some d.
Proof. intros [s|s| |s m e]; reflexivity. Qed.

Lemma zero_int : int_part [48].
Proof. split; [constructor; [unfold is_dig; lia|constructor]|]. split; [discriminate|]. intros r H; congruence. Qed.

Lemma zero_nearest : nearest_double false (Q2R (inject_Z (sign_of []) * magnitude [48%N] [] 0)) (S754_zero false).
Proof.
  assert (Z : Q2R (inject_Z (sign_of []) * magnitude [48%N] [] 0) = 0%R).
  { rewrite Q2R_mult. unfold magnitude. cbn. unfold Q2R. cbn. lra. }
  rewrite Z. unfold nearest_double, rnd. rewrite round_0 by apply valid_rnd_N. rewrite Rabs_R0. split.
  - intros _. repeat split.
  - intros H. pose proof (bpow_gt_0 radix2 1024). lra.
Qed.

Section Out.
  Context (db : spec_float -> N * Z) (cd0 : Z) (fmt : fp_format).
  Hypothesis HDB : dragonbox db.
  Hypothesis HCD : (0 <= cd0 <= 1)%Z.
  Context (o : sopt).
  Hypothesis HT : o_trailing o = false.
  Hypothesis HLay : layout o.
  Context (g : cfg).

  Lemma real_written : forall d, writable d ->
    exists tx, to_json_string_real cd0 true LSNever NEnone fmt (fp_of db d) = Ok tx /\ jnum tx /\ real_text true tx d.
  Proof.
    intros d [->|(s & m & e & -> & HV)].
    - exists [48]. split; [reflexivity|]. split; [exact (jn [] [48] [] [] (or_introl eq_refl) zero_int fp_none ep_none)|].
      exact (real_of true [] [48] [] [] 0 _ (or_introl eq_refl) zero_int fp_none ev_none ltac:(reflexivity) ltac:(discriminate) zero_nearest).
    - specialize (HDB s m e HV). unfold fp_of. destruct (db (S754_finite s m e)) as [v ex]. destruct HDB as (V0 & (HP & HE) & ND). cbn [fst snd to_json_string_real].
      destruct (decimal_length_ok true v ltac:(lia) HP) as (ol & EO & _).
      destruct (to_chars_parts cd0 true fmt s v ex ol HCD ltac:(lia) HP HE EO) as (i & f & e' & x & -> & HI & HF & HX & BX & HM & _).
      cbn [bind quote_if app]. rewrite app_nil_r. set (sg := if s then [45] else []).
      assert (SG : sg = [] \/ sg = [45]) by (unfold sg; destruct s; auto).
      exists (sg ++ i ++ f ++ e'). split; [reflexivity|]. split; [constructor; auto; eapply exp_val_part; eauto|].
      apply (real_of true sg i f e' x); auto; [change (2^62)%Z with 4611686018427387904%Z; lia|discriminate|].
      replace (match sg with [] => false | _ => true end) with s by (unfold sg; destruct s; reflexivity).
      assert (EQ : (inject_Z (sign_of sg) * magnitude i f x == fp_value s v ex)%Q) by (rewrite HM; apply sign_decimal).
      rewrite (Qeq_eqR _ _ EQ). exact ND.
  Qed.

  Definition written (t : xty) (lvl : nat) (x : val) (v : jv) : Prop :=
    exists out, to_json_string_x db cd0 fmt o t lvl x = Ok out /\ good o v out /\ means true (usable g) t v x /\ (v = JNull -> x_nullable t = true).

  Definition x_members_belong := fix members (mm : list (list N * xty)) (xs : list val) : Prop :=
    match mm, xs with
    | [], [] => True
    | (_, t) :: mm', y :: xs' => x_belongs t y /\ members mm' xs'
    | _, _ => False
    end.
  Definition x_elements_belong := fix elements (ts : list xty) (xs : list val) : Prop :=
    match ts, xs with
    | [], [] => True
    | t :: ts', y :: xs' => x_belongs t y /\ elements ts' xs'
    | _, _ => False
    end.
  Definition x_wms lvl (mm : list (list N * xty)) :=
    map (fun m => mkwm (fst m) (if x_nullable (snd m) then Nullable else NotNullable) (to_json_string_x db cd0 fmt o (snd m) lvl)) mm.

  (** What the members of an object are for the members of the class *)
  Definition x_gets (js : list (list N * jv)) := fix members (mm : list (list N * xty)) (xs : list val) : Prop :=
    match mm, xs with
    | [], [] => True
    | (nm, t) :: mm', y :: xs' =>
        match lookup nm js with
        | Some v' => means true (usable g) t v' y
        | None => x_nullable t = true /\ y = VNone
        end /\ members mm' xs'
    | _, _ => False
    end.

  Lemma x_gets_same : forall js js' mm xs, (forall k, In k (map fst mm) -> lookup k js = lookup k js') -> x_gets js mm xs -> x_gets js' mm xs.
  Proof.
    induction mm as [|[nm t] mm IH]; intros [|y xs] H G; try contradiction; [exact I|]. destruct G as [G1 G2]. cbn [map fst In] in H. split.
    - rewrite <- (H nm) by auto. exact G1.
    - apply IH; auto.
  Qed.

  Lemma x_class_members : forall lvl mm,
    (forall m, In m mm -> forall x, x_belongs (snd m) x -> exists v, written (snd m) lvl x v) ->
    NoDup (map fst mm) -> Forall plain_name (map fst mm) -> forall xs, x_members_belong mm xs ->
    forall is_first visited, (forall k, In k (map fst mm) -> ~ In k visited) ->
    exists js body, class_members o (next_member o lvl) is_first visited (x_wms lvl mm) xs = Ok (sep is_first js ++ body) /\
      members_good o js body /\ NoDup (map fst js) /\ (forall k, In k (map fst js) -> In k (map fst mm)) /\ x_gets js mm xs.
  Proof.
    intros lvl mm. induction mm as [|[nm t] mm IH]; intros HW ND HP xs HB is_first visited HV; destruct xs as [|y xs]; cbn [x_members_belong] in HB; try contradiction.
    - exists [], []. split; [reflexivity|]. split; [apply members_nil|]. split; [constructor|]. split; [auto|exact I].
    - destruct HB as [HY HB]. cbn [map fst] in *. inversion ND as [|? ? NI ND']; subst. inversion HP as [|? ? HN HP']; subst.
      cbn [x_wms map fst snd class_members wm_name wm_null wm_write]. rewrite visited_no by (apply HV; left; reflexivity).
      assert (HV' : forall k, In k (map fst mm) -> ~ In k (visited ++ [nm])).
      { intros k HK HI. apply in_app_or in HI as [HI|[->|[]]]; [eapply HV; [right; exact HK|exact HI]|contradiction]. }
      assert (HW' : forall m, In m mm -> forall x, x_belongs (snd m) x -> exists v, written (snd m) lvl x v) by (intros m Hm; apply HW; now right).
      replace (match (if x_nullable t then Nullable else NotNullable) with NotNullable => false | _ => negb (has_value y) end) with (x_nullable t && negb (has_value y)) by (destruct (x_nullable t); reflexivity).
      destruct (x_nullable t && negb (has_value y)) eqn:EN.
      + destruct (IH HW' ND' HP' xs HB is_first (visited ++ [nm]) HV') as (js & body & E & G & NJ & IN & GE). exists js, body.
        split; [exact E|]. split; [exact G|]. split; [exact NJ|]. split; [intros k HK; right; auto|]. cbn [x_gets]. split; [|exact GE].
        rewrite lookup_absent by (intros HI; apply NI; auto). apply andb_prop in EN as [E1 E2]. split; [exact E1|]. destruct y; try discriminate; reflexivity.
      + destruct (HW (nm, t) (or_introl eq_refl) y HY) as (v & tx & E & G & M & _). cbn [snd] in *. rewrite E. cbn [bind].
        destruct (IH HW' ND' HP' xs HB false (visited ++ [nm]) HV') as (js & rest & ER & GR & NJ & IN & GE). fold (x_wms lvl mm).
        rewrite ER. cbn [bind]. exists ((nm, v) :: js). eexists. split.
        { cbn [sep]. f_equal. }
        split; [|split; [|split]].
        * pose proof (members_cons o HLay lvl nm v js tx rest (plain_name_rfc nm HN) (plain_bytes o nm HN) G GR) as Mc. cbn [app] in Mc. rewrite <- app_assoc in Mc. exact Mc.
        * cbn [map fst]. constructor; auto.
        * cbn [map fst In]. intros k [HK|HK]; auto.
        * cbn [x_gets lookup]. destruct (list_eq_dec N.eq_dec nm nm); [|congruence]. split; [exact M|].
          eapply x_gets_same; [|exact GE]. intros k HK. cbn [lookup]. destruct (list_eq_dec N.eq_dec nm k); [subst; contradiction|reflexivity].
  Qed.

  Lemma x_class_out : forall ex lvl mm xs,
    (forall m, In m mm -> forall x, x_belongs (snd m) x -> exists v, written (snd m) (S lvl) x v) ->
    NoDup (map fst mm) -> Forall plain_name (map fst mm) -> x_members_belong mm xs -> exists v, written (XClass ex mm) lvl (VClass xs) v.
  Proof.
    intros ex lvl mm xs HW ND HP HB.
    destruct (x_class_members (S lvl) mm HW ND HP xs HB true []) as (js & body & E & G & NJ & IN & GE); [intros k _ []|].
    exists (JObj js). eexists. split; [|split; [|split; [|discriminate]]].
    - cbn [to_json_string_x]. unfold serialize_json_class. fold (x_wms (S lvl) mm). rewrite E. cbn [bind].
      replace (sep true js) with (@nil N) by (destruct js; reflexivity). cbn [app]. reflexivity.
    - apply obj_good; auto. unfold x_wms. destruct mm; [intros _|discriminate]. destruct js as [|[k v] js]; [reflexivity|]. destruct (IN k). now left.
    - cbn [means]. exists js, xs. split; [reflexivity|]. split; [reflexivity|]. split; [exact ND|]. split; [|split; [|split; [auto|exact GE]]].
      + intros k HK. apply (proj1 (NoDup_count_occ (list_eq_dec N.eq_dec) _) NJ).
      + apply Forall_forall. intros k HK. apply IN in HK. apply usable_mapped; auto. rewrite Forall_forall in HP. auto.
  Qed.

  Lemma x_tuple_elems : forall lvl ts,
    (forall t, In t ts -> forall x, x_belongs t x -> exists v, written t lvl x v) ->
    forall xs, x_elements_belong ts xs ->
    exists es body, tuple_elems (next_member o lvl) (map (fun t => to_json_string_x db cd0 fmt o t lvl) ts) xs = Ok body /\
      is_bytes body /\ (ts = [] -> body = [] /\ es = []) /\ (ts <> [] -> es <> []) /\
      (ts <> [] -> forall post, ws post -> jelems rfc_body es (next_member o lvl ++ body ++ post)) /\
      (o_pretty o = false -> body = compact_elems es) /\
      (fix elements (ts : list xty) (es : list jv) (xs : list val) : Prop :=
           match ts, es, xs with
           | [], [], [] => True
           | t :: ts', v' :: es', y :: xs' => means true (usable g) t v' y /\ elements ts' es' xs'
           | _, _, _ => False
           end) ts es xs.
  Proof.
    intros lvl ts. induction ts as [|t ts IH]; intros HW xs HB; destruct xs as [|y xs]; cbn [x_elements_belong] in HB; try contradiction.
    - exists [], []. split; [reflexivity|]. split; [constructor|]. split; [auto|]. split; [congruence|]. split; [congruence|]. split; [reflexivity|exact I].
    - destruct HB as [HY HB]. destruct (HW t (or_introl eq_refl) y HY) as (v & tx & E & (GT & GB & GM) & M & _).
      destruct (IH (fun t' Ht' => HW t' (or_intror Ht')) xs HB) as (es & rest & ER & RB & RN & RE & RJ & RM & RG).
      cbn [map tuple_elems]. rewrite E, ER. cbn [bind]. exists (v :: es). eexists. split; [reflexivity|].
      pose proof (ws_next o lvl HLay) as HWs. assert (NM : o_pretty o = false -> next_member o lvl = []) by apply next_min.
      set (pre := next_member o lvl) in *. clearbody pre. clear ER.
      destruct ts as [|t' ts].
      + destruct (RN eq_refl) as [-> ->]. cbn [map app]. rewrite app_nil_r. split; [exact GB|]. split; [discriminate|]. split; [discriminate|]. split; [|split].
        * intros _ post HP. now apply e_one.
        * intros HM. cbn [compact_elems]. auto.
        * split; auto.
      + assert (NE : t' :: ts <> []) by congruence. pose proof (RE NE) as NEs. cbn [map]. split; [|split; [discriminate|split; [discriminate|split; [|split]]]].
        * apply bytes_app; auto. apply bytes_app; auto. apply bytes_cons; [lia|now apply ws_bytes].
        * intros _ post HP. specialize (RJ NE post HP).
          replace (pre ++ (tx ++ (44 :: pre) ++ rest) ++ post) with (pre ++ tx ++ [] ++ 44 :: (pre ++ rest ++ post)) by (cbn [app]; repeat (rewrite <- !app_assoc; cbn [app]); reflexivity).
          apply e_cons; auto. constructor.
        * intros HM. rewrite (NM HM), (RM HM), (GM HM). destruct es; [congruence|reflexivity].
        * split; auto.
  Qed.

  Lemma x_tuple_out : forall ex lvl ts xs,
    (forall t, In t ts -> forall x, x_belongs t x -> exists v, written t (S lvl) x v) ->
    x_elements_belong ts xs -> exists v, written (XTuple ex ts) lvl (VTuple xs) v.
  Proof.
    intros ex lvl ts xs HW HB.
    destruct (x_tuple_elems (S lvl) ts HW xs HB) as (es & body & E & BB & BN & BE & BJ & BM & BG).
    exists (JArr es). eexists. split; [|split; [|split; [|discriminate]]].
    - cbn [to_json_string_x]. unfold to_json_string_tuple. rewrite E. cbn [bind]. rewrite trailing_none by exact HT. cbn [app]. reflexivity.
    - pose proof (ws_next o lvl HLay) as HW1. pose proof (ws_next o (S lvl) HLay) as HW2. split; [|split].
      + destruct ts as [|t ts].
        * destruct (BN eq_refl) as [-> ->]. cbn [map app]. now apply t_arr0.
        * cbn [map]. assert (NE : t :: ts <> []) by congruence. specialize (BJ NE (next_member o lvl) HW1).
          apply t_arr in BJ. repeat (rewrite <- !app_assoc in BJ; cbn [app] in BJ). exact BJ.
      + apply bytes_cons; [lia|]. apply bytes_app; [now apply ws_bytes|]. apply bytes_app; auto. apply bytes_app; [|apply bytes_cons; [lia|constructor]].
        destruct ts; [constructor|now apply ws_bytes].
      + intros HM. rewrite compact_arr, (BM HM), !(next_min o _ HM). now destruct ts.
    - cbn [means]. exists es, xs, []. rewrite app_nil_r. split; [reflexivity|]. split; [reflexivity|]. split; [auto|]. split; [discriminate|exact BG].
  Qed.

  Theorem x_written : forall t lvl x, x_belongs t x -> exists v, written t lvl x v.
  Proof.
    fix IH 1. intros t lvl x HB. destruct t as [t| | |t|t|t|ex mm|ex ts].
    - exists (tree (o_errutf8 o) (o_7bit o) t x). destruct (to_json_good o HT HLay t lvl x HB) as (out & E & G). exists out.
      split; [exact E|]. split; [exact G|]. pose proof (typed_tree g (o_errutf8 o) (o_7bit o) t x HB) as TT. split; [exact TT|].
      intros EN. rewrite EN in TT. eapply TypedProofs.typed_null; eauto.
    - destruct HB as (d & -> & HW). destruct (real_written d HW) as (tx & E & J & R). exists (JNum tx), tx. cbn [to_json_string_x]. rewrite val_real_val.
      split; [exact E|]. split; [split; [now constructor|]; split; [now apply jnum_bytes|reflexivity]|]. split; [cbn [means]; eauto|discriminate].
    - destruct HB as (tp & -> & HD). destruct (date_written tp HD) as (b & E & D). exists (JStr b), (34 :: b ++ [34]). pose proof (date_text_plain b tp D) as P.
      split; [exact E|]. split; [split; [constructor; now apply plain_name_rfc|]; split; [|reflexivity]|].
      + apply bytes_cons; [lia|]. apply bytes_app; [now apply plain_bytes|]. apply bytes_cons; [lia|constructor].
      + split; [cbn [means]; eauto|discriminate].
    - destruct HB as (HN & [->|(y & -> & HY)]).
      + exists JNull. eexists. split; [reflexivity|]. split; [|split; [left; auto|reflexivity]]. split; [constructor|]. split; [repeat (apply bytes_cons; [lia|]); constructor|reflexivity].
      + destruct (IH t lvl y HY) as (v & out & E & G & M & N). exists v, out. split; [exact E|]. split; [exact G|]. split; [|reflexivity].
        cbn [means]. right. split; [intros ->; rewrite (N eq_refl) in HN; discriminate|eauto].
    - destruct HB as (xs & -> & HF).
      assert (X : exists es, Forall2 (fun x e => (exists t0, to_json_string_x db cd0 fmt o t (S lvl) x = Ok t0 /\ good o e t0)) xs es /\ Forall2 (means true (usable g) t) es xs).
      { induction HF as [|y xs HY HF (es & F1 & F2)]; [exists []; split; constructor|]. destruct (IH t (S lvl) y HY) as (v & out & E & G & M & _).
        exists (v :: es). split; constructor; eauto. }
      destruct X as (es & F1 & F2). destruct (array_out o HT HLay lvl _ xs es F1) as (out & E & G). exists (JArr es), out. split; [exact E|]. split; [exact G|].
      split; [cbn [means]; eauto 10|discriminate].
    - destruct HB as (kxs & -> & HF).
      assert (X : exists es, Forall2 (fun kx e => exists kt t0, copy_escaped (o_errutf8 o) (o_7bit o) (fst kx) = Ok kt /\ fst e = kt /\ rfc_body kt /\ is_bytes kt /\
          to_json_string_x db cd0 fmt o t (S lvl) (snd kx) = Ok t0 /\ good o (snd e) t0) kxs es /\
        Forall2 (fun m kx => SpecUnicode.denotes (fst m) (fst kx) /\ means true (usable g) t (snd m) (snd kx)) es kxs).
      { induction HF as [|[k y] kxs [HK HY] HF (es & F1 & F2)]; [exists []; split; constructor|]. cbn [fst snd] in *.
        destruct (IH t (S lvl) y HY) as (v & out & E & G & M & _). destruct (unicode_out (o_errutf8 o) (o_7bit o) k HK) as (tx & EK & R & D & B).
        exists ((tx, v) :: es). split; constructor; auto. exists tx, out. auto 10. }
      destruct X as (es & F1 & F2). destruct (map_out o HT HLay lvl _ kxs es F1) as (out & E & G). exists (JObj es), out. split; [exact E|]. split; [exact G|].
      split; [cbn [means]; eauto 10|discriminate].
    - cbn [x_belongs] in HB. destruct HB as (ND & HP & xs & -> & HM). apply x_class_out; [|exact ND|exact HP|exact HM].
      clear HM ND HP. induction mm as [|m mm IHm]; intros m0 H0; [contradiction|]. cbn [In] in H0. destruct H0 as [<-|H0].
      + intros x Hx. apply IH. exact Hx.
      + apply IHm. exact H0.
    - cbn [x_belongs] in HB. destruct HB as (xs & -> & HM). apply x_tuple_out; [|exact HM].
      clear HM. induction ts as [|t ts IHt]; intros t0 H0; [contradiction|]. cbn [In] in H0. destruct H0 as [<-|H0].
      + intros x Hx. apply IH. exact Hx.
      + apply IHt. exact H0.
  Qed.
End Out.
