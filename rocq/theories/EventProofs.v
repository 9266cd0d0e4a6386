(** The event parser on well-formed text. *)
From Coq Require Import List NArith ZArith Bool Lia Arith ZifyBool ZifyNat ZifyN.
From Verif Require Import Base Mem Loop PolicyModel IntModel StrScanModel SkipModel SpecNum SpecText SpecJson
  SkipProofs SkipSafe ValueModel NameProofs ClassProofs ClassProofs2 ArrayProofs JValueModel SpecValue JValueProofs PropertiesTyped PropertiesValue
  EventModel SpecEvent.
Import ListNotations.
Local Open Scope N_scope.

Lemma first_stop_app : forall h a past b, first_stop h past (a ++ b) =
  match first_stop h past a with None => first_stop h (rev a ++ past) b | Some x => Some x end.
Proof.
  intros h a. induction a as [|e a IH]; intros past b; [reflexivity|]. cbn [app first_stop]. destruct (goes_on _ _); [|reflexivity].
  rewrite IH. destruct (first_stop _ _ a); [reflexivity|]. cbn [rev]. now rewrite <- app_assoc.
Qed.

Lemma open_now_app : forall a b, open_now (a ++ b) = (open_now a + open_now b)%Z.
Proof. induction a as [|e a IH]; intros b; cbn [app open_now]; [lia|]. rewrite IH. lia. Qed.

Section Cfg.
  Context (g : cfg).
  Hypothesis HX : c_ex g = ExConstexpr.
  Hypothesis HE : c_excl g = false.
  Context (buf : list N).
  Hypothesis H32 : N.of_nat (length buf) < 2^32.

  (** Depths, stack and calls agree. *)
  Definition level (s : est) : Prop :=
    (0 <= class_depth s)%Z /\ (0 <= array_depth s)%Z /\ (class_depth s + array_depth s = open_now (calls s))%Z /\
    Z.of_nat (length (stack s)) = open_now (calls s).

  Definition resume (fuel : nat) (h : handler) (x : est * res unit) : est * res unit :=
    let '(s, o) := x in lift s o (fun _ => events_loop fuel g h buf s).

  Definition kbyte (k : skind) : N := match k with KArray => 91 | KClass => 123 end.
  Definition end_of (k : skind) : event := match k with KArray => EArrayEnd | KClass => EClassEnd end.
  Definition dclass (k : skind) : Z := match k with KArray => 0 | KClass => 1 end.
  Definition darray (k : skind) : Z := match k with KArray => 1 | KClass => 0 end.

  Definition walks (all : list event) (xs : list happening) (bal : Z) : Prop :=
    Forall2 (reports buf) all xs /\ open_now (rev all) = bal.

  (** What a run over [all] does, [t] turns long, when it starts from the calls
      of [s] with the given depths and leaves [r]. *)
  Definition run_as (h : handler) (all : list event) (s : est) (t : nat) (run : nat -> est * res unit) (r : est) : Prop :=
    forall fuel,
    match first_stop h (calls s) all with
    | None => run (t + fuel)%nat = events_loop fuel g h buf r
    | Some (past, d) => exists s', run (t + S fuel)%nat = (s', stop_outcome past d) /\ calls s' = past
    end.

  (** The value of the call, if it has one, ends at [hi] or before. *)
  Definition text_ends (hi : nat) (v : ps) : Prop := wf buf v /\
    exists x t j, jtext str_body x t /\ sub_at buf (first v) t /\ followed true buf (first v + length t) j (last v) /\
      (x = JNull -> (first v + 4 < last v)%nat) /\ (first v + length t <= hi)%nat.
  Definition ends_by (hi : nat) (e : event) : Prop :=
    match e with
    | EValue _ v | EArrayStart v | EClassStart v | ENumber v | EBool v | EString v | ENull v | EError v => text_ends hi v
    | EArrayEnd | EClassEnd => True
    end.
  Lemma ends_by_le : forall lo hi e, (lo <= hi)%nat -> ends_by lo e -> ends_by hi e.
  Proof. clear HX HE H32. intros lo hi e L. destruct e; cbn [ends_by]; auto; intros (W & x & t & j & A & B & C & D & E); (split; [exact W|]); exists x, t, j; (split; [exact A|]); (split; [exact B|]); (split; [exact C|]); (split; [exact D|lia]). Qed.

  Definition value_runs (v : jv) : Prop := forall p n t j, wf buf p -> jtext str_body v t -> sub_at buf (first p) t ->
    followed true buf (first p + length t) j (last p) -> (v = JNull -> (first p + 4 < last p)%nat) ->
    (forall w, inside w v -> names_ok g w) ->
    exists all, walks all (walk n v) 0 /\ Forall (ends_by (first p + length t)) all /\
      forall h s, level s ->
        run_as h all s (turns v) (fun fuel => resume fuel h (process_value h buf s n p))
          (mkest (rev all ++ calls s) (stack s) (class_depth s) (array_depth s)).

  (** ** Where the iterator stands *)

  (** [it_at] with the position of the closing bracket *)
  Inductive it_in (p : ps) (e : nat) : list (option (list N) * jv) -> Prop :=
  | ii_class : forall c rest, wf buf p -> (e < last p)%nat -> cfirst p = Some c -> nth_error buf c = Some 123 ->
      at_member buf (first p) e rest -> Forall (fun m => name_ok g (fst m)) rest -> it_in p e (map named rest)
  | ii_array : forall c rest, wf buf p -> (e < last p)%nat -> cfirst p = Some c -> nth_error buf c = Some 91 ->
      at_elem buf (first p) e rest -> it_in p e (map unnamed rest).

  Lemma in_at : forall p e rest, it_in p e rest -> it_at g buf p rest.
  Proof. intros p e rest [c ms HW L CF CB HA FN|c es HW L CF CB HA]; [eapply it_class|eapply it_array]; eauto. Qed.

  Lemma in_deref : forall p e n v rest, it_in p e ((n, v) :: rest) ->
    exists r t j, it_deref g buf p = Ok (n, r) /\ wf buf r /\ jtext str_body v t /\ sub_at buf (first r) t /\
      followed true buf (first r + length t) j (last r) /\ (v = JNull -> (first r + 4 < last r)%nat) /\
      (first p <= first r)%nat /\ (first r + length t <= e)%nat.
  Proof.
    intros p e n v rest H. remember ((n, v) :: rest) as all eqn:EA.
    destruct H as [c ms HW L CF CB HA FN|c es HW L CF CB HA].
    - destruct ms as [|[k v'] ms]; [discriminate|]. cbn in EA. injection EA as <- <- <-. inversion FN; subst. cbn [fst] in *.
      destruct (member_here g HX HE buf H32 p e k v' ms) as (i & t & j & EN & Ht & HS & FJ & LI & LJ & HR); auto.
      unfold it_deref, class_is. rewrite CF, (rd_some _ _ _ CB). cbn [bind]. change (123 =? c_lbrack) with false. cbn iota.
      rewrite EN. cbn [bind]. pose proof (followed_le _ _ _ _ _ FJ) as FL.
      assert (NV : v' = JNull -> (i + 4 < last p)%nat) by (intros ->; inversion Ht; subst; cbn [length] in *; lia).
      assert (W1 : wf buf (set_first p i)) by (apply (moved_wf buf p); auto; [apply moved_first|cbn [first last set_first]; lia]).
      apply wf_restate in W1. destruct (jtext_head _ _ _ Ht) as (c0 & r & ET & ST).
      unfold jvalue. rewrite restate_ok by apply HW. rewrite (trim_here buf _ c0); [|apply HW|cbn [first restated set_first]; subst t; apply HS|apply ST].
      cbn [bind]. eexists _, t, j. split; [reflexivity|]. cbn [first last restated set_first]. repeat split; auto; try lia. all: apply W1.
    - destruct es as [|v' es]; [discriminate|]. cbn in EA. injection EA as <- <- <-.
      destruct (at_elem_cons _ _ _ _ _ HA) as (t & Ht & HS & HR).
      destruct (rem_e_followed _ _ _ _ (last p) HR L) as (j & FJ & JE & _). pose proof (followed_le _ _ _ _ _ FJ) as FL.
      unfold it_deref, class_is. rewrite CF, (rd_some _ _ _ CB). cbn [bind]. change (91 =? c_lbrack) with true. cbn iota.
      assert (NV : v' = JNull -> (first p + 4 < last p)%nat) by (intros ->; inversion Ht; subst; cbn [length] in *; lia).
      pose proof (wf_restate _ _ HW) as W1. destruct (jtext_head _ _ _ Ht) as (c0 & r & ET & ST).
      unfold jvalue. rewrite restate_ok by apply HW. rewrite (trim_here buf _ c0); [|apply HW|cbn [first restated]; subst t; apply HS|apply ST].
      cbn [bind]. eexists _, t, j. split; [reflexivity|]. cbn [first last restated]. repeat split; auto; try lia. all: apply W1.
  Qed.

  Lemma in_next : forall p e m rest, it_in p e (m :: rest) ->
    exists q, it_next g buf p = Ok q /\ it_in q e rest /\ (first p < first q)%nat /\ last q = last p /\ cfirst q = cfirst p.
  Proof.
    intros p e m rest H. pose proof (it_good g buf H32 _ _ (in_at _ _ _ H)) as GD. cbn iota in GD. remember (m :: rest) as all eqn:EA.
    unfold it_next. rewrite GD. cbn [bind].
    destruct H as [c ms HW L CF CB HA FN|c es HW L CF CB HA].
    - destruct ms as [|[k v] ms]; [discriminate|]. cbn [map named] in EA. injection EA as _ <-. inversion FN; subst. cbn [fst] in *.
      destruct (member_here g HX HE buf H32 p e k v ms) as (i & t & j & EN & Ht & HS & FJ & LI & LJ & HR); auto.
      unfold class_is. rewrite CF, (rd_some _ _ _ CB). cbn [bind]. change (123 =? c_lbrace) with true. cbn iota.
      rewrite EN. cbn [bind]. pose proof (followed_le _ _ _ _ _ FJ) as FL.
      assert (M1 : moved p (set_first p i)) by (repeat split).
      assert (W1 : wf buf (set_first p i)) by (apply (moved_wf buf p); auto; cbn [first last set_first]; lia).
      destruct (skip_here g HX HE buf (set_first p i) v t j) as (r & q & ES & MQ & LQ & _ & _); auto.
      { cbn [first last set_first]. intros ->. inversion Ht; subst. cbn [length] in *. lia. }
      rewrite ES. cbn [bind]. cbn [first set_first] in LQ. assert (LQl : last q = last p) by apply MQ.
      destruct (move_next_rem buf q e ms) as (i' & EM & LI' & AI); [apply HW|apply HR; lia|lia|].
      exists (set_first q i'). split; [exact EM|]. split; [|cbn [first last set_first cfirst]; split; [lia|]; split; [auto|transitivity (cfirst p); [apply MQ|congruence]]].
      pose proof (at_member_end _ _ _ _ AI) as [LE' _].
      apply ii_class with (c := c); auto.
      + apply (moved_wf buf q); [repeat split| |cbn [first last set_first]; lia].
        apply (moved_wf buf (set_first p i)); auto. lia.
      + cbn [last set_first]. lia.
      + cbn [cfirst set_first]. rewrite <- CF. apply MQ.
    - destruct es as [|v es]; [discriminate|]. cbn [map] in EA. injection EA as _ <-.
      destruct (at_elem_cons _ _ _ _ _ HA) as (t & Ht & HS & HR).
      destruct (rem_e_followed _ _ _ _ (last p) HR L) as (j & FJ & JE & _ & RJ).
      unfold class_is. rewrite CF, (rd_some _ _ _ CB). cbn [bind]. change (91 =? c_lbrace) with false. cbn [bind].
      pose proof (followed_le _ _ _ _ _ FJ) as FL.
      destruct (skip_here g HX HE buf p v t j) as (r & q & ES & MQ & LQ & _ & _); auto.
      { intros ->. inversion Ht; subst. cbn [length] in *. lia. }
      rewrite ES. cbn [bind]. assert (LQl : last q = last p) by apply MQ.
      assert (LT : (0 < length t)%nat) by (destruct (jtext_head _ _ _ Ht) as (x & r' & -> & _); cbn [length]; lia).
      destruct (move_next_rem_e buf q e es) as (i' & EM & LI' & AI); [apply HW|apply RJ; lia|lia|].
      exists (set_first q i'). split; [exact EM|]. split; [|cbn [first last set_first cfirst]; split; [lia|]; split; [auto|transitivity (cfirst p); [apply MQ|congruence]]].
      pose proof (at_elem_end _ _ _ _ AI) as [LE' _].
      apply ii_array with (c := c); auto.
      + apply (moved_wf buf q); [repeat split| |cbn [first last set_first]; lia].
        apply (moved_wf buf p); auto. lia.
      + cbn [last set_first]. lia.
      + cbn [cfirst set_first]. rewrite <- CF. apply MQ.
  Qed.

  Lemma in_begin : forall v p t j, wf buf p -> jtext str_body v t -> sub_at buf (first p) t ->
    followed true buf (first p + length t) j (last p) -> container v -> names_ok g v ->
    exists q, it_begin buf p = Ok q /\ it_in q (first p + length t - 1) (members v) /\ last q = last p /\ cfirst q = Some (first p) /\
      forall w c, ws w -> sub_at buf (S (first p)) (w ++ [c]) -> 32 < c -> first q = (S (first p) + length w)%nat.
  Proof.
    intros v p t j HW Ht HS FJ CV NV. pose proof (followed_le _ _ _ _ _ FJ) as FL. unfold it_begin.
    rewrite restate_ok by apply HW.
    set (p1 := remove_prefix (restated p) 1).
    assert (F1 : first p1 = S (first p)) by (unfold p1, remove_prefix; cbn [first restated set_first]; lia).
    assert (SAME : forall w c w' c', ws w -> sub_at buf (S (first p)) (w ++ [c]) -> 32 < c -> ws w' -> sub_at buf (S (first p)) (w' ++ [c']) -> 32 < c' -> length w = length w').
    { clear. generalize (S (first p)) as i. intros i w. revert i. induction w as [|x w IH]; intros i c [|y w'] c' W A C W' A' C'; cbn [app sub_at length] in *; [reflexivity| | |].
      - destruct A as [A _], A' as [A' _]. apply Forall_inv in W'. unfold json_ws in W'. assert (c = y) by congruence. lia.
      - destruct A as [A _], A' as [A' _]. apply Forall_inv in W. unfold json_ws in W. assert (x = c') by congruence. lia.
      - f_equal. apply (IH (S i) c w' c'); auto; try (now apply Forall_inv_tail in W); try (now apply Forall_inv_tail in W'); try apply A; try apply A'. }
    destruct v as [| | | | |es|js]; try contradiction; cbn [members].
    - destruct (array_start buf (first p) es t Ht HS) as (w & c & S0 & W & S1 & C1 & C2 & LW & HA).
      pose proof (at_elem_end _ _ _ _ HA) as [LE BE].
      rewrite (trim_to buf p1 w c); [|apply HW|exact W|rewrite F1; exact S1|exact C1|rewrite F1; cbn [p1 last restated remove_prefix set_first]; lia].
      rewrite F1. eexists. split; [reflexivity|]. split; [|split; [reflexivity|split; [reflexivity|]]].
      2:{ intros w' c' W' S' C'. cbn [first set_first p1 restated remove_prefix]. f_equal. eapply SAME; eauto. }
      apply ii_array with (c := first p); auto.
      + apply (moved_wf buf (restated p)); [repeat split|now apply wf_restate|]. cbn [first last p1 restated remove_prefix set_first]. lia.
      + cbn [last p1 restated remove_prefix set_first]. lia.
    - destruct (object_start g buf (first p) js t Ht HS) as (w & c & S0 & W & S1 & C1 & LW & HA).
      pose proof (at_member_end _ _ _ _ HA) as [LE BE].
      rewrite (trim_to buf p1 w c); [|apply HW|exact W|rewrite F1; exact S1|exact C1|rewrite F1; cbn [p1 last restated remove_prefix set_first]; lia].
      rewrite F1. eexists. split; [reflexivity|]. split; [|split; [reflexivity|split; [reflexivity|]]].
      2:{ intros w' c' W' S' C'. cbn [first set_first p1 restated remove_prefix]. f_equal. eapply SAME; eauto. }
      apply ii_class with (c := first p); auto.
      + apply (moved_wf buf (restated p)); [repeat split|now apply wf_restate|]. cbn [first last p1 restated remove_prefix set_first]. lia.
      + cbn [last p1 restated remove_prefix set_first]. lia.
  Qed.

  (** ** Stopping *)

  Lemma completed : forall fuel h s, level s ->
    events_loop (S fuel) g h buf (set_stack s []) = (set_stack s [], stop_outcome (calls s) Complete).
  Proof.
    intros fuel h s (A & B & C & D). cbn [events_loop stack set_stack class_depth array_depth stop_outcome]. f_equal.
    destruct (Z.eqb_spec (open_now (calls s)) 0).
    - rewrite (proj2 (Z.eqb_eq _ _)) by lia. rewrite (proj2 (Z.eqb_eq _ _)) by lia. reflexivity.
    - destruct (Z.eqb_spec (class_depth s) 0); [|reflexivity]. rewrite (proj2 (Z.eqb_neq _ _)) by lia. reflexivity.
  Qed.

  (** A call inside of a container, or of the outermost value *)
  Lemma skipped : forall fuel h e s, Z.of_nat (length (stack s)) = open_now (tl (calls s)) ->
    calls s = e :: tl (calls s) ->
    exists s', resume (S fuel) h (move_to_last s) = (s', stop_outcome (calls s) SkipClassArray) /\ calls s' = calls s.
  Proof.
    intros fuel h e s L EC. unfold move_to_last. cbn [stop_outcome]. rewrite <- L. destruct (stack s) as [|[k p] r] eqn:ES.
    - cbn [resume lift length]. eexists. split; reflexivity.
    - cbn [resume lift events_loop stack set_stack length]. rewrite (proj2 (Z.eqb_neq _ _)) by lia.
      destruct k; cbn [process_range it_eq]; unfold process_range, it_eq; rewrite good_null; cbn [bind lift negb];
        unfold ends_with; cbn [has_more null_state first last Nat.ltb Nat.leb lift andb ensure];
        rewrite andb_false_r; cbn [ensure lift]; eexists; split; reflexivity.
  Qed.

  (** One call and then [k] *)
  Lemma tell_as : forall h e s t r xs k, is_end e = false -> (0 <= class_depth s)%Z -> (0 <= array_depth s)%Z ->
    (class_depth s + array_depth s = open_now (e :: calls s))%Z -> Z.of_nat (length (stack s)) = open_now (calls s) ->
    run_as h xs (mkest (e :: calls s) (stack s) (class_depth s) (array_depth s)) t
      (fun fuel => resume fuel h (k (mkest (e :: calls s) (stack s) (class_depth s) (array_depth s)))) r ->
    run_as h (e :: xs) s t (fun fuel => resume fuel h (tell h s e k)) r.
  Proof.
    intros h e s t r xs k NE A B C D HK fuel. specialize (HK fuel). cbn [first_stop calls] in *. unfold tell. cbn [calls].
    set (s1 := mkest (e :: calls s) (stack s) (class_depth s) (array_depth s)) in *.
    destruct (h (e :: calls s)) eqn:EH; cbn [goes_on]; [exact HK| |].
    - rewrite NE. rewrite <- plus_n_Sm. destruct (skipped (t + fuel) h e s1) as (s' & E & EC); [exact D|reflexivity|].
      exists s'. split; [exact E|exact EC].
    - rewrite <- plus_n_Sm. cbn [resume lift]. assert (C2 : calls s1 = e :: calls s) by reflexivity.
      destruct (Z.eqb_spec (open_now (calls s1)) 0) as [Z0|Z0].
      + cbn [events_loop stack set_stack class_depth array_depth s1]. exists (set_stack s1 []). split; [|reflexivity].
        cbn [stop_outcome]. rewrite <- C2, Z0. cbn [Z.eqb]. rewrite C2 in Z0.
        rewrite (proj2 (Z.eqb_eq _ _)) by lia. rewrite (proj2 (Z.eqb_eq _ _)) by lia. reflexivity.
      + cbn [events_loop stack set_stack class_depth array_depth s1]. exists (set_stack s1 []). split; [|reflexivity].
        cbn [stop_outcome]. rewrite <- C2, (proj2 (Z.eqb_neq _ _) Z0). rewrite C2 in Z0. f_equal.
        destruct (Z.eqb_spec (class_depth s) 0); [|reflexivity]. rewrite (proj2 (Z.eqb_neq _ _)) by lia. reflexivity.
  Qed.

  (** ** Walking a container *)

  Definition cturns (rest : list (option (list N) * jv)) : nat := S (list_sum (map (fun m => S (turns (snd m))) rest)).

  Lemma at_close : forall k p c, it_at g buf p [] -> cfirst p = Some c -> nth_error buf c = Some (kbyte k) ->
    ends_with buf p (match k with KArray => c_rbrack | KClass => c_rbrace end) = Ok true.
  Proof.
    intros k p c H CF CB. remember [] as rest eqn:ER.
    destruct H as [e c' ms (HB & HN & HL & _) L CF' CB' HA FN|e c' es (HB & HN & HL & _) L CF' CB' HA];
      (assert (EC : c' = c) by congruence); subst c'; rewrite CB' in CB; injection CB as EK.
    - destruct ms; [|discriminate]. destruct k; [|discriminate]. destruct (at_member_byte _ _ _ _ HA) as (b & Hb & EB). subst b.
      pose proof (at_member_end _ _ _ _ HA) as [LE _]. unfold ends_with, has_more, front. rewrite (proj2 (Nat.ltb_lt _ _)) by lia.
      rewrite (rd_some _ _ _ Hb). reflexivity.
    - destruct es; [|discriminate]. destruct k; [discriminate|]. pose proof (at_elem_end _ _ _ _ HA) as [LE _]. destruct HA as [_ HA].
      unfold ends_with, has_more, front. rewrite (proj2 (Nat.ltb_lt _ _)) by lia. rewrite (rd_some _ _ _ HA). reflexivity.
  Qed.

  Lemma container_runs : forall k c v, nth_error buf c = Some (kbyte k) -> match k, v with KArray, JArr _ => True | KClass, JObj _ => True | _, _ => False end ->
    forall hi rest p, it_in p hi rest -> cfirst p = Some c ->
    (forall m, In m rest -> value_runs (snd m) /\ forall w, inside w (snd m) -> names_ok g w) ->
    exists all, walks all (flat_map (fun m => walk (fst m) (snd m)) rest ++ [HEnd v]) (-1) /\ Forall (ends_by hi) all /\
      forall h s r, level s -> stack s = (k, p) :: r -> (0 < match k with KArray => array_depth s | KClass => class_depth s end)%Z ->
        run_as h all s (cturns rest) (fun fuel => events_loop fuel g h buf s)
          (mkest (rev all ++ calls s) r (class_depth s - dclass k) (array_depth s - darray k)).
  Proof.
    intros k c v CB CV hi. induction rest as [|[n w] rest IH]; intros p HII CF HR; pose proof (in_at _ _ _ HII) as HI.
    - exists [end_of k]. split.
      { split; [|destruct k; reflexivity]. cbn [flat_map app]. constructor; [|constructor]. now destruct k, v. }
      split; [constructor; [now destruct k|constructor]|].
      intros h s r LV ES DK fuel. pose proof (it_stop g buf H32 _ _ HI) as ST. cbn iota in ST. pose proof (at_close _ _ _ HI CF CB) as AC.
      pose proof LV as (A & B & C & D). rewrite ES in D. cbn [length] in D.
      cbn [first_stop]. set (cs := end_of k :: calls s) in *.
      assert (GO : goes_on (h cs) (end_of k) = match h cs with Complete => false | _ => true end) by (destruct (h cs), k; reflexivity).
      rewrite GO.
      assert (PR : process_range g h buf (set_stack s r) k p =
         tell_end h (match k with KArray => add_array (set_stack s r) (-1) | KClass => add_class (set_stack s r) (-1) end) (end_of k)).
      { unfold process_range. rewrite ST. cbn [lift negb]. destruct k; rewrite AC; cbn [lift add_class add_array class_depth array_depth set_stack];
          rewrite (proj2 (Z.ltb_lt _ _) DK); cbn [andb ensure lift]; reflexivity. }
      unfold cturns. cbn [map list_sum fold_right].
      destruct (h cs) eqn:EH.
      1,2: cbn [Nat.add events_loop]; rewrite ES, PR; unfold tell_end;
        destruct k; cbn [end_of calls add_array add_class set_stack class_depth array_depth stack] in *; unfold cs in EH; rewrite EH;
        cbn [lift]; f_equal; unfold cs; cbn [rev app end_of dclass darray]; f_equal; lia.
      cbn [Nat.add events_loop]. rewrite ES, PR. unfold tell_end.
      destruct k; cbn [end_of calls add_array add_class set_stack class_depth array_depth stack] in *;
        unfold cs in EH; rewrite EH; cbn [lift set_stack stack class_depth array_depth stop_outcome];
        match goal with |- exists s', (?x, _) = _ /\ _ => exists x end; (split; [|reflexivity]); f_equal; unfold cs; cbn [open_now is_start is_end calls];
        rewrite <- C;
        match goal with |- ensure ((?a =? 0)%Z && (?b =? 0)%Z) _ = _ => destruct (Z.eqb_spec a 0), (Z.eqb_spec b 0) end; cbn [andb ensure];
        match goal with |- _ = (if (?a =? 0)%Z then _ else _) => destruct (Z.eqb_spec a 0) end; try lia; reflexivity.
    - destruct (in_deref _ _ _ _ _ HII) as (q & tw & jw & ED & QW & QT & QS & QF & QN & _ & QE).
      destruct (in_next _ _ _ _ HII) as (p' & EN & HI' & _ & _ & CF').
      destruct (IH p' HI' ltac:(congruence) ltac:(intros m HM; apply HR; now right)) as (all2 & [W2 O2] & F2' & R2).
      destruct (HR (n, w) ltac:(now left)) as [VR NM]. cbn [snd] in VR, NM.
      destruct (VR q n tw jw QW QT QS QF QN NM) as (all1 & [W1 O1] & F1' & R1).
      exists (all1 ++ all2). split.
      { split; [|rewrite rev_app_distr, open_now_app; lia]. cbn [flat_map fst snd]. rewrite <- app_assoc. now apply Forall2_app. }
      split; [apply Forall_app; split; [|exact F2']; eapply Forall_impl; [|exact F1']; intros x; now apply ends_by_le|].
      intros h s r LV ES DK fuel. pose proof (it_stop g buf H32 _ _ HI) as ST. cbn iota in ST.
      pose proof LV as (A & B & C & D).
      set (s1 := set_stack s ((k, p') :: r)).
      assert (LV1 : level s1). { unfold s1. repeat split; auto. cbn [stack calls set_stack]. rewrite ES in D. exact D. }
      assert (STEP : forall fu, events_loop (S fu) g h buf s = resume fu h (process_value h buf s1 n q)).
      { intros fu. cbn [events_loop]. rewrite ES. unfold process_range. rewrite ST. cbn [lift negb]. rewrite ED. cbn [lift]. rewrite EN. cbn [lift fst snd].
        reflexivity. }
      set (s2 := mkest (rev all1 ++ calls s1) (stack s1) (class_depth s1) (array_depth s1)).
      assert (LV2 : level s2).
      { unfold s2. destruct LV1 as (A1 & B1 & C1 & D1). repeat split; auto; cbn [class_depth array_depth calls stack] in *; rewrite ?open_now_app, ?O1; lia. }
      specialize (R1 h s1 LV1). specialize (R2 h s2 r LV2 eq_refl DK fuel).
      rewrite first_stop_app. change (calls s) with (calls s1).
      replace (cturns ((n, w) :: rest)) with (S (turns w + cturns rest)) by (unfold cturns, list_sum; cbn [map fold_right snd]; lia).
      destruct (first_stop h (calls s1) all1) as [[past d]|] eqn:F1.
      + specialize (R1 (cturns rest + fuel)%nat). rewrite F1 in R1. destruct R1 as (s' & E & EC). exists s'. split; [|exact EC].
        cbn [Nat.add]. rewrite STEP, <- E. f_equal. lia.
      + change (rev all1 ++ calls s1) with (calls s2). destruct (first_stop h (calls s2) all2) as [[past d]|] eqn:F2.
        * specialize (R1 (cturns rest + S fuel)%nat). rewrite F1 in R1. destruct R2 as (s' & E & EC). exists s'. split; [|exact EC].
          cbn [Nat.add]. rewrite STEP. rewrite <- E. fold s2 in R1. rewrite <- R1. f_equal. lia.
        * specialize (R1 (cturns rest + fuel)%nat). rewrite F1 in R1. cbn [Nat.add]. rewrite STEP.
          replace (turns w + cturns rest + fuel)%nat with (turns w + (cturns rest + fuel))%nat by lia. rewrite R1. fold s2. rewrite R2.
          rewrite rev_app_distr, <- app_assoc. reflexivity.
  Qed.

  (** ** A value *)

  Lemma scalar_as : forall h e s n p, is_end e = false -> is_start e = false -> level s ->
    process_value h buf s n p = tell h s (EValue n p) (fun s => tell h s e (fun s => (s, Ok tt))) ->
    run_as h [EValue n p; e] s 0 (fun fuel => resume fuel h (process_value h buf s n p))
      (mkest (e :: EValue n p :: calls s) (stack s) (class_depth s) (array_depth s)).
  Proof.
    intros h e s n p NE NS LV ->. pose proof LV as (A & B & C & D).
    apply tell_as; auto; [cbn [open_now is_start is_end]; lia|].
    apply tell_as; auto; cbn [open_now is_start is_end calls class_depth array_depth stack]; [rewrite NE, NS; lia|lia|].
    intros fuel. reflexivity.
  Qed.

  Lemma turns_members : forall v, container v -> turns v = cturns (members v).
  Proof.
    intros [| | | | |es|js] H; try contradiction; unfold cturns; cbn [turns members]; f_equal; rewrite map_map; f_equal.
    apply map_ext. intros [k w]. reflexivity.
  Qed.

  Lemma list_sum_in : forall l x, In x l -> (x <= list_sum l)%nat.
  Proof. induction l as [|y l IH]; intros x H; [contradiction|]. cbn [list_sum fold_right]. destruct H as [->|H]; [lia|apply IH in H; unfold list_sum in H; lia]. Qed.

  Lemma member_smaller : forall v m, container v -> In m (members v) -> (turns (snd m) < turns v)%nat.
  Proof.
    intros v m HC HM. rewrite (turns_members v HC). unfold cturns. apply (in_map (fun m => S (turns (snd m)))) in HM.
    apply list_sum_in in HM. lia.
  Qed.

  Lemma member_inside : forall v m w, In m (members v) -> inside w (snd m) -> inside w v.
  Proof.
    intros [| | | | |es|js] m w HM HI; try contradiction; cbn [members] in HM; apply in_map_iff in HM as (x & <- & HX').
    - econstructor; eauto.
    - destruct x as [k e]. eapply in_object; eauto.
  Qed.

  Lemma walk_container : forall n v, container v -> walk n v = HValue n v :: HStart v :: flat_map (fun m => walk (fst m) (snd m)) (members v) ++ [HEnd v].
  Proof.
    intros n [| | | | |es|js] H; try contradiction; cbn [walk members]; do 3 f_equal; rewrite !flat_map_concat_map, map_map; f_equal.
    apply map_ext. intros [k w]. reflexivity.
  Qed.

  Theorem every_value_runs : forall v, value_runs v.
  Proof.
    intros v. remember (turns v) as N0 eqn:EN. revert v EN. induction N0 as [N0 IHN] using lt_wf_ind. intros v -> p n t j HW HT HS FJ NV HN.
    assert (HV : value_at buf v p) by (split; [exact HW|]; exists t, j; auto).
    assert (TE : text_ends (first p + length t) p) by (split; [exact HW|]; exists v, t, j; auto).
    pose proof (C36_type_partial buf H32 _ _ HV) as JT.
    destruct v as [| | |x|b|es|js]; cbn [kind_of] in JT.
    1: exists [EValue n p; ENull p]. 2,3: exists [EValue n p; EBool p]. 4: exists [EValue n p; ENumber p]. 5: exists [EValue n p; EString p].
    1,2,3,4,5: split; [split; [cbn [walk]; constructor; [split; auto|]; constructor; [exact HV|]; constructor|reflexivity]|]; (split; [apply Forall_cons; [exact TE|]; apply Forall_cons; [exact TE|]; apply Forall_nil|]); intros h s LV; cbn [turns rev app];
      apply scalar_as; auto; unfold process_value; rewrite JT; reflexivity.
    all: match type of HV with value_at _ ?v _ => set (v0 := v) in * end; assert (TL : (first p + length t - 1 <= first p + length t)%nat) by lia; assert (HC : container v0) by exact I;
      destruct (in_begin v0 p t j HW HT HS FJ HC ltac:(apply HN; constructor)) as (q & EB & HI & _ & CF & _);
      assert (IHm : forall m, In m (members v0) -> value_runs (snd m) /\ forall w, inside w (snd m) -> names_ok g w)
        by (intros m HM; split; [apply (IHN (turns (snd m))); [now apply member_smaller|reflexivity]|];
            intros w Hw; apply HN; eapply member_inside; eauto).
    - assert (CB : nth_error buf (first p) = Some (kbyte KArray)).
      { clear - HT HS. inversion HT; subst; apply HS. }
      destruct (container_runs KArray (first p) v0 CB I _ (members v0) q HI CF IHm) as (all & [WA OA] & FA & RA).
      exists (EValue n p :: EArrayStart p :: all). split.
      { split; [|cbn [rev]; rewrite !open_now_app, OA; reflexivity]. rewrite walk_container by exact I.
        constructor; [split; auto|]. constructor; [exact HV|exact WA]. }
      split; [constructor; [exact TE|]; constructor; [exact TE|]; eapply Forall_impl; [|exact FA]; intros x; now apply ends_by_le|].
      intros h s LV. unfold process_value. pose proof LV as (A & B & C & D).
      apply tell_as; auto; [cbn [open_now is_start is_end]; lia|]. rewrite JT. cbn [lift].
      set (s1 := add_array _ 1).
      intros fuel. change (calls (mkest (EValue n p :: calls s) (stack s) (class_depth s) (array_depth s))) with (calls s1). revert fuel.
      apply (tell_as h (EArrayStart p) s1); auto; unfold s1; cbn [add_array calls stack class_depth array_depth open_now is_start is_end]; try lia.
      set (s2 := mkest _ _ _ _). rewrite EB. cbn [lift].
      assert (LV2 : level (set_stack s2 ((KArray, q) :: stack s2))).
      { unfold s2. repeat split; cbn [set_stack calls stack class_depth array_depth open_now is_start is_end length]; lia. }
      specialize (RA h _ (stack s2) LV2 eq_refl ltac:(unfold s2; cbn [set_stack array_depth]; lia)).
      rewrite (turns_members v0 HC). intros fuel. specialize (RA fuel). cbn [calls set_stack] in RA.
      destruct (first_stop h (calls s2) all) as [[past d]|]; cbn [resume lift]; [exact RA|]. etransitivity; [exact RA|].
      f_equal. unfold s2. cbn [rev app calls stack class_depth array_depth dclass darray set_stack]. rewrite <- !app_assoc. cbn [app]. f_equal; lia.
    - assert (CB : nth_error buf (first p) = Some (kbyte KClass)).
      { clear - HT HS. inversion HT; subst; apply HS. }
      destruct (container_runs KClass (first p) v0 CB I _ (members v0) q HI CF IHm) as (all & [WA OA] & FA & RA).
      exists (EValue n p :: EClassStart p :: all). split.
      { split; [|cbn [rev]; rewrite !open_now_app, OA; reflexivity]. rewrite walk_container by exact I.
        constructor; [split; auto|]. constructor; [exact HV|exact WA]. }
      split; [constructor; [exact TE|]; constructor; [exact TE|]; eapply Forall_impl; [|exact FA]; intros x; now apply ends_by_le|].
      intros h s LV. unfold process_value. pose proof LV as (A & B & C & D).
      apply tell_as; auto; [cbn [open_now is_start is_end]; lia|]. rewrite JT. cbn [lift].
      set (s1 := add_class _ 1).
      intros fuel. change (calls (mkest (EValue n p :: calls s) (stack s) (class_depth s) (array_depth s))) with (calls s1). revert fuel.
      apply (tell_as h (EClassStart p) s1); auto; unfold s1; cbn [add_class calls stack class_depth array_depth open_now is_start is_end]; try lia.
      set (s2 := mkest _ _ _ _). rewrite EB. cbn [lift].
      assert (LV2 : level (set_stack s2 ((KClass, q) :: stack s2))).
      { unfold s2. repeat split; cbn [set_stack calls stack class_depth array_depth open_now is_start is_end length]; lia. }
      specialize (RA h _ (stack s2) LV2 eq_refl ltac:(unfold s2; cbn [set_stack class_depth]; lia)).
      rewrite (turns_members v0 HC). intros fuel. specialize (RA fuel). cbn [calls set_stack] in RA.
      destruct (first_stop h (calls s2) all) as [[past d]|]; cbn [resume lift]; [exact RA|]. etransitivity; [exact RA|].
      f_equal. unfold s2. cbn [rev app calls stack class_depth array_depth dclass darray set_stack]. rewrite <- !app_assoc. cbn [app]. f_equal; lia.
  Qed.
End Cfg.
