(** C33, C34: packed option words. *)
From Coq Require Import List NArith Bool Lia Arith.
From Coq Require Import ZifyBool ZifyNat ZifyN.
From Verif Require Import Base Bits OptionsModel OptionsProofs.
Import ListNotations.
Local Open Scope N_scope.

(** ** Specification *)

(** The bits all options of a list need together. *)
Fixpoint total (ws : list N) : N :=
  match ws with [] => 0 | w :: r => w + total r end.

(** The last value that the sequence [es] of settings gives to option [j]. *)
Fixpoint last_set (es : list (nat * N)) (j : nat) : option N :=
  match es with
  | [] => None
  | (i, e) :: r =>
      match last_set r j with
      | Some x => Some x
      | None => if Nat.eqb i j then Some e else None
      end
  end.

(** The settings are options of the list, with values that fit. *)
Definition in_range (ws : list N) (es : list (nat * N)) : Prop :=
  forall i e, In (i, e) es ->
    (i < length ws)%nat /\ exists w, nth_error ws i = Some w /\ e < 2 ^ w.

Lemma total_sum : forall ws, total ws = sum ws.
Proof. induction ws; cbn; [reflexivity|]. now rewrite IHws. Qed.

Lemma in_range_width : forall ws es i e, in_range ws es -> In (i, e) es ->
  (i < length ws)%nat /\ e < 2 ^ width ws i.
Proof.
  intros ws es i e R I. destruct (R i e I) as [L [w [E B]]].
  split; [assumption|]. unfold width. now rewrite (nth_error_nth _ _ _ E).
Qed.

(** ** C33 *)

(** Every sequence of settings, on every word, for every option list of less
    than 32 bits (the library's longest has 14): reading gives the last value
    set, other options keep their value, and bits that belong to no option are
    untouched. *)
Theorem C33_set_bits : forall ws v es,
  total ws < 32 -> v < 2 ^ 32 -> in_range ws es ->
  exists v', set_bits ws v es = Ok v' /\ v' < 2 ^ 32 /\
    v' / 2 ^ total ws = v / 2 ^ total ws /\
    forall j, (j < length ws)%nat ->
      get_bits_for ws v' j =
      match last_set es j with
      | Some e => Ok e
      | None => get_bits_for ws v j
      end.
Proof.
  intros ws v es HS. rewrite total_sum in *. revert v.
  induction es as [|[i e] es IH]; intros v Hv R.
  - exists v. now repeat split.
  - destruct (in_range_width _ _ i e R (or_introl eq_refl)) as [Hi He].
    destruct (set1_get ws v i e HS Hv Hi) as [v1 [E1 [L1 [U1 [G1 O1]]]]].
    destruct (IH v1 L1) as [v' [E [L [U G]]]].
    { intros a b I. apply R. now right. }
    exists v'. cbn [set_bits]. rewrite E1. cbn [bind].
    split; [exact E|]. split; [exact L|]. split; [congruence|].
    intros j Hj. rewrite (G j Hj). cbn [last_set].
    destruct (last_set es j); [reflexivity|].
    destruct (Nat.eqb_spec i j) as [->|N].
    + rewrite G1. f_equal. now apply N.mod_small.
    + apply O1; [assumption|congruence].
Qed.
Print Assumptions C33_set_bits.

(** One option, any value: only its low bits are stored. *)
Theorem C33_set_one : forall ws v i e w, total ws < 32 -> v < 2 ^ 32 ->
  nth_error ws i = Some w ->
  exists v', set_bits1 ws v i e = Ok v' /\
    get_bits_for ws v' i = Ok (e mod 2 ^ w) /\
    forall j, (j < length ws)%nat -> j <> i ->
      get_bits_for ws v' j = get_bits_for ws v j.
Proof.
  intros ws v i e w HS Hv E. rewrite total_sum in HS.
  assert (Hi : (i < length ws)%nat) by (apply nth_error_Some; congruence).
  destruct (set1_get ws v i e HS Hv Hi) as [v1 [E1 [L1 [U1 [G1 O1]]]]].
  exists v1. split; [exact E1|]. split; [|exact O1].
  rewrite G1. unfold width. now rewrite (nth_error_nth _ _ _ E).
Qed.
Print Assumptions C33_set_one.

(** Reading is defined on every word and gives a value that fits. *)
Theorem C33_get_fits : forall ws v i w, total ws < 32 ->
  nth_error ws i = Some w ->
  exists r, get_bits_for ws v i = Ok r /\ r < 2 ^ w.
Proof.
  intros ws v i w HS E. rewrite total_sum in HS.
  assert (Hi : (i < length ws)%nat) by (apply nth_error_Some; congruence).
  destruct (get_ok ws v i HS Hi) as [r [Er B]]. exists r. split; [exact Er|].
  unfold width in B. rewrite (nth_error_nth _ _ _ E) in B.
  assert (Q : r = N.land r (N.ones w)).
  { apply N.bits_inj. intros n. rewrite bit_field, B.
    now destruct (n <? w). }
  rewrite Q. apply land_ones_lt.
Qed.
Print Assumptions C33_get_fits.

Example C33_witness :
  (set_bits ser_ws 18 [(0%nat, 1); (1%nat, 7); (1%nat, 0); (2%nat, 2)] = Ok 33) /\
  get_bits_for ser_ws 33 0 = Ok 1 /\ get_bits_for ser_ws 33 1 = Ok 0 /\
  get_bits_for ser_ws 33 2 = Ok 2 /\ get_bits_for ser_ws 33 4 = Ok 0.
Proof. vm_compute. repeat split. Qed.

(** [set_bits_in], the in-place version that the library ships but does not
    call, fails the same claim: it clears the lowest bits instead of the
    option's own.  Here setting RestrictedStringOutput to None leaves it at
    ErrorInvalidUTF8 and turns SerializationFormat::Pretty into Minified. *)
Theorem C33_set_bits_in_refuted :
  exists v v', get_bits_for ser_ws v 0 = Ok 1 /\ get_bits_for ser_ws v 2 = Ok 1 /\
    set_bits_in ser_ws v 2 0 = Ok v' /\
    get_bits_for ser_ws v' 0 = Ok 0 /\ get_bits_for ser_ws v' 2 = Ok 1.
Proof. exists 17, 16. vm_compute. repeat split. Qed.
Print Assumptions C33_set_bits_in_refuted.

(** ** C34 *)

Lemma default_flag_range : forall ws ds, length ds = length ws ->
  (forall i w d, nth_error ws i = Some w -> nth_error ds i = Some d -> d < 2 ^ w) ->
  in_range ws (combine (seq 0 (length ws)) ds) /\
  NoDup (map fst (combine (seq 0 (length ws)) ds)) /\
  forall j d, nth_error ds j = Some d ->
    In (j, d) (combine (seq 0 (length ws)) ds).
Proof.
  intros ws ds L F.
  assert (K : forall (ds : list N) k i e, In (i, e) (combine (seq k (length ds)) ds) <->
    (k <= i)%nat /\ nth_error ds (i - k) = Some e).
  { clear. induction ds as [|d ds IH]; intros k i e; cbn [length seq combine In].
    - split; [tauto|]. intros [_ H]. destruct (i - k)%nat; discriminate.
    - rewrite IH. split.
      + intros [H|[H1 H2]].
        * injection H as -> ->. rewrite Nat.sub_diag. split; [lia|reflexivity].
        * split; [lia|]. replace (i - k)%nat with (S (i - S k)) by lia. exact H2.
      + intros [H1 H2]. destruct (Nat.eq_dec i k) as [->|N].
        * rewrite Nat.sub_diag in H2. injection H2 as ->. now left.
        * right. split; [lia|]. replace (i - k)%nat with (S (i - S k)) in H2 by lia.
          exact H2. }
  rewrite <- L. split; [|split].
  - intros i e I. apply K in I. destruct I as [_ I]. rewrite Nat.sub_0_r in I.
    assert (Q : (i < length ws)%nat).
    { rewrite <- L. apply nth_error_Some. congruence. }
    split; [assumption|]. destruct (nth_error ws i) as [w|] eqn:E.
    + exists w. split; [reflexivity|]. eapply F; eassumption.
    + apply nth_error_None in E. lia.
  - assert (M : forall (ds : list N) k,
      map fst (combine (seq k (length ds)) ds) = seq k (length ds)).
    { clear. induction ds; intros k; cbn; [reflexivity|]. now rewrite IHds. }
    rewrite M. apply seq_NoDup.
  - intros j d E. apply K. split; [lia|]. now rewrite Nat.sub_0_r.
Qed.

(** General law: an option reads back as its default or-ed with what was
    requested for it. *)
Lemma make_options_reads : forall ws ds es, total ws < 32 ->
  length ds = length ws ->
  (forall i w d, nth_error ws i = Some w -> nth_error ds i = Some d -> d < 2 ^ w) ->
  in_range ws es -> NoDup (map fst es) ->
  exists v, make_options ws ds es = Ok v /\ v < 2 ^ 32 /\
    forall j d, nth_error ds j = Some d ->
      (forall e, In (j, e) es -> get_bits_for ws v j = Ok (N.lor d e)) /\
      (~ In j (map fst es) -> get_bits_for ws v j = Ok d).
Proof.
  intros ws ds es HS L F R ND. rewrite total_sum in HS.
  destruct (default_flag_range ws ds L F) as [RD [NDD ID]].
  destruct (or_bits_ok ws _ HS (fun i e => in_range_width ws _ i e RD))
    as [a [Ea [La Ba]]].
  destruct (or_bits_ok ws _ HS (fun i e => in_range_width ws _ i e R))
    as [b [Eb [Lb Bb]]].
  exists (N.lor a b). unfold make_options, default_flag. rewrite Ea, Eb. cbn [bind].
  split; [reflexivity|]. split; [now apply lor_lt|].
  intros j d Ed.
  assert (Hj : (j < length ws)%nat).
  { rewrite <- L. apply nth_error_Some. congruence. }
  pose proof (ID j d Ed) as Id.
  destruct (in_range_width ws _ j d RD Id) as [_ Hd].
  split.
  - intros e I. destruct (in_range_width ws _ j e R I) as [_ He].
    apply get_eq; [assumption|assumption|]. intros n. rewrite !N.lor_spec.
    destruct (N.ltb_spec n (width ws j)) as [Q|Q].
    + rewrite (Ba j n Hj Q), (Bb j n Hj Q).
      rewrite (existsb_one j d n _ NDD Id), (existsb_one j e n _ ND I). reflexivity.
    + rewrite (testbit_high _ d n Hd Q), (testbit_high _ e n He Q). reflexivity.
  - intros NI. apply get_eq; [assumption|assumption|]. intros n.
    destruct (N.ltb_spec n (width ws j)) as [Q|Q].
    + rewrite N.lor_spec, (Ba j n Hj Q), (Bb j n Hj Q).
      rewrite (existsb_one j d n _ NDD Id), (existsb_other j n _ NI).
      now rewrite orb_false_r.
    + apply (testbit_high _ d n Hd Q).
Qed.

(** What [*_opt(...)], [parse_options(...)] and [serialize_options(...)] build:
    right whenever each requested option has default 0 and is given once. *)
Theorem C34_zero_default_partial : forall ws ds es, total ws < 32 ->
  length ds = length ws ->
  (forall i w d, nth_error ws i = Some w -> nth_error ds i = Some d -> d < 2 ^ w) ->
  in_range ws es -> NoDup (map fst es) ->
  (forall i, In i (map fst es) -> nth_error ds i = Some 0) ->
  exists v, make_options ws ds es = Ok v /\
    forall j d, nth_error ds j = Some d ->
      get_bits_for ws v j =
      Ok (match last_set es j with Some e => e | None => d end).
Proof.
  intros ws ds es HS L F R ND Z.
  destruct (make_options_reads ws ds es HS L F R ND) as [v [E [_ G]]].
  exists v. split; [exact E|]. intros j d Ed. destruct (G j d Ed) as [G1 G2].
  assert (LS : match last_set es j with
               | Some e => In (j, e) es
               | None => ~ In j (map fst es) end).
  { clear. induction es as [|[i e] es IH]; cbn [last_set map fst In]; [tauto|].
    destruct (last_set es j); [now right|].
    destruct (Nat.eqb_spec i j) as [->|N]; [now left|]. tauto. }
  destruct (last_set es j) as [e|].
  - rewrite (G1 e LS). assert (Hin : In j (map fst es))
      by (change j with (fst (j, e)); now apply in_map).
    rewrite (Z j Hin) in Ed. injection Ed as <-. now rewrite N.lor_0_l.
  - now apply G2.
Qed.
Print Assumptions C34_zero_default_partial.

Ltac defaults_fit :=
  let i := fresh "i" in
  intros i;
  repeat (destruct i as [|i];
    [intros ? ? Hw Hd; cbn in Hw, Hd; injection Hw as <-; injection Hd as <-;
     reflexivity|]);
  intros ? ? Hw Hd; destruct i; discriminate.

(** The lists whose defaults are all 0 (parser options, number, bool and
    custom options): C34 without restriction, each option given once. *)
Theorem C34_parse_number_bool_custom_partial : forall ws ds es,
  In (ws, ds) [(parse_ws, parse_ds); (number_ws, number_ds);
               (bool_ws, bool_ds); (custom_ws, custom_ds)] ->
  in_range ws es -> NoDup (map fst es) ->
  exists v, make_options ws ds es = Ok v /\
    forall j d, nth_error ds j = Some d ->
      get_bits_for ws v j =
      Ok (match last_set es j with Some e => e | None => d end).
Proof.
  intros ws ds es I R ND.
  assert (Z : forall k n, (k < n)%nat -> nth_error (repeat 0 n) k = Some 0).
  { intros k n Hk. rewrite (nth_error_nth' _ 0) by now rewrite repeat_length.
    now rewrite nth_repeat. }
  cbn [In] in I.
  assert (A : total ws < 32 /\ ds = repeat 0 (length ws) /\
    forall i w d, nth_error ws i = Some w -> nth_error ds i = Some d -> d < 2 ^ w).
  { destruct I as [I|[I|[I|[I|[]]]]]; injection I as <- <-;
      (split; [reflexivity|split; [reflexivity|]]); defaults_fit. }
  destruct A as [A1 [A2 A3]].
  apply C34_zero_default_partial; try assumption.
  - rewrite A2. apply repeat_length.
  - intros i Hi. rewrite A2. apply Z. apply in_map_iff in Hi.
    destruct Hi as [[a b] [<- Hi]]. now apply R in Hi.
Qed.
Print Assumptions C34_parse_number_bool_custom_partial.

Example C34_parse_witness :
  exists v, make_options parse_ws parse_ds [(2%nat, 2); (3%nat, 1); (11%nat, 1)] = Ok v /\
    map (get_bits_for parse_ws v) (seq 0 12) =
    map Ok [0; 0; 2; 1; 0; 0; 0; 0; 0; 0; 0; 1].
Proof. exists 8240. vm_compute. now split. Qed.

(** The same for the enumerators the library declares, so that no option is too
    narrow for its enumeration: the number of enumerators of each option, in
    list order (daw_json_parse_options.h:26-154,
    impl/daw_json_type_options.h:22-245,
    daw_json_serialize_options.h:25-84). *)
Definition parse_enums : list N := [3; 2; 3; 2; 2; 2; 2; 2; 2; 2; 2; 2].
Definition number_enums : list N := [3; 2; 4; 3].
Definition bool_enums : list N := [3].
Definition custom_enums : list N := [3].
Definition ser_enums : list N := [2; 8; 3; 2; 2].

(** The settings are enumerators of options of the list. *)
Definition enumerators (ns : list N) (es : list (nat * N)) : Prop :=
  forall i e, In (i, e) es -> exists n, nth_error ns i = Some n /\ e < n.

Lemma enumerators_in_range : forall ws ns es, length ns = length ws ->
  forallb (fun x => fst x <=? 2 ^ snd x) (combine ns ws) = true -> enumerators ns es -> in_range ws es.
Proof.
  intros ws ns es L F E i e I. destruct (E i e I) as (n & En & Le).
  assert (Hi : (i < length ws)%nat) by (rewrite <- L; apply nth_error_Some; congruence).
  split; [exact Hi|]. destruct (nth_error ws i) as [w|] eqn:Ew; [|apply nth_error_None in Ew; lia].
  exists w. split; [reflexivity|]. rewrite forallb_forall in F.
  assert (IN : In (n, w) (combine ns ws)).
  { clear -En Ew. revert ns ws En Ew. induction i as [|i IH]; intros [|n' ns] [|w' ws] En Ew; try discriminate; cbn in *.
    - injection En as ->. injection Ew as ->. now left.
    - right. eauto. }
  apply F in IN. cbn [fst snd] in IN. lia.
Qed.

Theorem C34_enumerators_partial : forall ws ds ns es,
  In (ws, ds, ns) [(parse_ws, parse_ds, parse_enums); (number_ws, number_ds, number_enums);
                   (bool_ws, bool_ds, bool_enums); (custom_ws, custom_ds, custom_enums)] ->
  enumerators ns es -> NoDup (map fst es) ->
  exists v, make_options ws ds es = Ok v /\
    forall j d, nth_error ds j = Some d ->
      get_bits_for ws v j =
      Ok (match last_set es j with Some e => e | None => d end).
Proof.
  intros ws ds ns es I E ND. apply C34_parse_number_bool_custom_partial; [| |exact ND].
  - cbn [In] in *. destruct I as [I|[I|[I|[I|[]]]]]; injection I as <- <- <-; tauto.
  - cbn [In] in I. apply (enumerators_in_range ws ns); [| |exact E];
      destruct I as [I|[I|[I|[I|[]]]]]; injection I as <- <- <-; reflexivity.
Qed.
Print Assumptions C34_enumerators_partial.

Example C34_enumerators_ex : enumerators parse_enums [(0%nat, 2); (2%nat, 2)] /\ NoDup (map fst [(0%nat, 2); (2%nat, 2)]).
Proof.
  split.
  - intros i e [I|[I|[]]]; injection I as <- <-; exists 3; split; reflexivity || lia.
  - cbn [map fst]. constructor; [intros [H|[]]; discriminate|]. constructor; [intros []|constructor].
Qed.

(** [output_flags<...>], which [to_json] uses, goes through [set_bits] and is
    right for every request. *)
Theorem C34_output_flags : forall ws ds es, total ws < 32 ->
  length ds = length ws ->
  (forall i w d, nth_error ws i = Some w -> nth_error ds i = Some d -> d < 2 ^ w) ->
  in_range ws es ->
  exists v, output_flags ws ds es = Ok v /\
    forall j d, nth_error ds j = Some d ->
      get_bits_for ws v j =
      Ok (match last_set es j with Some e => e | None => d end).
Proof.
  intros ws ds es HS L F R.
  destruct (make_options_reads ws ds [] HS L F) as [a [E [La G]]].
  { intros ? ? []. } { constructor. }
  unfold make_options in E. cbn [or_bits bind] in E. unfold output_flags.
  destruct (default_flag ws ds) as [d0| | |]; cbn [bind] in *; try discriminate.
  rewrite N.lor_0_r in E. injection E as ->.
  destruct (C33_set_bits ws a es HS La R) as [v [Ev [_ [_ Gv]]]].
  exists v. split; [exact Ev|]. intros j d Ed. rewrite Gv.
  - destruct (last_set es j); [reflexivity|]. apply (G j d Ed). intros [].
  - rewrite <- L. apply nth_error_Some. congruence.
Qed.
Print Assumptions C34_output_flags.

(** In particular for every enumerator of the serialisation options. *)
Theorem C34_output_flags_enumerators : forall es, enumerators ser_enums es ->
  exists v, output_flags ser_ws ser_ds es = Ok v /\
    forall j d, nth_error ser_ds j = Some d ->
      get_bits_for ser_ws v j =
      Ok (match last_set es j with Some e => e | None => d end).
Proof.
  intros es E. apply C34_output_flags; [reflexivity|reflexivity|defaults_fit|].
  now apply (enumerators_in_range ser_ws ser_enums).
Qed.
Print Assumptions C34_output_flags_enumerators.

Example C34_output_witness :
  exists v, output_flags ser_ws ser_ds [(0%nat, 1); (1%nat, 1); (2%nat, 0)] = Ok v /\
    map (get_bits_for ser_ws v) (seq 0 5) = map Ok [1; 1; 0; 0; 0].
Proof. exists 3. vm_compute. now split. Qed.

(** [options::string_opt( EightBitModes::DisallowHigh )] reads back AllowFull:
    the request is or-ed onto a default that is not 0. *)
Theorem C34_string_opt_refuted :
  exists v, make_options string_ws string_ds [(0%nat, 0)] = Ok v /\
    get_bits_for string_ws v 0 = Ok 1.
Proof. exists 1. vm_compute. now split. Qed.
Print Assumptions C34_string_opt_refuted.

Theorem C34_string_raw_opt_refuted :
  exists v, make_options string_raw_ws string_raw_ds [(0%nat, 0)] = Ok v /\
    get_bits_for string_raw_ws v 0 = Ok 1.
Proof. exists 1. vm_compute. now split. Qed.

(** [serialize_options( IndentationType::Space1 )] (1) reads back Space3 (3),
    [serialize_options( RestrictedStringOutput::OnlyAllow7bitsStrings )] (2)
    reads back 3, which is no enumerator, and
    [RestrictedStringOutput::None] (0) reads back ErrorInvalidUTF8 (1). *)
Theorem C34_serialize_options_refuted :
  (exists v, make_options ser_ws ser_ds [(1%nat, 1)] = Ok v /\
    get_bits_for ser_ws v 1 = Ok 3) /\
  (exists v, make_options ser_ws ser_ds [(2%nat, 2)] = Ok v /\
    get_bits_for ser_ws v 2 = Ok 3) /\
  (exists v, make_options ser_ws ser_ds [(2%nat, 0)] = Ok v /\
    get_bits_for ser_ws v 2 = Ok 1).
Proof.
  split; [exists 22|split; [exists 52|exists 20]]; vm_compute; now split.
Qed.
Print Assumptions C34_serialize_options_refuted.

(** Giving the same option twice to [parse_options] mixes the two values:
    runtime (1) and simd (2) give 3. *)
Theorem C34_twice_refuted :
  exists v, make_options parse_ws parse_ds [(0%nat, 1); (0%nat, 2)] = Ok v /\
    get_bits_for parse_ws v 0 = Ok 3.
Proof. exists 3. vm_compute. now split. Qed.
