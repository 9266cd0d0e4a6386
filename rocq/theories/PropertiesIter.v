(** C90 to C94: the iterators over arrays and over JSON Lines. *)
From Coq Require Import String.
From Coq Require Import List NArith ZArith Bool Lia Arith ZifyBool ZifyNat ZifyN.
From Verif Require Import Base Mem Loop PolicyModel StrScanModel SkipModel SpecNum SpecText SpecJson SkipProofs PropertiesSkip HashModel ValueModel
  PathModel TagModel TypedSafe PropertiesValue SpecTyped ClassProofs TypedProofs SpecCompact PropertiesTyped PropertiesSafe
  SpecValue SpecPath ArrayProofs PathProofs2 PropertiesPath NameProofs IntValueProofs IterModel SpecIter IterProofs IterSafe.
Import ListNotations.
Local Open Scope N_scope.

Definition once_each (_ : nat) : nat := 1%nat.
Definition not_at_all (_ : nat) : nat := 0%nat.
(** Only the first element is looked at. *)
Definition the_first (i : nat) : nat := match i with O => 1%nat | S _ => 0%nat end.

Section Reading.
  Context (g : cfg).
  Hypothesis HG : covered g.

  (** ** C90 *)

  (** Full claim: a loop over json_array_range turns once for every element of the
      array, and looking at the [i]-th element, as often as wanted, gives its
      value.  Proved when every element is looked at at least once, or its type
      has values of one kind that [++] can tell.  What follows the array is not
      looked at. *)
  Theorem C90_elements_partial : forall t times fuel w es xs tx rest, is_bytes (w ++ tx ++ rest) -> N.of_nat (length (w ++ tx ++ rest)) < 2^32 ->
    ws w -> jtext str_body (JArr es) tx -> Forall2 (typed (usable g) t) es xs ->
    passed t = true \/ (forall n, times n <> O) -> (length es < fuel)%nat ->
    walk_array g (EType t) times fuel (w ++ tx ++ rest) = Ok (seen times 0 xs).
  Proof. destruct HG as [HX HE]. apply (walk_array_ok g HX HE (usable g)). intros names k H. exact H. Qed.

  (** [std::distance]: the number of elements *)
  Corollary C90_distance_partial : forall t fuel w es xs tx rest, is_bytes (w ++ tx ++ rest) -> N.of_nat (length (w ++ tx ++ rest)) < 2^32 ->
    ws w -> jtext str_body (JArr es) tx -> Forall2 (typed (usable g) t) es xs -> passed t = true -> (length es < fuel)%nat ->
    exists turns, walk_array g (EType t) not_at_all fuel (w ++ tx ++ rest) = Ok turns /\ length turns = length es.
  Proof.
    intros t fuel w es xs tx rest HB H32 HW HT HV HP HF. exists (seen not_at_all 0 xs).
    split; [now apply (C90_elements_partial t not_at_all fuel w es xs tx rest); auto|].
    assert (L : forall n, length (seen not_at_all n xs) = length xs) by (clear; induction xs as [|x xs IH]; intros n; cbn [seen length]; auto).
    rewrite L. symmetry. clear - HV. induction HV; cbn [length]; auto.
  Qed.

  (** ** C92 *)

  (** Full claim: a loop over json_lines_range turns once for every line that has a
      value, and gives the value.  Proved for element types other than signed
      numbers, booleans and what holds them, and for json_value when no line is
      true, false or null. *)
  Theorem C92_lines_partial : forall e times fuel ls xs doc, is_bytes doc -> N.of_nat (length doc) < 2^32 -> json_lines ls doc ->
    Forall2 (line_value (usable g) e) ls xs -> line_passed e = true \/ (forall n, times n <> O) -> (length ls < fuel)%nat ->
    walk_lines g e times fuel doc = Ok (seen times 0 xs).
  Proof. destruct HG as [HX HE]. apply (walk_lines_ok g HX HE (usable g)). intros names k H. exact H. Qed.
End Reading.

Definition run_array (t : ty) (times : nat -> nat) (fuel : nat) (s : string) : res (list (list val)) :=
  walk_array default_cfg (EType t) times fuel (doc_of s).
Definition run_lines (e : elem) (times : nat -> nat) (fuel : nat) (s : list N) : res (list (list val)) :=
  walk_lines default_cfg e times fuel s.

(** [times] does matter, and so does every element: five turns, the values seen
    once, never, twice, never, once. *)
Example C90_times_nonvacuous :
  run_array uint (fun i => nth i [1; 0; 2; 0; 1]%nat 0%nat) 6 " [1, 20 ,300,4 , 5] x" =
  Ok [[VInt 1]; []; [VInt 300; VInt 300]; []; [VInt 5]].
Proof. vm_compute. reflexivity. Qed.
Example C90_strings_nonvacuous :
  run_array TStr once_each 4 "['a','\'',']']" = Ok [[VStr (bytes "a")]; [VStr [34]]; [VStr (bytes "]")]].
Proof. vm_compute. reflexivity. Qed.
Example C90_fuel_nonvacuous : run_array uint once_each 5 "[1,2,3,4,5]" = Fuel.
Proof. vm_compute. reflexivity. Qed.
Example C90_classes_nonvacuous :
  run_array (TClass false [(bytes "a", uint)]) the_first 3 "[{'a':1,'b':[{}]}, {'a' : 2}]" = Ok [[VClass [VInt 1]]; []].
Proof. vm_compute. reflexivity. Qed.

(** Finding: [++] passes over booleans and nullable values as if they were numbers.
    A boolean that was not looked at stays where it is: the loop does not end. *)
Lemma stays : forall arr parse skip times buf it, at_element arr buf (it_state it) = Ok true -> isnull (it_state it) = false ->
  (forall i, exists vs it', deref_times (times i) arr parse buf it = Ok (vs, it') /\ incr arr skip buf it' = Ok it) ->
  forall fuel i, walk fuel arr parse skip times i buf it = Fuel.
Proof.
  intros arr parse skip times buf it HA HN HI. induction fuel as [|fuel IH]; intros i; [reflexivity|]. cbn [walk].
  unfold it_neq, good. rewrite HN, HA. cbn [it_end it_state no_loc isnull bind negb]. destruct (HI i) as (vs & it' & -> & E). cbn [bind]. rewrite E. cbn [bind].
  rewrite IH. reflexivity.
Qed.
Ltac iterator_of := match goal with |- bind ?x _ = _ => let y := eval vm_compute in x in change x with y end; cbn [bind].

Theorem C90_bool_refuted : exists doc es xs, jtext str_body (JArr es) doc /\ Forall2 (typed (usable default_cfg) TBool) es xs /\
  forall fuel, walk_array default_cfg (EType TBool) not_at_all fuel doc = Fuel.
Proof.
  exists (bytes "[true]"), [JTrue], [VBool true]. split; [|split].
  - apply (t_arr str_body [JTrue] (bytes "true")). apply (e_one str_body [] JTrue (bytes "true") []); constructor.
  - constructor; [|constructor]. left. auto.
  - intros fuel. unfold walk_array. iterator_of. apply stays; [vm_compute; reflexivity|reflexivity|].
    intros i. eexists _, _. split; [reflexivity|]. vm_compute. reflexivity.
Qed.

(** So does an optional string. *)
Theorem C90_nullable_refuted : exists doc es xs, jtext str_body (JArr es) doc /\ Forall2 (typed (usable default_cfg) (TNullable TStr)) es xs /\
  forall fuel, walk_array default_cfg (EType (TNullable TStr)) not_at_all fuel doc = Fuel.
Proof.
  exists (doc_of "['a']"), [JStr (bytes "a")], [VSome (VStr (bytes "a"))]. split; [|split].
  - apply (t_arr str_body [JStr (bytes "a")] (doc_of "'a'")). apply (e_one str_body [] (JStr (bytes "a")) (doc_of "'a'") []).
    + exact (Forall_nil _).
    + apply (t_str str_body (bytes "a")). apply sb_plain; [discriminate|discriminate|constructor].
    + exact (Forall_nil _).
  - constructor; [|constructor]. right. split; [discriminate|]. exists (VStr (bytes "a")). split; [|reflexivity].
    exists (bytes "a"), (bytes "a"). split; [reflexivity|]. split; [|reflexivity]. apply SpecUnicode.dn_plain; [discriminate|discriminate|constructor].
  - intros fuel. unfold walk_array. iterator_of. apply stays; [vm_compute; reflexivity|reflexivity|].
    intros i. eexists _, _. split; [reflexivity|]. vm_compute. reflexivity.
Qed.

(** ** C91 *)

(** Full claim: whatever the bytes, a loop over json_array_range or json_lines_range
    reads nothing outside of them and comes to an end.  Proved for the types of
    [safe_type false] and json_value, for any number of turns; that it ends, when
    every element is looked at and its type has no absent values. *)
Theorem C91_inside_partial : forall g e times fuel doc, c_ex g = ExConstexpr -> is_bytes doc -> N.of_nat (length doc) < 2^31 ->
  (forall t, e = EType t -> safe_type false t = true) ->
  walk_array g e times fuel doc <> UB /\ walk_lines g e times fuel doc <> UB.
Proof.
  intros g e times fuel doc HX HB H31 HE. destruct (walk_safe doc HB H31 g HX e times fuel HE) as [A B].
  split; intros E; rewrite E in *; auto.
Qed.
Theorem C91_ends_partial : forall g e times fuel doc, c_ex g = ExConstexpr -> is_bytes doc -> N.of_nat (length doc) < 2^31 ->
  (forall t, e = EType t -> safe_type false t = true /\ advances t = true) -> (forall n, times n <> O) -> (length doc < fuel)%nat ->
  walk_array g e times fuel doc <> Fuel /\ walk_lines g e times fuel doc <> Fuel.
Proof.
  intros g e times fuel doc HX HB H31 HE HT HF. destruct (walk_total doc HB H31 g HX e times fuel HE HT HF) as [A B].
  split; intros E; rewrite E in *; auto.
Qed.
Example C91_types_nonvacuous :
  let t := TClass false [(bytes "a", TStr); (bytes "b", uint); (bytes "c", TMap (TNullable TBool))] in
  safe_type false t = true /\ advances t = true /\ safe_type false (TTuple false [TStr; uint]) = true /\ safe_type false (TNullable TStr) = true.
Proof. repeat split. Qed.
Example C91_bytes_nonvacuous :
  run_array uint once_each 9 "[1}" = Err InvalidNumber /\ run_array uint once_each 9 "[" = Ok [] /\
  run_array TStr not_at_all 9 "['" = Err InvalidString /\ run_array (TMap uint) once_each 9 "[{'a':1" = Err UnexpectedEndOfData.
Proof. vm_compute. repeat split. Qed.

(** Finding: a byte that is no value is not passed over, so that counting the
    elements of [[1}] never ends. *)
Theorem C91_endless_refuted : exists doc, forall fuel, walk_array default_cfg (EType uint) not_at_all fuel doc = Fuel.
Proof.
  exists (bytes "[1}"). intros [|fuel]; [reflexivity|]. unfold walk_array. iterator_of. cbn [walk].
  match goal with |- bind ?x _ = _ => let y := eval vm_compute in x in change x with y end. cbn [bind deref_times not_at_all].
  match goal with |- bind ?x _ = _ => let y := eval vm_compute in x in change x with y end. cbn [bind].
  rewrite stays; [reflexivity|vm_compute; reflexivity|reflexivity|].
  intros i. eexists _, _. split; [reflexivity|]. vm_compute. reflexivity.
Qed.
(** Nor does reading it as optional numbers: at the brace an absent value is read,
    again and again. *)
Theorem C91_endless_nullable_refuted : exists doc, forall fuel, walk_array default_cfg (EType (TNullable uint)) once_each fuel doc = Fuel.
Proof.
  exists (bytes "[1}"). intros [|fuel]; [reflexivity|]. unfold walk_array. iterator_of. cbn [walk].
  match goal with |- bind ?x _ = _ => let y := eval vm_compute in x in change x with y end. cbn [bind once_each].
  match goal with |- bind ?x _ = _ => let y := eval vm_compute in x in change x with y end. cbn [bind].
  match goal with |- bind ?x _ = _ => let y := eval vm_compute in x in change x with y end. cbn [bind].
  rewrite stays; [reflexivity|vm_compute; reflexivity|reflexivity|].
  intros i. eexists _, _. split; [vm_compute; reflexivity|]. vm_compute. reflexivity.
Qed.
(** The constructor with a path reads the byte behind a document of spaces. *)
Theorem C91_path_refuted : exists doc path, is_bytes doc /\ array_iter_path default_cfg doc path = UB.
Proof. exists (bytes "  "), (bytes "a"). split; [repeat constructor|vm_compute; reflexivity]. Qed.
(** Arrays of arrays, cut off *)
Theorem C91_nested_refuted : exists doc, is_bytes doc /\ walk_array default_cfg (EType (TArr uint)) once_each 9 doc = UB.
Proof. exists (bytes "[["). split; [repeat constructor|vm_compute; reflexivity]. Qed.

(** ** C92, examples and findings *)

Definition nl : list N := [10].
Example C92_lines_nonvacuous :
  run_lines (EType uint) once_each 9 (bytes "1" ++ nl ++ nl ++ bytes " 22 " ++ nl ++ bytes "3") = Ok [[VInt 1]; [VInt 22]; [VInt 3]] /\
  run_lines (EType (TClass false [(bytes "a", uint)])) the_first 9 (doc_of "{'a':1}" ++ nl ++ doc_of "{'a':2}" ++ nl) = Ok [[VClass [VInt 1]]; []] /\
  run_lines ERaw once_each 9 (doc_of "{'a':1}" ++ nl ++ doc_of "[1,2]" ++ nl ++ bytes "-5") =
    Ok [[VStr (doc_of "{'a':1}")]; [VStr (bytes "[1,2]")]; [VStr (bytes "-5")]].
Proof. vm_compute. repeat split. Qed.
Lemma jnum_digit : forall d, Dec.canonicalb [d] = true -> jnum [d].
Proof. intros d HD. change [d] with ([] ++ [d] ++ [] ++ @nil N). apply jn; [now left|now apply Dec.canonical_dec|constructor|constructor]. Qed.
Example C92_json_lines_nonvacuous :
  json_lines [(JNum (bytes "1"), bytes "1"); (JNum (bytes "2"), bytes "2")] (bytes "1" ++ nl ++ bytes "2").
Proof.
  apply (jl_line [] (JNum (bytes "1")) (bytes "1") [] [(JNum (bytes "2"), bytes "2")] (bytes "2")).
  - constructor.
  - apply t_num. now apply (jnum_digit 49).
  - constructor.
  - apply (jl_last [] (JNum (bytes "2")) (bytes "2") []); [constructor|apply t_num; now apply (jnum_digit 50)|constructor].
Qed.

(** Finding: behind a signed number or a boolean the whitespace is skipped before
    the end of the value is looked for; the next line is then taken for a
    continuation. *)
Theorem C92_signed_refuted : exists doc, json_lines [(JNum (bytes "1"), bytes "1"); (JNum (bytes "2"), bytes "2")] doc /\
  run_lines (EType (TInt 64 true)) once_each 9 doc = Err InvalidEndOfValue.
Proof. exists (bytes "1" ++ nl ++ bytes "2"). split; [exact C92_json_lines_nonvacuous|vm_compute; reflexivity]. Qed.
Theorem C92_bool_refuted : exists doc, json_lines [(JTrue, bytes "true"); (JFalse, bytes "false")] doc /\
  run_lines (EType TBool) once_each 9 doc = Err InvalidEndOfValue /\ run_lines ERaw once_each 9 doc = Err InvalidEndOfValue.
Proof.
  exists (bytes "true" ++ nl ++ bytes "false"). split; [|vm_compute; split; reflexivity].
  apply (jl_line [] JTrue (bytes "true") [] [(JFalse, bytes "false")] (bytes "false")); try constructor.
  apply (jl_last [] JFalse (bytes "false") []); constructor.
Qed.

(** ** C93 *)

(** Claim: a range based for over json_array_range_once gives the elements of the
    array.  It never does: the comparison with the end is inverted for an
    iterator that is at its end, so that every loop that reaches the end
    continues and throws. *)
Lemma once_never : forall parse doc fuel p vs, once_walk fuel parse doc p <> Ok vs.
Proof.
  intros parse doc. induction fuel as [|fuel IH]; intros p vs; [discriminate|]. cbn [once_walk]. unfold once_neq.
  destruct (once_good doc p) as [b| | |] eqn:EG; cbn [bind]; try discriminate. change (once_good doc no_loc) with (@Ok bool false). cbn [bind negb].
  replace (if negb b then true else true) with true by (destruct b; reflexivity).
  destruct (once_deref parse doc p) as [[v q]| | |]; cbn [bind]; try discriminate.
  destruct (once_incr doc q) as [r| | |]; cbn [bind]; try discriminate.
  specialize (IH r). destruct (once_walk fuel parse doc r) as [l| | |]; cbn [bind]; try discriminate. exfalso. exact (IH l eq_refl).
Qed.
Theorem C93_never_refuted : forall g e fuel doc vs, walk_once g e fuel doc <> Ok vs.
Proof.
  intros g e fuel doc vs. unfold walk_once. destruct (array_iter doc) as [it| | |]; cbn [bind]; try discriminate. apply once_never.
Qed.
Theorem C93_refuted : exists doc, walk_array default_cfg (EType uint) once_each 9 doc = Ok [[VInt 1]; [VInt 2]] /\
  walk_once default_cfg (EType uint) 9 doc = Err UnexpectedEndOfData.
Proof. exists (doc_of "[1,2]"). vm_compute. split; reflexivity. Qed.

(** ** C94 *)

(** Full claim: a loop over text that is not an array, or not JSON Lines, ends in an
    error.  Proved for text that does not start with a bracket. *)
Theorem C94_start_partial : forall g e times fuel w r, is_bytes (w ++ r) -> ws w -> match r with [] => True | c :: _ => c <> 91 /\ 32 < c end ->
  walk_array g e times fuel (w ++ r) = Err InvalidArrayStart.
Proof.
  intros g e times fuel w r HB HW HR. unfold walk_array, array_iter.
  assert (HR' : match r with [] => True | c :: _ => 32 < c end) by (destruct r; [exact I|apply HR]).
  pose proof (json_ws_run g (usable g) (fun _ _ H => H) [] w r HW HR') as R. cbn [app length Nat.add] in R.
  rewrite (trim_left_run (w ++ r) (new_ps 0 (length (w ++ r))) (length w)) by (try exact HB; try exact R; cbn [last new_ps]; lia). cbn [bind].
  assert (E : is_at (w ++ r) (set_first (new_ps 0 (length (w ++ r))) (length w)) c_lbrack = Ok false).
  { destruct r as [|c r].
    - rewrite app_nil_r. unfold is_at, has_more. cbn [first last set_first new_ps]. now rewrite Nat.ltb_irrefl.
    - destruct HR as [HR _]. apply (is_at_no _ _ c); [|exact HR]. cbn [first set_first new_ps]. rewrite nth_error_app2 by lia. now rewrite Nat.sub_diag. }
  rewrite E. reflexivity.
Qed.
Example C94_start_nonvacuous : run_array uint once_each 9 " {'a':[1]}" = Err InvalidArrayStart /\ run_array uint once_each 9 "" = Err InvalidArrayStart.
Proof. vm_compute. split; reflexivity. Qed.

(** Finding: an array that is cut off gives its elements so far and no error. *)
Theorem C94_truncated_refuted : exists s, run_array uint once_each 9 s = Ok [[VInt 1]; [VInt 2]] /\ s = "[1,2"%string.
Proof. eexists. split; [|reflexivity]. vm_compute. reflexivity. Qed.
(** Commas between elements are optional, and one may follow the last. *)
Theorem C94_comma_refuted : exists s s', run_array uint once_each 9 s = Ok [[VInt 1]; [VInt 2]] /\ s = "[1 2]"%string /\
  run_array uint once_each 9 s' = Ok [[VInt 1]; [VInt 2]] /\ s' = "[1,2,]"%string.
Proof. exists "[1 2]"%string, "[1,2,]"%string. vm_compute. repeat split. Qed.
(** Lines may hold several values. *)
Theorem C94_lines_refuted : exists s, run_lines (EType uint) once_each 9 s = Ok [[VInt 1]; [VInt 2]] /\ s = bytes "1,2".
Proof. eexists. split; [|reflexivity]. vm_compute. reflexivity. Qed.

(** ** C95 *)

(** Full claim: a range constructed with a path is a range over the array at this
    path; when the path leads nowhere, or not to an array, the constructor ends in
    an error.  Proved for paths of names that need no escaping and of indices that
    follow a name. *)
Theorem C95_path_partial : forall g t times fuel doc v w0 tx w1 path txt es xs, covered g -> is_bytes doc -> N.of_nat (length doc) < 2^32 ->
  doc = w0 ++ tx ++ w1 -> ws w0 -> jtext str_body v tx -> ws w1 ->
  leads (names_ok g) v path (JArr es) -> path_text path txt \/ rest_text path txt -> lone false path ->
  Forall2 (typed (usable g) t) es xs -> passed t = true \/ (forall n, times n <> O) -> (length es < fuel)%nat ->
  walk_array_path g (EType t) times fuel doc txt = Ok (seen times 0 xs).
Proof.
  intros g t times fuel doc v w0 tx w1 path txt es xs HG HB H32 ED W0 HT W1 HL PT LO HTy HP HU.
  assert (NN : v <> JNull) by (intros ->; inversion HL).
  destruct (C52_find_range_partial g doc v w0 tx w1 path txt (JArr es) HG HB H32 ED W0 HT W1 NN HL PT LO) as (r & ER & VR).
  unfold walk_array_path, array_iter_path, get_range. rewrite ER. cbn [bind ensure].
  pose proof VR as (HW & t1 & j & T1 & S1 & FJ & _).
  destruct (array_start doc (first r) es t1 T1 S1) as (w2 & c & S0 & _).
  assert (EF : front doc r = Ok 91) by (unfold front; now apply rd_some). rewrite EF. cbn [bind]. change (91 =? c_lbrack) with true. cbn [ensure bind].
  destruct HG as [HX HE]. apply (elements_at g HX HE (usable g)) with (es := es); auto.
Qed.

(** The path leads to another value. *)
Theorem C95_not_array_partial : forall g doc v w0 tx w1 path txt w, covered g -> is_bytes doc -> N.of_nat (length doc) < 2^32 ->
  doc = w0 ++ tx ++ w1 -> ws w0 -> jtext str_body v tx -> ws w1 -> v <> JNull ->
  leads (names_ok g) v path w -> path_text path txt \/ rest_text path txt -> lone false path -> (forall es, w <> JArr es) ->
  array_iter_path g doc txt = Err InvalidArrayStart.
Proof.
  intros g doc v w0 tx w1 path txt w HG HB H32 ED W0 HT W1 NN HL PT LO NA.
  destruct (C52_find_range_partial g doc v w0 tx w1 path txt w HG HB H32 ED W0 HT W1 NN HL PT LO) as (r & ER & VR).
  unfold array_iter_path, get_range. rewrite ER. cbn [bind ensure].
  destruct VR as (_ & t1 & j & T1 & S1 & _). assert (H91 : exists c t2, t1 = c :: t2 /\ c <> 91).
  { clear - T1 NA. destruct T1 as [| | |n HJ| | | | |]; try (exfalso; eapply NA; reflexivity); try (eexists _, _; split; [reflexivity|discriminate]).
    destruct HJ as [sg i f e Hsg (Di & Ni & _) Hf He]. destruct Hsg as [->| ->]; cbn [app].
    - destruct i as [|d i]; [congruence|]. cbn [app]. do 2 eexists; split; [reflexivity|]. inversion Di; subst. unfold is_dig in *. lia.
    - do 2 eexists; split; [reflexivity|discriminate]. }
  destruct H91 as (c & t2 & -> & NC). destruct S1 as [S0 _].
  assert (EF : front doc r = Ok c) by (unfold front; now apply rd_some). rewrite EF. cbn [bind].
  replace (c =? c_lbrack) with false by (unfold c_lbrack; lia). reflexivity.
Qed.

(** The lookup answers that there is nothing. *)
Theorem C95_missing_partial : forall g doc path r, find_range g doc path = Ok (r, false) -> array_iter_path g doc path = Err JSONPathNotFound.
Proof. intros g doc path r E. unfold array_iter_path, get_range. rewrite E. reflexivity. Qed.

Definition run_path (t : ty) (s p : string) : res (list (list val)) := walk_array_path default_cfg (EType t) once_each 9 (doc_of s) (bytes p).
Example C95_nonvacuous : run_path uint "{'a':[9],'b':{'c':[[1], [2, 3] ]}}" "b.c[1]" = Ok [[VInt 2]; [VInt 3]] /\
  run_path uint " [4,5] " "" = Ok [[VInt 4]; [VInt 5]] /\
  run_path uint "{'a':[9],'b':7}" "b" = Err InvalidArrayStart /\ run_path uint "{'a':[9],'b':7}" "c" = Err JSONPathNotFound.
Proof. vm_compute. repeat split. Qed.

(** A path that starts with an index gives the elements of the whole document, and
    so does one that stops behind the second of two indices. *)
Theorem C95_index_refuted : run_path (TArr uint) "[[1],[2]]" "[1]" = Ok [[VArr [VInt 1]]; [VArr [VInt 2]]] /\
  run_path uint "{'a':[[5,6],7]}" "a[0][1]" = Ok [[VInt 5]; [VInt 6]].
Proof. vm_compute. split; reflexivity. Qed.

(** ** C96 *)

(** Full claim: equality of iterators is an equivalence, [!=] is its negation, all
    iterators that are at their end are equal to each other and to a default
    constructed one, and others are equal when they are at the same place. *)
Theorem C96_not_equal_partial : forall arr doc a b,
  it_neq arr doc a b = match it_eq arr doc a b with Ok x => Ok (negb x) | Err r => Err r | UB => UB | Fuel => Fuel end.
Proof.
  intros arr doc a b. unfold it_neq, it_eq. destruct (good arr doc a) as [[]| | |]; cbn [bind]; try reflexivity;
    destruct (good arr doc b) as [[]| | |]; reflexivity.
Qed.

(** What equality means *)
Theorem C96_equal_partial : forall arr doc a b ga gb, good arr doc a = Ok ga -> good arr doc b = Ok gb ->
  exists x, it_eq arr doc a b = Ok x /\
    (x = true <-> ga = false /\ gb = false \/ ga = true /\ gb = true /\ first (it_state a) = first (it_state b)).
Proof.
  intros arr doc a b ga gb Ea Eb. unfold it_eq. rewrite Ea, Eb. cbn [bind]. eexists. split; [reflexivity|].
  destruct ga, gb; cbn [negb]; intuition (try discriminate; try lia).
Qed.
Corollary C96_equivalence_partial : forall arr doc a b c x y, good arr doc a = Ok x -> good arr doc b = Ok y ->
  it_eq arr doc a a = Ok true /\ it_eq arr doc a b = it_eq arr doc b a /\
  (it_eq arr doc a b = Ok true -> it_eq arr doc b c = Ok true -> it_eq arr doc a c = Ok true).
Proof.
  intros arr doc a b c x y Ea Eb. unfold it_eq. rewrite Ea, Eb. cbn [bind].
  split; [destruct x; cbn [negb]; auto; now rewrite Nat.eqb_refl|].
  split; [destruct x, y; cbn [negb]; auto; now rewrite Nat.eqb_sym|].
  destruct (good arr doc c) as [z| | |]; cbn [bind]; try discriminate.
  destruct x, y, z; cbn [negb]; try discriminate; auto. intros H1 H2. injection H1 as H1. injection H2 as H2. f_equal. lia.
Qed.
Corollary C96_end_partial : forall arr doc a x, good arr doc a = Ok x -> it_eq arr doc a it_end = Ok (negb x).
Proof. intros arr doc a x E. unfold it_eq. rewrite E. cbn [bind]. destruct x; reflexivity. Qed.

(** What [good] says of an iterator over text: there is an element. *)
Theorem C96_good_partial : forall arr doc p k, isnull p = false -> (last p <= length doc)%nat ->
  exists x, good arr doc (mkiter p k) = Ok x /\
    (x = true <-> (first p < last p)%nat /\ (arr = true -> nth_error doc (first p) <> Some 93)).
Proof.
  intros arr doc p k HN HL. unfold good, at_element. cbn [it_state]. rewrite HN. unfold has_more.
  destruct (Nat.ltb_spec (first p) (last p)) as [L|L].
  2:{ exists false. split; [reflexivity|]. split; [discriminate|lia]. }
  destruct (rd_in doc (first p)) as (c & Hc); [lia|]. destruct arr.
  - unfold front. rewrite (rd_some _ _ _ Hc). cbn [bind]. eexists. split; [reflexivity|]. rewrite Hc. unfold c_rbrack.
    split; [intros E; split; [exact L|]; intros _ [= ->]; discriminate|]. intros [_ H]. destruct (N.eqb_spec c 93) as [->|]; [|reflexivity]. now destruct H.
  - exists true. split; [reflexivity|]. split; [intros _; split; [exact L|discriminate]|auto].
Qed.

Example C96_nonvacuous :
  let d := bytes "[1,2] [3]" in let at_ i := mkiter (set_first (new_ps 0 9) i) None in
  it_eq true d (at_ 1%nat) (at_ 1%nat) = Ok true /\ it_eq true d (at_ 1%nat) (at_ 3%nat) = Ok false /\
  it_eq true d (at_ 4%nat) (at_ 8%nat) = Ok true /\ it_eq true d (at_ 4%nat) it_end = Ok true /\ it_eq true d (at_ 3%nat) it_end = Ok false.
Proof. vm_compute. repeat split. Qed.

(** The other iterators: one that is at its end is not equal to itself, but equal
    to every one that is not. *)
Theorem C96_once_refuted : forall doc a b, once_good doc a = Ok false -> once_good doc b = Ok true ->
  once_eq doc a a = Ok false /\ once_eq doc a b = Ok true /\ once_eq doc b a = Ok false /\ once_neq doc a a = Ok true /\ once_neq doc a b = Ok false.
Proof. intros doc a b E1 E2. unfold once_eq, once_neq. rewrite E1, E2. repeat split. Qed.
Theorem C96_refuted : exists doc a b, once_good doc a = Ok false /\ once_good doc b = Ok true /\ once_eq doc a a = Ok false /\
  once_eq doc a b = Ok true /\ once_eq doc b a = Ok false.
Proof. exists (bytes "[1]"), no_loc, (set_first (new_ps 0 3) 1). vm_compute. repeat split. Qed.

Print Assumptions C95_path_partial.
Print Assumptions C95_not_array_partial.
Print Assumptions C95_missing_partial.
Print Assumptions C95_index_refuted.
Print Assumptions C96_not_equal_partial.
Print Assumptions C96_equal_partial.
Print Assumptions C96_equivalence_partial.
Print Assumptions C96_end_partial.
Print Assumptions C96_good_partial.
Print Assumptions C96_once_refuted.
Print Assumptions C96_refuted.
Print Assumptions C90_elements_partial.
Print Assumptions C90_distance_partial.
Print Assumptions C90_bool_refuted.
Print Assumptions C90_nullable_refuted.
Print Assumptions C91_inside_partial.
Print Assumptions C91_ends_partial.
Print Assumptions C91_endless_refuted.
Print Assumptions C91_endless_nullable_refuted.
Print Assumptions C91_path_refuted.
Print Assumptions C91_nested_refuted.
Print Assumptions C92_lines_partial.
Print Assumptions C92_signed_refuted.
Print Assumptions C92_bool_refuted.
Print Assumptions C93_never_refuted.
Print Assumptions C93_refuted.
Print Assumptions C94_start_partial.
Print Assumptions C94_truncated_refuted.
Print Assumptions C94_comma_refuted.
Print Assumptions C94_lines_refuted.
