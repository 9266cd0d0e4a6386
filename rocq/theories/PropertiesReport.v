(** C113 - C115: what is reported about an error; count_digits. *)
From Coq Require Import String.
From Coq Require Import List NArith ZArith Bool Lia Arith ZifyBool ZifyNat ZifyN.
From Verif Require Import Base Mem PolicyModel IntModel SpecNum ValueModel JValueModel PathModel MiscModel PathProofs2 ReportModel.
Import ListNotations.
Local Open Scope N_scope.

(** ** C113: to_formatted_string

    Full claim: for every error with a location in a document, or at its end, the
    report is made without reading anything but the document, the line and the
    column are those of the location counted from one, and the excerpt ends with the
    byte at the location.

    Proved: the reads, exactly; the whole report for locations behind a newline and
    from the fifty first byte on.  Refuted: locations before that, at the end, the
    column. *)

Definition break (c : N) : bool := (c =? 10) || (c =? 13).

Lemma slice_ok : forall doc n i, (i + n <= length doc)%nat -> slice doc (Z.of_nat i) n = Ok (firstn n (skipn i doc)).
Proof.
  intros doc n. induction n as [|n IH]; intros i L; [reflexivity|]. cbn [slice]. unfold rdz. replace (Z.of_nat i <? 0)%Z with false by lia.
  rewrite Nat2Z.id. unfold rd. destruct (nth_error doc i) as [c|] eqn:EN; [|apply nth_error_None in EN; lia]. cbn [bind].
  replace (Z.of_nat i + 1)%Z with (Z.of_nat (S i)) by lia. rewrite IH by lia. cbn [bind]. f_equal.
  replace (skipn i doc) with (c :: skipn (S i) doc); [reflexivity|]. clear - EN. revert i EN. induction doc as [|d doc IHd]; intros [|i] EN; try discriminate; cbn in *; [congruence|now apply IHd].
Qed.

Lemma slice_past : forall doc n i, (length doc < i + n)%nat -> (0 < n)%nat -> slice doc (Z.of_nat i) n = UB.
Proof.
  intros doc n. induction n as [|n IH]; intros i L P; [lia|]. cbn [slice]. unfold rdz. replace (Z.of_nat i <? 0)%Z with false by lia.
  rewrite Nat2Z.id. unfold rd. destruct (nth_error doc i) as [c|] eqn:EN; [|reflexivity]. cbn [bind].
  assert (LI : (i < length doc)%nat) by (apply nth_error_Some; congruence).
  replace (Z.of_nat i + 1)%Z with (Z.of_nat (S i)) by lia. rewrite IH by lia. reflexivity.
Qed.

(** The report is undefined exactly for locations in the first fifty bytes and at
    the end: of the former it reads the byte before the document, of the latter the
    one behind it. *)
Theorem C113_reads_partial : forall colour base x t loc doc, reason_text x = Ok t -> x_loc x = Some loc -> (loc <= length doc)%nat ->
  (to_formatted_string colour base x (Some doc) = UB <-> (loc < 50 \/ loc = length doc)%nat).
Proof.
  intros colour base x t loc doc ET EL L. unfold to_formatted_string. rewrite ET, EL. cbn [bind]. cbv zeta.
  replace (length doc <? loc)%nat with false by lia.
  destruct (Nat.le_gt_cases 50 loc) as [G|G].
  - replace (Nat.min 50 (loc + 1)) with 50%nat by lia. replace (Z.of_nat loc - Z.of_nat 50)%Z with (Z.of_nat (loc - 50)) by lia.
    destruct (Nat.eq_dec loc (length doc)) as [->|NE].
    + rewrite slice_past by lia. split; [now right|reflexivity].
    + rewrite slice_ok by lia. cbn [bind]. split; [discriminate|lia].
  - split; [now left|intros _]. replace (Nat.min 50 (loc + 1)) with (loc + 1)%nat by lia.
    replace (loc + 1 + 1)%nat with (S (loc + 1)) by lia. cbn [slice]. unfold rdz. replace (Z.of_nat loc - Z.of_nat (loc + 1) <? 0)%Z with true by lia. reflexivity.
Qed.
Print Assumptions C113_reads_partial.

Lemma last_newline_none : forall l i f, ~ In 10 l -> last_newline l i f = f.
Proof.
  induction l as [|c l IH]; intros i f N; [reflexivity|]. cbn [last_newline]. replace (c =? 10) with false by (symmetry; apply N.eqb_neq; intros ->; apply N; now left).
  apply IH. intros H. apply N. now right.
Qed.

Lemma last_newline_at : forall a b i f, ~ In 10 b -> last_newline (a ++ 10 :: b) i f = Some (i + length a)%nat.
Proof.
  induction a as [|c a IH]; intros b i f N; cbn [app last_newline length].
  - rewrite N.eqb_refl, last_newline_none by assumption. f_equal. lia.
  - rewrite IH by assumption. f_equal. lia.
Qed.

Lemma count_lines_ok : forall l, N.of_nat (length l) < 2^63 -> count_lines l = 1 + N.of_nat (count_occ N.eq_dec l 10).
Proof.
  intros l L. unfold count_lines. assert (G : forall l a, a + N.of_nat (length l) < 2^64 ->
    fold_left (fun count c => if c =? 10 then (count + 1) mod 2^64 else count) l a = a + N.of_nat (count_occ N.eq_dec l 10)).
  { clear. change (2^64) with 18446744073709551616. induction l as [|c l IH]; intros a L; cbn [fold_left count_occ length] in *; [lia|].
    destruct (N.eq_dec c 10) as [->|NE].
    - rewrite N.eqb_refl, N.mod_small by lia. rewrite IH by lia. lia.
    - replace (c =? 10) with false by lia. apply IH. lia. }
  apply G. change (2^63) with 9223372036854775808 in L. change (2^64) with 18446744073709551616. lia.
Qed.

(** Behind a newline: the line is right, the column is one too large.  The excerpt has
    the fifty bytes before the location and the one at it, without line breaks. *)
Theorem C113_report_partial : forall colour base x t a b c r, reason_text x = Ok t -> ~ In 10 b ->
  let doc := a ++ 10 :: b ++ c :: r in let loc := length (a ++ 10 :: b) in
  x_loc x = Some loc -> (50 <= loc)%nat -> N.of_nat (length doc) < 2^63 ->
  to_formatted_string colour base x (Some doc) =
    Ok (bytes "reason: " ++ t ++ bytes " " ++ [10] ++ bytes "location: near line: " ++ to_string (2 + N.of_nat (count_occ N.eq_dec a 10)) ++
        bytes " col: " ++ to_string (2 + N.of_nat (length b)) ++ [10; 34] ++ (if colour then 27 :: bytes "[1m" else []) ++
        shown colour (skipn (loc - 50) (a ++ 10 :: b) ++ [c]) ++ (if colour then 27 :: bytes "[0m" else []) ++ [34; 10]).
Proof.
  intros colour base x t a b c r ET NB doc loc EL G LD. unfold to_formatted_string. rewrite ET, EL. cbn [bind]. cbv zeta.
  assert (ED : doc = (a ++ 10 :: b) ++ c :: r) by (unfold doc; rewrite <- app_assoc; reflexivity).
  assert (LL : length doc = (loc + S (length r))%nat) by (rewrite ED, app_length; reflexivity).
  assert (LA : loc = (length a + S (length b))%nat) by (unfold loc; rewrite app_length; reflexivity).
  replace (length doc <? loc)%nat with false by lia.
  assert (EF : firstn loc doc = a ++ 10 :: b) by (rewrite ED; unfold loc; rewrite firstn_app, Nat.sub_diag, firstn_all; apply app_nil_r).
  rewrite EF, last_newline_at by assumption. cbn [Nat.add]. replace (Nat.min 50 (loc + 1)) with 50%nat by lia.
  replace (Z.of_nat loc - Z.of_nat 50)%Z with (Z.of_nat (loc - 50)) by lia. rewrite slice_ok by lia. cbn [bind].
  rewrite count_lines_ok by (fold loc; lia).
  replace (count_occ N.eq_dec (a ++ 10 :: b) 10) with (S (count_occ N.eq_dec a 10)).
  2:{ rewrite count_occ_app. cbn [count_occ]. destruct (N.eq_dec 10 10); [|congruence]. rewrite (proj1 (count_occ_not_In N.eq_dec b 10) NB). lia. }
  rewrite N.mod_small by (change (2^63) with 9223372036854775808 in LD; change (2^64) with 18446744073709551616; lia).
  replace (1 + N.of_nat (S (count_occ N.eq_dec a 10))) with (2 + N.of_nat (count_occ N.eq_dec a 10)) by lia.
  replace (N.of_nat loc - N.of_nat (length a) + 1) with (2 + N.of_nat (length b)) by lia.
  replace (firstn (50 + 1) (skipn (loc - 50) doc)) with (skipn (loc - 50) (a ++ 10 :: b) ++ [c]).
  2:{ clearbody doc. rewrite ED, (skipn_app _ (a ++ 10 :: b) (c :: r)). fold loc. replace (loc - 50 - loc)%nat with 0%nat by lia. change (skipn 0 (c :: r)) with (c :: r). rewrite firstn_app, skipn_length. fold loc.
      replace (50 + 1 - (loc - (loc - 50)))%nat with 1%nat by lia. cbn [firstn]. f_equal. symmetry. apply firstn_all2. rewrite skipn_length. fold loc. lia. }
  rewrite <- ?app_assoc. reflexivity.
Qed.
Print Assumptions C113_report_partial.

(** In colour the excerpt is the bytes without the line breaks. *)
Theorem C113_shown_partial : forall l, shown true l = filter (fun c => negb (break c)) l.
Proof. induction l as [|c l IH]; [reflexivity|]. cbn [shown filter]. unfold break at 1. destruct ((c =? 10) || (c =? 13)); cbn [negb andb]; [exact IH|now rewrite IH]. Qed.
Print Assumptions C113_shown_partial.

(** Without a document or a location only the reason is given. *)
Theorem C113_reason_partial : forall colour base x t doc, reason_text x = Ok t -> (doc = None \/ x_loc x = None) ->
  to_formatted_string colour base x doc = Ok (bytes "reason: " ++ t).
Proof. intros colour base x t doc ET [->|EL]; unfold to_formatted_string; rewrite ET; cbn [bind]; [reflexivity|]. rewrite EL. now destruct doc. Qed.
Print Assumptions C113_reason_partial.

(** Refuted: an error among the first fifty bytes: the byte before the document is
    read. *)
Theorem C113_start_refuted : forall colour base r loc doc, r <> MemberNotFound -> r <> ExpectedTokenNotFound -> (loc < 50)%nat -> (loc <= length doc)%nat ->
  to_formatted_string colour base (exn_reason r (Some loc)) (Some doc) = UB.
Proof.
  intros colour base r loc doc N1 N2 G L. apply (C113_reads_partial colour base _ (reason_message r) loc); auto.
  unfold reason_text. cbn [x_reason exn_reason]. destruct r; congruence.
Qed.
Print Assumptions C113_start_refuted.

(** Refuted: an error at the end, where data is missing: the byte behind the document
    is read. *)
Theorem C113_end_refuted : forall colour base doc,
  to_formatted_string colour base (exn_reason UnexpectedEndOfData (Some (length doc))) (Some doc) = UB.
Proof. intros colour base doc. apply (C113_reads_partial colour base _ (reason_message UnexpectedEndOfData) (length doc)); auto. Qed.
Print Assumptions C113_end_refuted.

(** Refuted: the column of the first byte of a line is given as 2; find_column_number_of
    counts from zero and gives 0. *)
Definition long_line : list N := repeat 97 50.
Theorem C113_column_refuted : exists doc loc, nth_error doc (loc - 1) = Some 10 /\ find_column_number_of doc loc 0 = Ok 0 /\
  forall base, to_formatted_string false base (exn_reason InvalidNumber (Some loc)) (Some doc) =
    Ok (bytes "reason: Invalid Number " ++ [10] ++ bytes "location: near line: 2 col: 2" ++ [10; 34] ++ tl long_line ++ bytes "x" ++ [34; 10]).
Proof. exists (long_line ++ [10] ++ bytes "x"), 51%nat. split; [reflexivity|]. split; [vm_compute; reflexivity|]. intros base. vm_compute. reflexivity. Qed.
Print Assumptions C113_column_refuted.

(** Refuted: on the first line the column is the address in memory. *)
Theorem C113_first_line_refuted : exists doc loc s s', to_formatted_string false 4096 (exn_reason InvalidNumber (Some loc)) (Some doc) = Ok s /\
  to_formatted_string false 8192 (exn_reason InvalidNumber (Some loc)) (Some doc) = Ok s' /\ s <> s'.
Proof. exists (long_line ++ bytes "x"), 50%nat. do 2 eexists. split; [vm_compute; reflexivity|]. split; [vm_compute; reflexivity|discriminate]. Qed.
Print Assumptions C113_first_line_refuted.

Example C113_ex : let x := daw_json_error InvalidNumber (new_ps 60 64) in reason_text x = Ok (bytes "Invalid Number") /\ x_loc x = Some 60%nat /\
  to_formatted_string true 4096 x (Some (bytes "[" ++ long_line ++ [10] ++ bytes "1,2,""a"",x]]")) =
    Ok (bytes "reason: Invalid Number " ++ [10] ++ bytes "location: near line: 2 col: 10" ++ [10; 34; 27] ++ bytes "[1m" ++ repeat 97 41 ++ bytes "1,2,""a"",x" ++ [27] ++ bytes "[0m" ++ [34; 10]).
Proof. vm_compute. repeat split. Qed.

(** ** C114: the reason of an error as text

    Full claim: every error of the library has a text that names its reason, a missing
    member its name, a missing token the token.

    Proved for all reasons but the missing token, for which it is refuted: the library
    throws it as a bare reason, and the text reads the member of the union that was not
    written. *)
Theorem C114_text_partial : forall r p, r <> MemberNotFound -> r <> ExpectedTokenNotFound -> reason_text (daw_json_error r p) = Ok (reason_message r).
Proof. intros r p N1 N2. unfold reason_text. cbn [x_reason daw_json_error exn_reason]. destruct r; congruence. Qed.
Print Assumptions C114_text_partial.

(** Different reasons have different texts, and none is empty. *)
Definition all_reasons : list reason :=
  [UnexpectedEndOfData; InvalidNumber; InvalidNumberStart; InvalidNumberUnexpectedQuoting; InvalidTimestamp; InvalidUTFEscape; InvalidUTFCodepoint;
   InvalidEndOfValue; InvalidLiteral; InvalidString; InvalidStringHighASCII; InvalidArrayStart; InvalidClassStart; InvalidStartOfValue; InvalidTrue;
   InvalidFalse; InvalidNull; UnexpectedNull; NumberOutOfRange; EmptyJSONDocument; JSONPathNotFound; InvalidJSONPath; OutputError; MissingMemberName;
   InvalidMemberName; ExpectedArrayOrClassStart; UnknownMember; InvalidBracketing; AttemptToAccessPastEndOfValue; MissingMemberNameOrEndOfClass;
   MemberNotFound; ExpectedMemberNotFound; ExpectedTokenNotFound; TrailingComma; UnexpectedJSONVariantType; NumberIsNaN; NumberIsInf;
   ExpectedKeyValueToStartWithBrace; ExpectedKeyValueArrayToStartWithBracket; TagMemberNotFound;
   OutOfOrderOrderedMembers].

Fixpoint distinct (l : list (list N)) : bool :=
  match l with
  | [] => true
  | x :: r => forallb (fun y => if list_eq_dec N.eq_dec x y then false else true) r && distinct r
  end.

Lemma distinct_inj : forall (rs : list reason), distinct (map reason_message rs) = true -> forall r r', In r rs -> In r' rs -> reason_message r = reason_message r' -> r = r'.
Proof.
  induction rs as [|x rs IH]; intros D r r' I I' E; [contradiction|]. cbn [map distinct] in D. apply andb_prop in D as [D1 D2]. rewrite forallb_forall in D1.
  destruct I as [->|I], I' as [->|I']; auto.
  - specialize (D1 _ (in_map reason_message _ _ I')). destruct (list_eq_dec N.eq_dec (reason_message r) (reason_message r')); [discriminate|contradiction].
  - specialize (D1 _ (in_map reason_message _ _ I)). destruct (list_eq_dec N.eq_dec (reason_message r') (reason_message r)); [discriminate|congruence].
Qed.

Theorem C114_distinct_partial : forall r r', reason_message r = reason_message r' -> r = r'.
Proof.
  assert (ALL : forall r, In r all_reasons) by (intros []; vm_compute; tauto). intros r r'. apply (distinct_inj all_reasons); auto; vm_compute; reflexivity.
Qed.
Print Assumptions C114_distinct_partial.

(** A missing member: the text has its name, given that the name is ended by a zero (the
    names of mappings are). *)
Theorem C114_member_partial : forall name r p, ~ In 0 name -> hd_error name <> Some 7 ->
  reason_text (daw_json_error_member (name ++ 0 :: r) p) = Ok (bytes "Could not find required class member '" ++ name ++ bytes "'").
Proof.
  intros name r p N0 N7. unfold reason_text. cbn [x_reason x_data daw_json_error_member exn_member].
  assert (EM : missing_member (name ++ 0 :: r) = name ++ 0 :: r).
  { destruct name as [|c name]; [reflexivity|]. cbn [app]. unfold missing_member. destruct (N.eq_dec c 7) as [->|NE]; [contradiction|].
    destruct c as [|q]; [reflexivity|]. do 3 (destruct q as [q|q|]; try reflexivity); congruence. }
  rewrite EM. assert (EC : c_string (name ++ 0 :: r) = Ok name).
  { clear EM N7. induction name as [|c name IH]; [reflexivity|]. cbn [app c_string]. rewrite IH by (intros H; apply N0; now right). destruct c; [|reflexivity]. exfalso. apply N0. now left. }
  rewrite EC. reflexivity.
Qed.
Print Assumptions C114_member_partial.

(** Where the place of an error is: where the parser stands; of a missing member the
    start of its class. *)
Theorem C114_place_partial : forall r mem p, isnull p = false ->
  x_loc (daw_json_error r p) = Some (first p) /\ x_loc (daw_json_error_member mem p) = cfirst p.
Proof. intros r mem p H. unfold daw_json_error, daw_json_error_member, error_place, member_place, first_of. cbn [x_loc exn_reason exn_member]. rewrite H. split; [reflexivity|]. now destruct (cfirst p). Qed.
Print Assumptions C114_place_partial.

(** Refuted: iterating over a json_value throws the reason ExpectedTokenNotFound, whose
    text then is that of a token that was never stored. *)
Theorem C114_token_refuted : exists buf p, JValueModel.good buf p = Err ExpectedTokenNotFound /\ reason_text (daw_json_error ExpectedTokenNotFound p) = UB.
Proof. exists (bytes "x"), (new_ps 0 1). split; vm_compute; reflexivity. Qed.
Print Assumptions C114_token_refuted.

Example C114_ex : reason_text (daw_json_error_member (bytes "age" ++ [0]) (new_ps 3 9)) = Ok (bytes "Could not find required class member 'age'") /\
  reason_text (daw_json_error_token 58 (new_ps 3 9)) = Ok (bytes "Could not find expected parse token ':'") /\
  reason_text (daw_json_error TrailingComma (new_ps 3 9)) = Ok (bytes "Trailing comma").
Proof. vm_compute. repeat split. Qed.

(** ** C115: count_digits

    Full claim: count_digits passes the digits at the start of a range and stops at the
    first byte that is no digit.

    Proved for ranges in which that byte is not in the block of four that is taken when
    from four to seven bytes are left; refuted for these. *)
Fixpoint digit_prefix (l : list N) : nat :=
  match l with
  | [] => O
  | c :: r => if is_digb c then S (digit_prefix r) else O
  end.

Lemma mark_digit : forall c, c < 256 -> digit_mark c = if is_digb c then 0 else 255.
Proof.
  intros c B. unfold digit_mark, is_digb. change (2^32) with 4294967296. destruct (c <? 48) eqn:E.
  - replace ((48 <=? c) && (c <=? 57)) with false by lia. rewrite N.mod_small by lia. replace (c + 4294967296 - 48 <? 10) with false by lia. reflexivity.
  - replace (c + 4294967296 - 48) with (c - 48 + 1 * 4294967296) by lia. rewrite N.mod_add, N.mod_small by lia.
    replace ((48 <=? c) && (c <=? 57)) with (c - 48 <? 10) by lia. reflexivity.
Qed.

Lemma count_1_ok : forall l, is_bytes l -> count_1 l = digit_prefix l.
Proof.
  induction 1 as [|c l B F IH]; [reflexivity|]. cbn [count_1 digit_prefix]. rewrite IH. unfold is_digb. change (2^32) with 4294967296.
  replace (((if c <? 128 then c else c + 4294967296 - 256) + 4294967296 - 48) mod 4294967296 <? 10) with ((48 <=? c) && (c <=? 57)); [reflexivity|].
  destruct (c <? 128) eqn:E1; [destruct (c <? 48) eqn:E2|].
  - rewrite N.mod_small by lia. lia.
  - replace (c + 4294967296 - 48) with (c - 48 + 1 * 4294967296) by lia. rewrite N.mod_add, N.mod_small by lia. lia.
  - replace (c + 4294967296 - 256 + 4294967296 - 48) with (c + 4294967296 - 256 - 48 + 1 * 4294967296) by lia. rewrite N.mod_add, N.mod_small by lia. lia.
Qed.

Lemma count_8digits_ok : forall c0 c1 c2 c3 c4 c5 c6 c7, is_bytes [c0; c1; c2; c3; c4; c5; c6; c7] ->
  count_8digits c0 c1 c2 c3 c4 c5 c6 c7 =
    if forallb is_digb [c0; c1; c2; c3; c4; c5; c6; c7] then None else Some (digit_prefix [c0; c1; c2; c3; c4; c5; c6; c7]).
Proof.
  intros c0 c1 c2 c3 c4 c5 c6 c7 B. unfold count_8digits.
  unfold is_bytes in B. repeat match goal with B : Forall _ (_ :: _) |- _ => apply Forall_cons_iff in B as [? B] end.
  rewrite !mark_digit by assumption. cbn [forallb digit_prefix].
  destruct (is_digb c0), (is_digb c1), (is_digb c2), (is_digb c3), (is_digb c4), (is_digb c5), (is_digb c6), (is_digb c7); reflexivity.
Qed.

Lemma prefix_app : forall a b, forallb is_digb a = true -> digit_prefix (a ++ b) = (length a + digit_prefix b)%nat.
Proof. induction a as [|c a IH]; intros b H; [reflexivity|]. cbn [forallb] in H. apply andb_prop in H as [H1 H2]. cbn [app digit_prefix length]. rewrite H1, IH by assumption. reflexivity. Qed.

Lemma prefix_stop : forall a b, forallb is_digb a = false -> digit_prefix (a ++ b) = digit_prefix a.
Proof. induction a as [|c a IH]; intros b H; [discriminate|]. cbn [forallb] in H. cbn [app digit_prefix]. destruct (is_digb c); [|reflexivity]. rewrite IH by assumption. reflexivity. Qed.

Lemma count_4_digits : forall fuel l, is_bytes l -> forallb is_digb (firstn 4 l) = true -> (length l < 8)%nat -> (length l <= fuel)%nat -> count_4 fuel l = digit_prefix l.
Proof.
  intros [|fuel] l B D L LF; [destruct l; [reflexivity|cbn in LF; lia]|].
  destruct l as [|c0 [|c1 [|c2 [|c3 l]]]]; try (apply count_1_ok; exact B). cbn [count_4].
  unfold is_bytes in B. repeat match goal with B : Forall _ (_ :: _) |- _ => apply Forall_cons_iff in B as [? B] end.
  cbn [firstn forallb] in D. apply andb_prop in D as [D0 D]. apply andb_prop in D as [D1 D]. apply andb_prop in D as [D2 D]. apply andb_prop in D as [D3 _].
  unfold count_4digits. rewrite !mark_digit by assumption. rewrite D1, D2, D3. cbn -[count_4 digit_prefix is_digb].
  replace (count_4 fuel l) with (count_1 l).
  2:{ cbn [length] in L. destruct fuel, l as [|? [|? [|? [|? l]]]]; try reflexivity. cbn [length] in L. lia. }
  rewrite count_1_ok by exact B. cbn [digit_prefix]. rewrite D0, D1, D2, D3. reflexivity.
Qed.

(** [k] blocks of eight; of the rest at most the last three bytes may not be digits *)
Theorem C115_count_partial : forall l k, is_bytes l -> (8 * k <= length l < 8 * k + 8)%nat ->
  ((digit_prefix l < 8 * k)%nat \/ forallb is_digb (firstn 4 (skipn (8 * k) l)) = true \/ (length l < 8 * k + 4)%nat) ->
  count_digits l = digit_prefix l.
Proof.
  intros l k B L H. unfold count_digits. cut (forall fuel, (length l <= fuel)%nat -> count_8 fuel l = digit_prefix l); [intros G; apply G; lia|]. revert l B L H.
  induction k as [|k IH]; intros l B L H fuel LF.
  - assert (E8 : count_8 fuel l = count_4 (length l) l).
    { destruct fuel, l as [|? [|? [|? [|? [|? [|? [|? [|? l]]]]]]]]; try reflexivity. cbn [length] in L. lia. }
    rewrite E8. destruct H as [H|[H|H]]; [lia| |].
    + cbn [Nat.mul skipn] in H. apply count_4_digits; auto; lia.
    + assert (E4 : forall f, count_4 f l = count_1 l).
      { intros f. destruct f, l as [|? [|? [|? [|? l]]]]; try reflexivity. cbn [length] in H. lia. }
      rewrite E4. now apply count_1_ok.
  - destruct l as [|c0 [|c1 [|c2 [|c3 [|c4 [|c5 [|c6 [|c7 l]]]]]]]]; cbn [length] in L; try lia. destruct fuel as [|fuel]; [cbn [length] in LF; lia|].
    set (blk := [c0; c1; c2; c3; c4; c5; c6; c7]). change (c0 :: c1 :: c2 :: c3 :: c4 :: c5 :: c6 :: c7 :: l) with (blk ++ l) in *.
    assert (BB : is_bytes blk /\ is_bytes l) by (apply Forall_app; exact B). destruct BB as [BB BL].
    change (count_8 (S fuel) (blk ++ l)) with (match count_8digits c0 c1 c2 c3 c4 c5 c6 c7 with Some n => n | None => (8 + count_8 fuel l)%nat end).
    rewrite count_8digits_ok by exact BB. fold blk. destruct (forallb is_digb blk) eqn:F.
    + rewrite prefix_app by exact F. change (length blk) with 8%nat. f_equal. apply IH; auto; [lia| |cbn [length app blk] in LF; lia].
      rewrite prefix_app in H by exact F. change (length blk) with 8%nat in H.
      destruct H as [H|[H|H]]; [left; lia| |right; right; rewrite app_length in H; change (length blk) with 8%nat in H; lia].
      right. left. rewrite skipn_app in H. change (length blk) with 8%nat in H. rewrite skipn_all2 in H by (change (length blk) with 8%nat; lia).
      replace (8 * S k - 8)%nat with (8 * k)%nat in H by lia. exact H.
    + now rewrite prefix_stop.
Qed.
Print Assumptions C115_count_partial.

(** Refuted: of 1.25 nothing is passed, of -123 everything. *)
Theorem C115_four_refuted : (exists l, is_bytes l /\ count_digits l = 0%nat /\ digit_prefix l = 1%nat) /\
  (exists l, is_bytes l /\ count_digits l = 4%nat /\ digit_prefix l = 0%nat).
Proof. split; [exists (bytes "1.25")|exists (bytes "-123")]; (split; [repeat constructor|split; vm_compute; reflexivity]). Qed.
Print Assumptions C115_four_refuted.

Example C115_ex : count_digits (bytes "12345678901234567,1") = 17%nat /\ count_digits (bytes "1234x") = 4%nat /\ count_digits (bytes "123e") = 3%nat.
Proof. vm_compute. repeat split. Qed.
