(** C105 and C106: documents with comments (docs/cookbook/parser_policies.md:
    PolicyCommentTypes). *)
From Coq Require Import String.
From Coq Require Import List NArith ZArith Bool Lia Arith ZifyBool ZifyNat ZifyN.
From Verif Require Import Base Mem Loop PolicyModel StrScanModel SkipModel HashModel SpecNum SpecText SpecJson SpecCompact SpecUnicode ValueModel SpecTyped SpecC
  StrScanProofs NameProofs ClassProofs TypedProofs PropertiesValue PropertiesTyped CModel CTyped SkipProofs CGarbage.
Import ListNotations.
Local Open Scope N_scope.

(** ** C105 *)

(** The full claim's notion of a comment: a block ends at the first star with a
    slash behind it, and comments may stand wherever whitespace may. *)
Inductive any_comment : cpol -> list N -> Prop :=
| ac_hash : forall b, ~ In 10 b -> any_comment CHash (35 :: b ++ [10])
| ac_line : forall b, ~ In 10 b -> any_comment CCpp (47 :: 47 :: b ++ [10])
| ac_block : forall b, ~ (exists u v, b ++ [42] = u ++ 42 :: 47 :: v) -> any_comment CCpp (47 :: 42 :: b ++ [42; 47]).

Inductive commented (cp : cpol) : list N -> list N -> Prop :=
| cm_end : commented cp [] []
| cm_byte : forall c d d', c <> 34 -> c <> 92 -> opening cp c = false -> commented cp d d' -> commented cp (c :: d) (c :: d')
| cm_str : forall s d d', str_body s -> commented cp d d' -> commented cp ((34 :: s ++ [34]) ++ d) ((34 :: s ++ [34]) ++ d')
| cm_com : forall k d d', any_comment cp k -> commented cp d d' -> commented cp (k ++ d) (repeat 32 (length k) ++ d').

(** [blanked] of SpecC is a part of it. *)
Lemma comment_any : forall (cp : cpol) k n, comment cp k n -> any_comment cp k.
Proof.
  intros cp k n C. remember (Com cp) as k0 eqn:EK.
  destruct C as [b NB|b NB|b N1 N2]; injection EK as <-; constructor; auto.
  intros (u & v & E). assert (In 47 (b ++ [42])) as Y by (rewrite E; apply in_or_app; right; cbn; auto).
  apply in_app_iff in Y as [Y|[Y|[]]]; [auto|discriminate].
Qed.

Lemma blanked_commented : forall (cp : cpol) x d d', blanked cp x d d' -> commented cp d d'.
Proof.
  intros cp x d d' H. induction H as [x|x c d d' N1 N2 O H IH|x s d d' HS H IH|x k n w d d' A C W LW H IH].
  - constructor.
  - now constructor.
  - now constructor.
  - apply cm_com; [|exact IH]. exact (comment_any cp k n C).
Qed.

Lemma com_not : forall cp, cp <> CNone -> Com cp <> Com CNone.
Proof. congruence. Qed.
#[local] Hint Resolve com_not : core.

(** A document with comments is read to the value that the document with spaces
    in their place means.  Full claim: [commented] in place of [blanked]; it fails,
    below.  Partial: comments do not stand directly behind a digit or behind null,
    nor behind an opening bracket and whitespace; blocks have neither stars nor
    slashes in them and two bytes of whitespace behind them.  Further no reals,
    dates, tagged variants or sized arrays, and less than 2^32 - 1 bytes. *)
Theorem C105_comments_partial : forall g (cp : cpol) verify t v x doc doc', covered g -> cp <> CNone -> is_bytes doc -> N.of_nat (length doc) < 2^32 - 1 ->
  blanked cp Anywhere doc doc' -> document t v doc' -> typed (usable g) t v x -> from_json_c cp g verify t doc = Ok x.
Proof.
  intros g cp verify t v x doc doc' [HX HE] NC HB HL BL HD HT.
  apply (from_json_c_typed g HX HE (usable g)) with (v := v) (doc' := doc'); auto.
Qed.
Print Assumptions C105_comments_partial.

(** The comments make no difference. *)
Theorem C105_no_difference_partial : forall g (cp : cpol) verify t v x doc doc', covered g -> cp <> CNone -> is_bytes doc -> N.of_nat (length doc) < 2^32 - 1 ->
  blanked cp Anywhere doc doc' -> document t v doc' -> typed (usable g) t v x ->
  from_json_c cp g verify t doc = from_json g verify t doc'.
Proof.
  intros g cp verify t v x doc doc' HG NC HB HL BL HD HT.
  rewrite (C105_comments_partial g cp verify t v x doc doc'); auto. symmetry.
  apply (C29_parse_partial g HG verify t v x doc'); auto.
  - eapply blanked_bytes; eauto.
  - rewrite <- (blanked_length0 _ _ _ _ BL). change (2^32) with 4294967296 in *. lia.
Qed.
Print Assumptions C105_no_difference_partial.

(** A document without comments is read the same with a policy for them. *)
Theorem C105_without_partial : forall g (cp : cpol) verify t v x doc, covered g -> cp <> CNone -> is_bytes doc -> N.of_nat (length doc) < 2^32 - 1 ->
  blanked cp Anywhere doc doc -> document t v doc -> typed (usable g) t v x ->
  from_json_c cp g verify t doc = from_json g verify t doc.
Proof. intros. eapply C105_no_difference_partial; eauto. Qed.
Print Assumptions C105_without_partial.

(** A comma or a closing bracket behind the document is noticed, with comments
    before and behind it too.  Full claim: any byte that is neither whitespace nor in
    a comment is; partial like C105, and only for these bytes. *)
Theorem C105_garbage_partial : forall g (cp : cpol) t v x doc w0 tx w c rest, covered g -> cp <> CNone -> is_bytes doc -> N.of_nat (length doc) < 2^32 - 1 ->
  blanked cp Anywhere doc (w0 ++ tx ++ w ++ c :: rest) -> typed (usable g) t v x -> jtext str_body v tx ->
  ws w0 -> (trims t = false -> w0 = []) -> ws w -> c = 44 \/ c = 93 \/ c = 125 -> from_json_c cp g true t doc = Err InvalidEndOfValue.
Proof.
  intros g cp t v x doc w0 tx w c rest [HX HE] NC HB HL BL HTy HT W0 TR W HC.
  apply (from_json_c_garbage g (usable g) HX HE (fun names k H => H) cp t v x doc w0 tx w c rest); auto.
Qed.
Print Assumptions C105_garbage_partial.

(** ** It says something *)

Definition nl : string := String (Ascii.ascii_of_nat 10) EmptyString.
Definition line (s : string) : list N := doc_of (s ++ nl).

Ltac bl_b := apply bl_byte; [discriminate|discriminate|reflexivity|].
Ltac bl_s s := refine (bl_str _ _ s _ _ _ _); [repeat (apply sb_plain; [discriminate|discriminate|]); apply sb_nil|].
Ltac bl_sn := [> repeat first [apply sb_plain; [discriminate|discriminate|] | apply sb_esc]; apply sb_nil|].
Ltac bl_s1 := refine (bl_str _ _ [_] _ _ _ _); bl_sn.
Ltac bl_s2 := refine (bl_str _ _ [_; _] _ _ _ _); bl_sn.
Ltac bl_s3 := refine (bl_str _ _ [_; _; _] _ _ _ _); bl_sn.
Ltac not_in := let H := fresh in intros H; cbn in H; repeat (destruct H as [H|H]; [discriminate H|]); exact H.

(** A comment before the document and one behind it; both are needed in the
    text that [js1] stands for. *)
Definition hello : list N := line "// 'hello' {" ++ compact (JObj js1) ++ line "// bye }".
Definition hello' : list N := repeat 32 13 ++ compact (JObj js1) ++ repeat 32 9.

Lemma blanked_hello : blanked CCpp Anywhere hello hello'.
Proof.
  vm_compute.
  refine (bl_com _ _ (line "// 'hello' {") 0 [] _ _ _ (co_line (doc_of " 'hello' {") _) (Forall_nil _) eq_refl _); [reflexivity|vm_compute; not_in|]. vm_compute.
  repeat first [bl_b | bl_s (@nil N) | bl_s1 | bl_s2 | bl_s3].
  refine (bl_com _ _ (line "// bye }") 0 [] [] [] _ (co_line (doc_of " bye }") _) (Forall_nil _) eq_refl (bl_end _ _)); [reflexivity|vm_compute; not_in].
Qed.

Example C105_ex : from_json_c CCpp default_cfg true abc hello = Ok x1.
Proof.
  apply (C105_comments_partial default_cfg CCpp true abc (JObj js1) x1 hello hello'); try (apply is_bytes_of; reflexivity); try reflexivity; try discriminate.
  - covers.
  - exact blanked_hello.
  - exists (repeat 32 13), (compact (JObj js1)), (repeat 32 9), []. split; [repeat constructor|]. split; [discriminate|].
    split; [apply compact_jtext; vm_compute; legals|]. split; [repeat constructor|]. split; [now left|reflexivity].
  - exact typed1.
Qed.

(** The same with a comma behind the last comment *)
Definition tail_c : list N := hello ++ [44].
Lemma blanked_tail_c : blanked CCpp Anywhere tail_c (repeat 32 13 ++ compact (JObj js1) ++ repeat 32 9 ++ [44]).
Proof.
  vm_compute.
  refine (bl_com _ _ (line "// 'hello' {") 0 [] _ _ _ (co_line (doc_of " 'hello' {") _) (Forall_nil _) eq_refl _); [reflexivity|vm_compute; not_in|]. vm_compute.
  repeat first [bl_b | bl_s (@nil N) | bl_s1 | bl_s2 | bl_s3].
  refine (bl_com _ _ (line "// bye }") 0 [] [44] [44] _ (co_line (doc_of " bye }") _) (Forall_nil _) eq_refl _); [reflexivity|vm_compute; not_in|].
  bl_b. apply bl_end.
Qed.
Example C105_garbage_ex : from_json_c CCpp default_cfg true abc tail_c = Err InvalidEndOfValue.
Proof.
  apply (C105_garbage_partial default_cfg CCpp abc (JObj js1) x1 tail_c (repeat 32 13) (compact (JObj js1)) (repeat 32 9) 44 []);
    try (apply is_bytes_of; reflexivity); try reflexivity; try discriminate.
  - covers.
  - exact blanked_tail_c.
  - exact typed1.
  - apply compact_jtext; vm_compute; legals.
  - repeat constructor.
  - repeat constructor.
  - now left.
Qed.

Definition cppj (t : ty) (s : string) : res val := from_json_c CCpp default_cfg true t (doc_of s).
Definition hashj (t : ty) (s : string) : res val := from_json_c CHash default_cfg true t (doc_of s).
Definition ab : ty := TClass false [(bytes "a", uint)].
Definition num1 : val := VClass [VInt 1].

(** Comments in the middle, also in what is skipped, and what looks like one in a
    string *)
Definition middle : list N := doc_of "{'x':[/*(*/  true /*]*/  ,'//'],/**/  'a'/*:*/  :1 }".
Definition middle' : list N := doc_of "{'x':[       true        ,'//'],      'a'       :1 }".
Example C105_middle_ex : blanked CCpp Anywhere middle middle' /\ from_json_c CCpp default_cfg true ab middle = Ok num1 /\ from_json default_cfg true ab middle' = Ok num1.
Proof.
  split; [|split; vm_compute; reflexivity]. vm_compute.
  assert (W : ws [32; 32]) by (repeat constructor).
  bl_b. bl_s [120]. bl_b. bl_b.
  refine (bl_com _ _ (doc_of "/*(*/") 2 [32; 32] _ _ _ (co_block (doc_of "(") _ _) W eq_refl _); [reflexivity|vm_compute; not_in|vm_compute; not_in|]. vm_compute.
  do 7 bl_b.
  refine (bl_com _ _ (doc_of "/*]*/") 2 [32; 32] _ _ _ (co_block (doc_of "]") _ _) W eq_refl _); [reflexivity|vm_compute; not_in|vm_compute; not_in|]. vm_compute.
  do 3 bl_b. bl_s [47; 47]. bl_b. bl_b.
  refine (bl_com _ _ (doc_of "/**/") 2 [32; 32] _ _ _ (co_block (doc_of "") _ _) W eq_refl _); [reflexivity|vm_compute; not_in|vm_compute; not_in|]. vm_compute.
  bl_b. bl_b. bl_s [97].
  refine (bl_com _ _ (doc_of "/*:*/") 2 [32; 32] _ _ _ (co_block (doc_of ":") _ _) W eq_refl _); [reflexivity|vm_compute; not_in|vm_compute; not_in|]. vm_compute.
  repeat bl_b. apply bl_end.
Qed.

(** ** Where it fails *)

Ltac cm_b := apply cm_byte; [discriminate|discriminate|reflexivity|].
Ltac cm_s s := refine (cm_str _ s _ _ _ _); [repeat (apply sb_plain; [discriminate|discriminate|]); apply sb_nil|].
Lemma no_end : forall b, forallb (fun p => negb ((fst p =? 42) && (snd p =? 47))) (combine (b ++ [42]) (tl (b ++ [42]))) = true -> ~ (exists u v, b ++ [42] = u ++ 42 :: 47 :: v).
Proof.
  intros b H (u & v & E). rewrite E in H. clear E. induction u as [|c u IH]; [discriminate|].
  apply IH. destruct u as [|c' u]; cbn [app combine tl forallb] in *; apply andb_true_iff in H as [_ H]; exact H.
Qed.
Ltac cm_block b := refine (cm_com _ (doc_of ("/*" ++ b ++ "*/")) _ _ (ac_block (doc_of b) (no_end (doc_of b) eq_refl)) _); vm_compute.

(** Directly behind an unsigned number (a signed one is read), and behind null *)
Theorem C105_number_refuted : exists doc doc', commented CCpp doc doc' /\
  from_json default_cfg true (TArr uint) doc' = Ok (VArr [VInt 1; VInt 2]) /\ from_json_c CCpp default_cfg true (TArr uint) doc = Err InvalidEndOfValue /\
  from_json_c CCpp default_cfg true (TArr (TInt 64 true)) doc = Ok (VArr [VInt 1; VInt 2]).
Proof.
  exists (doc_of "[1/*c*/,2]"), (doc_of "[1     ,2]"). split; [|split; [|split]; vm_compute; reflexivity]. vm_compute.
  do 2 cm_b. cm_block "c"%string. repeat cm_b. apply cm_end.
Qed.
Print Assumptions C105_number_refuted.

Theorem C105_hash_number_refuted : exists doc doc', commented CHash doc doc' /\
  from_json default_cfg true (TArr uint) doc' = Ok (VArr [VInt 1; VInt 2]) /\ from_json_c CHash default_cfg true (TArr uint) doc = Err InvalidEndOfValue.
Proof.
  exists (doc_of ("[1#c" ++ nl ++ ",2]")), (doc_of "[1   ,2]"). split; [|split; vm_compute; reflexivity]. vm_compute.
  do 2 cm_b. refine (cm_com _ (line "#c") _ _ (ac_hash (doc_of "c") _) _); [vm_compute; not_in|]. vm_compute. repeat cm_b. apply cm_end.
Qed.
Print Assumptions C105_hash_number_refuted.

Theorem C105_null_refuted : exists doc doc', commented CCpp doc doc' /\
  from_json default_cfg true (TArr (TNullable uint)) doc' = Ok (VArr [VNone; VSome (VInt 2)]) /\ from_json_c CCpp default_cfg true (TArr (TNullable uint)) doc = Err InvalidLiteral.
Proof.
  exists (doc_of "[null/*c*/,2]"), (doc_of "[null     ,2]"). split; [|split; vm_compute; reflexivity]. vm_compute.
  do 5 cm_b. cm_block "c"%string. repeat cm_b. apply cm_end.
Qed.
Print Assumptions C105_null_refuted.

(** Behind an opening bracket and whitespace, or another comment and whitespace *)
Theorem C105_bracket_refuted : exists doc1 doc2 doc', commented CCpp doc1 doc' /\ commented CCpp doc2 doc' /\
  from_json default_cfg true (TArr uint) doc' = Ok (VArr [VInt 1]) /\
  from_json_c CCpp default_cfg true (TArr uint) doc1 = Err InvalidNumber /\ from_json_c CCpp default_cfg true (TArr uint) doc2 = Err InvalidNumber.
Proof.
  exists (doc_of "[       /*c*/ 1]"), (doc_of "[/*c*/  /*d*/ 1]"), (doc_of "[             1]").
  split; [|split; [|split; [|split]; vm_compute; reflexivity]]; vm_compute.
  - do 8 cm_b. cm_block "c"%string. repeat cm_b. apply cm_end.
  - do 1 cm_b. cm_block "c"%string. do 2 cm_b. cm_block "d"%string. repeat cm_b. apply cm_end.
Qed.
Print Assumptions C105_bracket_refuted.

(** In what is skipped: with less than two bytes of whitespace behind a block the
    bracket is missed, and a slash in a block ends it. *)
Theorem C105_skipped_refuted : exists doc doc', commented CCpp doc doc' /\
  from_json default_cfg true ab doc' = Ok num1 /\ from_json_c CCpp default_cfg true ab doc = Err InvalidBracketing.
Proof.
  exists (doc_of "{'x':[true /*c*/ ],'a':1}"), (doc_of "{'x':[true       ],'a':1}"). split; [|split; vm_compute; reflexivity]. vm_compute.
  do 1 cm_b. cm_s [120]. do 7 cm_b. cm_block "c"%string. do 3 cm_b. cm_s [97]. repeat cm_b. apply cm_end.
Qed.
Print Assumptions C105_skipped_refuted.

Theorem C105_slash_refuted : exists doc doc', commented CCpp doc doc' /\
  from_json default_cfg true ab doc' = Ok num1 /\ from_json_c CCpp default_cfg true ab doc = Err InvalidMemberName.
Proof.
  exists (doc_of "{'x':[true /* a/b ] */  ],'a':1}"), (doc_of "{'x':[true              ],'a':1}"). split; [|split; vm_compute; reflexivity]. vm_compute.
  do 1 cm_b. cm_s [120]. do 7 cm_b. cm_block " a/b ] "%string. do 4 cm_b. cm_s [97]. repeat cm_b. apply cm_end.
Qed.
Print Assumptions C105_slash_refuted.

(** A comment that is not closed is taken for one. *)
Theorem C105_open_refuted : from_json_c CCpp default_cfg true ab (doc_of "{'a':1} /* a" ++ [0]) = Ok num1 /\
  from_json_c CCpp default_cfg true ab (doc_of "{'a':1} /* a") = Ok num1.
Proof. split; vm_compute; reflexivity. Qed.
Print Assumptions C105_open_refuted.

(** ** C106 *)
(** Full claim: from_json with a policy for comments gives a value or an error for
    all bytes.  It does for the documents of C105. *)
Theorem C106_inside_partial : forall g (cp : cpol) verify t v x doc doc', covered g -> cp <> CNone -> is_bytes doc -> N.of_nat (length doc) < 2^32 - 1 ->
  blanked cp Anywhere doc doc' -> document t v doc' -> typed (usable g) t v x ->
  match from_json_c cp g verify t doc with Ok _ | Err _ => True | UB | Fuel => False end.
Proof. intros g cp verify t v x doc doc' HG NC HB HL BL HD HT. now rewrite (C105_comments_partial g cp verify t v x doc doc'). Qed.
Print Assumptions C106_inside_partial.

(** A slash or a hash at the end of the data, and a class that is not closed; the
    latter is an error without a policy for comments. *)
Theorem C106_refuted :
  cppj ab "/" = UB /\ hashj ab "{'a':1} #" = UB /\ hashj ab "{'a':1} # abc" = UB /\ cppj ab "{'a':1 x" = UB /\ hashj ab "{'a':1 x" = UB /\
  from_json default_cfg true ab (doc_of "{'a':1 x") = Err UnexpectedEndOfData.
Proof. repeat split; vm_compute; reflexivity. Qed.
Print Assumptions C106_refuted.

(** In arrays also with a terminating zero: the whitespace and the comments behind
    the bracket are skipped without looking at the end. *)
Theorem C106_terminated_refuted : from_json_c CHash default_cfg true (TArr uint) (doc_of "[#" ++ [0]) = UB /\
  from_json_c CCpp default_cfg true (TArr uint) (doc_of "[//" ++ [0]) = UB /\ from_json_c CCpp default_cfg true (TArr uint) (doc_of "[/*" ++ [0]) = UB /\
  from_json default_cfg true (TArr uint) (doc_of "[" ++ [0]) = Err UnexpectedEndOfData.
Proof. repeat split; vm_compute; reflexivity. Qed.
Print Assumptions C106_terminated_refuted.
