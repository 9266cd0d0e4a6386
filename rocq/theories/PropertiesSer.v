(** Properties C29, C30, C31, C59, C60, C61: serialisation. *)
From Coq Require Import String.
From Coq Require Import List NArith ZArith Bool Lia Arith ZifyBool ZifyNat ZifyN.
From Verif Require Import Base Mem Loop SpecNum SpecText SpecJson SpecCompact SpecTokens SpecUnicode StrEncodeProofs PropertiesStrOut ValueModel SpecTyped
  TypedProofs SerModel SpecSer SerProofs SerProofs2 OrderedProofs PropertiesTyped.
Import ListNotations.
Local Open Scope N_scope.

(** ** C31 *)
(** Any value of any type of the model, any layout and any string options:
    serialisation succeeds and the output is JSON as RFC 8259 has it, namely a
    text of a value that stands for [x].  Partial: reals, dates, variants, custom
    and raw types, classes written as arrays (below) and names that need escapes
    (refuted below) are not covered. *)
Theorem C31_well_formed_partial : forall o t x, o_trailing o = false -> layout o -> belongs t x ->
  exists v out, to_json o t x = Ok out /\ jtext rfc_body v out /\ (forall g, typed (usable g) t v x) /\ is_bytes out.
Proof.
  intros o t x HT HL HB. destruct (to_json_good o HT HL t 0 x HB) as (out & E & G1 & G2 & _).
  exists (tree (o_errutf8 o) (o_7bit o) t x), out. split; [exact E|]. split; [exact G1|]. split; [|exact G2]. intros g. now apply typed_tree.
Qed.
Print Assumptions C31_well_formed_partial.

(** All indentations and line ends are layouts. *)
Lemma layouts : forall ind nl pretty tc b7 ei, In ind indents -> nl = [10] \/ nl = [13; 10] -> layout (mksopt pretty ind nl tc b7 ei).
Proof.
  assert (W : forall l, forallb (fun c => (c =? 32) || (c =? 9) || (c =? 10) || (c =? 13)) l = true -> ws l).
  { intros l H. unfold ws. apply Forall_forall. rewrite forallb_forall in H. intros c Hc. specialize (H c Hc). unfold json_ws. lia. }
  intros ind nl pretty tc b7 ei HI HN. split; cbn [o_indent o_newline]; apply W.
  - cbn in HI. repeat (destruct HI as [<-|HI]; [reflexivity|]). contradiction.
  - destruct HN as [-> | ->]; reflexivity.
Qed.

(** Names are written as they are: a quote in a name ends it. *)
Definition quote_class : ty := TClass false [([97; 34; 98], TBool)].
Theorem C31_name_refuted :
  to_json minified quote_class (VClass [VBool true]) = Ok (doc_of "{'a'b':true}") /\
  forall v, ~ jtext rfc_body v (doc_of "{'a'b':true}").
Proof. split; [vm_compute; reflexivity|]. apply not_json. vm_compute. reflexivity. Qed.
Print Assumptions C31_name_refuted.

(** *** Classes written as arrays *)
(** Members with indices: null is written for the positions in between.  Partial:
    only if no member but the last has an index at or after the number of members
    minus one; without it the output is not JSON (refuted below). *)
Theorem C31_ordered_partial : forall o lvl (ms : list (option nat * ty)) xs, o_trailing o = false -> layout o ->
  Forall2 (fun m x => belongs (snd m) x) ms xs -> no_gap_inside (length ms) 0 (map fst ms) ->
  exists vs out, serialize_ordered_json_class o lvl (map (fun m => (fst m, to_json_string o (snd m) (S lvl))) ms) xs = Ok out /\
    Forall2 (fun mx v => forall g, typed (usable g) (snd (fst mx)) v (snd mx)) (combine ms xs) vs /\
    jtext rfc_body (JArr (placed 0 (map fst ms) vs)) out.
Proof.
  intros o lvl ms xs HT HL HF HG. set (vs := map (fun mx => tree (o_errutf8 o) (o_7bit o) (snd (fst mx)) (snd mx)) (combine ms xs)).
  assert (LE : length ms = length xs) by (clear HG; induction HF; cbn [length]; auto).
  destruct (ordered_out o HT HL lvl (map (fun m => (fst m, to_json_string o (snd m) (S lvl))) ms) xs vs) as (out & E & G).
  - unfold vs. clear HG LE vs. induction HF as [|m x ms xs HB HF IH]; cbn [map combine]; constructor; auto. cbn [fst snd]. apply to_json_good; auto.
  - unfold vs. rewrite map_length, combine_length. lia.
  - rewrite map_length. lia.
  - rewrite map_length, map_map. cbn [fst]. exact HG.
  - exists vs, out. split; [exact E|]. split.
    + unfold vs. clear HG E G vs LE. induction HF as [|m x ms xs HB HF IH]; cbn [map combine]; constructor; auto. cbn [fst snd]. intros g. now apply typed_tree.
    + destruct G as (G & _). rewrite map_map in G. cbn [fst] in G. exact G.
Qed.
Print Assumptions C31_ordered_partial.

(** Three members at the indices 2, 3 and 4: there is no comma between them. *)
Definition shifted : list (option nat * (val -> res (list N))) :=
  map (fun k => (Some k, to_json_string minified TStr 1)) [2; 3; 4]%nat.
Theorem C31_ordered_refuted :
  serialize_ordered_json_class minified 0 shifted [VStr (bytes "a"); VStr (bytes "b"); VStr (bytes "c")] = Ok (doc_of "[null,null,'a''b''c']") /\
  (forall v, ~ jtext rfc_body v (doc_of "[null,null,'a''b''c']")).
Proof. split; [vm_compute; reflexivity|]. apply not_json. vm_compute. reflexivity. Qed.
Print Assumptions C31_ordered_refuted.

Example C31_ordered_ex : no_gap_inside 3 0 [None; Some 1%nat; Some 5%nat] /\
  serialize_ordered_json_class minified 0 (map (fun k => (k, to_json_string minified TBool 1)) [None; Some 1; Some 5]%nat) [VBool true; VBool false; VBool true]
    = Ok (doc_of "[true,false,null,null,null,true]").
Proof. split; [cbn; lia|vm_compute; reflexivity]. Qed.

(** ** C30 *)
(** Whatever the layout, the output is a text of the value whose text without
    whitespace is the minified output: numbers and strings are the same, only
    whitespace between the tokens differs. *)
Theorem C30_layout_only_partial : forall o o' t x, o_trailing o = false -> layout o -> o_trailing o' = false -> layout o' ->
  o_7bit o' = o_7bit o -> o_errutf8 o' = o_errutf8 o -> o_pretty o' = false -> belongs t x ->
  exists v out, to_json o t x = Ok out /\ jtext rfc_body v out /\ to_json o' t x = Ok (compact v).
Proof.
  intros o o' t x HT HL HT' HL' H7 HE HM HB. destruct (to_json_good o HT HL t 0 x HB) as (out & E & G1 & _).
  destruct (to_json_good o' HT' HL' t 0 x HB) as (out2 & E2 & _ & _ & G2).
  exists (tree (o_errutf8 o) (o_7bit o) t x), out. split; [exact E|]. split; [exact G1|].
  rewrite <- H7, <- HE, <- (G2 HM). exact E2.
Qed.
Print Assumptions C30_layout_only_partial.

(** ** C29 *)
(** What was written is read back, for every type of the model, any layout, any
    string options, any configuration of the parser covered by C29_parse_partial.
    Partial for the reasons given there and at [belongs], and only for documents
    below 4 GiB. *)
Theorem C29_round_trip_partial : forall g verify o t x out, covered g -> o_trailing o = false -> layout o -> belongs t x ->
  to_json o t x = Ok out -> N.of_nat (length out) < 2^32 -> from_json g verify t out = Ok x.
Proof.
  intros g verify o t x out HG HT HL HB E H32. destruct (to_json_good o HT HL t 0 x HB) as (out' & E' & G1 & G2 & _).
  unfold to_json in E. assert (out' = out) by congruence. subst out'.
  apply (C29_parse_partial g HG verify t (tree (o_errutf8 o) (o_7bit o) t x) x out); auto; [|now apply typed_tree].
  exists [], out, [], []. split; [constructor|]. split; [reflexivity|]. split; [|split; [constructor|split; [now left|now rewrite app_nil_r]]].
  eapply (proj1 (jtext_weaken rfc_body str_body rfc_str_body)); eauto.
Qed.
Print Assumptions C29_round_trip_partial.

(** It does not hold for the lowest 32 bit integer (the negation overflows, C04)
    and for nested optionals. *)
Theorem C29_lowest_refuted :
  to_json minified (TArr (TInt 32 true)) (VArr [VInt (-2147483648)]) = Ok (bytes "[-2147483648]") /\
  from_json default_cfg true (TArr (TInt 32 true)) (bytes "[-2147483648]") = UB.
Proof. split; vm_compute; reflexivity. Qed.
Print Assumptions C29_lowest_refuted.

Theorem C29_nested_optional_refuted :
  to_json minified (TArr (TNullable (TNullable TBool))) (VArr [VSome VNone]) = Ok (bytes "[null]") /\
  from_json default_cfg true (TArr (TNullable (TNullable TBool))) (bytes "[null]") = Ok (VArr [VNone]).
Proof. split; vm_compute; reflexivity. Qed.
Print Assumptions C29_nested_optional_refuted.

(** ** C59 *)
(** A NullVisible member without value is left out like any other. *)
Theorem C59_refuted : exists ms xs, map wm_null ms = [NullVisible] /\ xs = [VNone] /\
  serialize_json_class minified 0 ms xs = Ok (bytes "{}").
Proof.
  exists [mkwm (bytes "a") NullVisible (to_json_string minified (TNullable TBool) 1)], [VNone].
  split; [reflexivity|]. split; vm_compute; reflexivity.
Qed.
Print Assumptions C59_refuted.

(** Optional members: whether a member is written depends only on its value; any
    writers, names and layout. *)
Theorem C59_written_partial : forall o pre is_first visited m ms x xs out,
  ~ In (wm_name m) visited -> (wm_null m = NotNullable \/ x <> VNone) ->
  class_members o pre is_first visited (m :: ms) (x :: xs) = Ok out ->
  exists t rest, wm_write m x = Ok t /\
    out = (if is_first then [] else [44]) ++ pre ++ 34 :: wm_name m ++ [34; 58] ++ space o ++ t ++ rest.
Proof.
  intros o pre is_first visited m ms x xs out HV HN E. cbn [class_members] in E. rewrite visited_no in E by exact HV.
  replace (match wm_null m with NotNullable => false | _ => negb (has_value x) end) with false in E.
  - destruct (wm_write m x) as [t| | |]; cbn [bind] in E; try discriminate.
    destruct (class_members o pre false (visited ++ [wm_name m]) ms xs) as [rest| | |]; cbn [bind] in E; try discriminate.
    injection E as <-. exists t, rest. auto.
  - destruct HN as [-> |HN]; [reflexivity|]. destruct (wm_null m), x; try reflexivity; congruence.
Qed.
Print Assumptions C59_written_partial.

(** ** C60 *)
(** Member names are not restricted to 7 bits. *)
Definition seven_bits : sopt := mksopt false [] [10] false true false.
Theorem C60_refuted : exists t x out c, to_json seven_bits t x = Ok out /\ In c out /\ 128 <= c.
Proof.
  exists (TClass false [([195; 169], TBool)]), (VClass [VBool true]), ([123; 34; 195; 169; 34; 58; 116; 114; 117; 101; 125]), 195.
  split; [vm_compute; reflexivity|]. split; [cbn; tauto|lia].
Qed.
Print Assumptions C60_refuted.

(** With 7 bit names it holds.  [names7 t]: all member names in [t] are 7 bit.
    The text of custom types is copied as it is, so those that are strings are
    left out. *)
Definition low (b : list N) : Prop := Forall (fun c => c < 128) b.
Fixpoint names7 (t : ty) : Prop :=
  match t with
  | TNullable t | TArr t | TMap t => names7 t
  | TClass _ mm => (fix members (mm : list (list N * ty)) : Prop := match mm with [] => True | (nm, t) :: r => low nm /\ names7 t /\ members r end) mm
  | TTuple _ ts => (fix elements (ts : list ty) : Prop := match ts with [] => True | t :: r => names7 t /\ elements r end) ts
  | TKvArr _ kn tk vn tv => low kn /\ low vn /\ names7 tk /\ names7 tv
  | TCustom k => k = CuLiteral
  | TVariant ts | TIntrusive _ _ _ _ ts => (fix elements (ts : list ty) : Prop := match ts with [] => True | t :: r => names7 t /\ elements r end) ts
  | _ => True
  end.

Lemma low_app : forall a b, low a -> low b -> low (a ++ b).
Proof. intros. now apply Forall_app. Qed.
Lemma low_cons : forall c a, c < 128 -> low a -> low (c :: a).
Proof. intros. now constructor. Qed.
Lemma low_ws : forall w, ws w -> low w.
Proof. intros w H. unfold ws, low in *. eapply Forall_impl; [|exact H]. unfold json_ws. intros a Ha. lia. Qed.
Lemma low_num : forall n, jnum n -> low n.
Proof. intros n H. apply jnum_chars in H as [H _]. unfold low. eapply Forall_impl; [|exact H]. unfold numc. intros a Ha. lia. Qed.

Lemma jtext_low : (forall v t, jtext rfc_body v t -> legal low v -> low t) /\
  (forall es t, jelems rfc_body es t -> legal low (JArr es) -> low t) /\
  (forall ms t, jmembers rfc_body ms t -> legal low (JObj ms) -> low t).
Proof.
  assert (Q : forall k, low k -> low (34 :: k ++ [34])) by (intros k H; apply low_cons; [lia|]; apply low_app; auto; apply low_cons; [lia|constructor]).
  apply jtext_ind3; intros.
  1-3: repeat (apply low_cons; [lia|]); constructor.
  - now apply low_num.
  - now apply Q.
  - apply low_cons; [lia|]. apply low_app; [now apply low_ws|apply low_cons; [lia|constructor]].
  - apply low_cons; [lia|]. apply low_app; [auto|apply low_cons; [lia|constructor]].
  - apply low_cons; [lia|]. apply low_app; [now apply low_ws|apply low_cons; [lia|constructor]].
  - apply low_cons; [lia|]. apply low_app; [auto|apply low_cons; [lia|constructor]].
  - cbn [legal] in *. apply low_app; [now apply low_ws|]. apply low_app; [|now apply low_ws]. tauto.
  - cbn [legal] in *. apply low_app; [now apply low_ws|]. apply low_app; [tauto|]. apply low_app; [now apply low_ws|]. apply low_cons; [lia|]. tauto.
  - cbn [legal] in *. apply low_app; [now apply low_ws|]. apply low_app; [apply Q; tauto|]. apply low_app; [now apply low_ws|]. apply low_cons; [lia|].
    apply low_app; [now apply low_ws|]. apply low_app; [tauto|now apply low_ws].
  - cbn [legal] in *. apply low_app; [now apply low_ws|]. apply low_app; [apply Q; tauto|]. apply low_app; [now apply low_ws|]. apply low_cons; [lia|].
    apply low_app; [now apply low_ws|]. apply low_app; [tauto|]. apply low_app; [now apply low_ws|]. apply low_cons; [lia|]. tauto.
Qed.

Lemma unicode_low : forall ei s, unicode s -> low (text_of (StrEncodeModel.copy_escaped ei true s)).
Proof.
  intros ei s (cps & F & ->). destruct (C11_output_legal ei true cps F) as (t & E & _ & _ & L).
  unfold StrEncodeModel.write_string_escaped in E. destruct (StrEncodeModel.copy_escaped ei true (encode cps)) as [t'| | |]; cbn [bind] in E; try discriminate.
  injection E as E. apply app_inj_tail in E as [-> _]. cbn [text_of]. unfold low. eapply Forall_impl; [|exact (L eq_refl)]. cbn. intros a Ha. lia.
Qed.

Lemma names7_in : forall ts t, (fix elements (ts : list ty) : Prop := match ts with [] => True | t :: r => names7 t /\ elements r end) ts -> In t ts -> names7 t.
Proof. induction ts as [|t' ts IH]; intros t H I; [contradiction|]. destruct H as [H1 H2]. destruct I as [<-|I]; auto. Qed.

Lemma tree_low : forall ei t x, names7 t -> belongs t x -> legal low (tree ei true t x).
Proof.
  intros ei. fix IH 1. intros t x HN HB. destruct t as [w rc|w rc| | |t|t|t|ex mm|ex ts|ex kn tk vn tv|k|alts|ex tag t switch alts].
  - destruct HB as (HW & z & -> & HZ). cbn [tree legal]. destruct (IntSerProofs.unsigned_out IntModel.LSNever w (Z.to_N z) HW (width_Z w z HW HZ)) as (tx & HC & _ & ->).
    cbn [text_of IntSerModel.quote_if app]. rewrite app_nil_r. now apply jnum_int.
  - destruct HB as (HW & z & -> & HZ & _). cbn [tree legal]. destruct (IntSerProofs.signed_out IntModel.LSNever w z HW HZ) as (tx & HC & ->).
    cbn [text_of IntSerModel.quote_if app]. rewrite app_nil_r. now apply (canonical_int_jnum z).
  - destruct HB as (b & ->). now destruct b.
  - destruct HB as (s & -> & HU). cbn [tree legal]. now apply unicode_low.
  - destruct HB as (_ & [->|(y & -> & HY)]); cbn [tree legal]; [exact I|]. apply IH; auto.
  - destruct HB as (xs & -> & HF). cbn [tree legal]. induction HF; cbn [map]; [exact I|]. split; [apply IH; auto|assumption].
  - destruct HB as (kxs & -> & HF). cbn [tree legal]. induction HF as [|[k x] kxs [HK HX] HF IHF]; cbn [map]; [exact I|]. cbn [fst snd] in *.
    split; [now apply unicode_low|]. split; [apply IH; auto|assumption].
  - cbn [belongs] in HB. destruct HB as (_ & _ & xs & -> & HM). change (legal low (JObj (members_tree ei true mm xs))).
    revert xs HM. induction mm as [|[nm t] mm IHm]; intros xs HM; destruct xs as [|y xs]; try contradiction; [exact I|].
    cbn [names7] in HN. destruct HN as (H1 & H2 & H3). destruct HM as [HY HM]. specialize (IH t y H2 HY). cbn [members_tree].
    destruct (is_nullable t && negb (has_value y)); [now apply IHm|]. cbn [legal]. split; [exact H1|]. split; [exact IH|]. apply (IHm H3 xs HM).
  - cbn [belongs] in HB. destruct HB as (xs & -> & HM). change (legal low (JArr (elements_tree ei true ts xs))).
    revert xs HM. induction ts as [|t ts IHt]; intros xs HM; destruct xs as [|y xs]; try contradiction; [exact I|].
    cbn [names7] in HN. destruct HN as (H1 & H2). destruct HM as [HY HM]. specialize (IH t y H1 HY). cbn [elements_tree legal].
    split; [exact IH|]. apply (IHt H2 xs HM).
  - cbn [belongs names7] in *. destruct HB as (_ & _ & _ & xs & -> & _ & HF). destruct HN as (N1 & N2 & N3 & N4). cbn [tree legal].
    induction HF as [|y xs (a & b & -> & HA & HB) HF IHF]; cbn [map]; [exact I|]. split; [|exact IHF].
    cbn [legal]. split; [exact N1|]. split; [now apply IH|]. split; [exact N2|]. split; [now apply IH|exact I].
  - cbn [belongs names7] in *. subst k. destruct HB as (s & -> & HS). cbn [tree].
    destruct (list_eq_dec N.eq_dec s [116; 114; 117; 101]); [exact I|]. destruct (list_eq_dec N.eq_dec s [102; 97; 108; 115; 101]); [exact I|].
    cbn [legal]. destruct HS as [HS|[HS|HS]]; [exact HS|congruence|congruence].
  - cbn [belongs names7] in *. destruct HB as (i & y & -> & NY & H). destruct (pick_meant ei true y NY alts i H) as (t & _ & IN & A & B & C & P).
    cbn [tree]. rewrite P. pose proof (names7_in alts t HN IN) as NT. clear C P H HN.
    induction alts as [|t' alts IHa]; [contradiction|]. destruct IN as [<-|IN]; [now apply IH|now apply IHa].
  - cbn [belongs names7] in *. destruct HB as (i & z & -> & H). destruct (pick_class ei true ex tag t switch i z alts i H) as (t' & E & IN & B & C & P).
    cbn [tree]. rewrite P. pose proof (names7_in alts t' HN IN) as NT. clear C P H HN E.
    induction alts as [|t0 alts IHa]; [contradiction|]. destruct IN as [<-|IN]; [now apply IH|now apply IHa].
Qed.

Theorem C60_seven_bits_partial : forall o t x out, o_7bit o = true -> o_trailing o = false -> layout o -> names7 t -> belongs t x ->
  to_json o t x = Ok out -> Forall (fun c => c < 128) out.
Proof.
  intros o t x out H7 HT HL HN HB E. destruct (to_json_good o HT HL t 0 x HB) as (out' & E' & G1 & _).
  unfold to_json in E. assert (out' = out) by congruence. subst out'. apply (proj1 jtext_low) with (v := tree (o_errutf8 o) (o_7bit o) t x); auto.
  rewrite H7. now apply tree_low.
Qed.
Print Assumptions C60_seven_bits_partial.

Example C60_ex : to_json seven_bits (TArr TStr) (VArr [VStr (encode [233; 128512])]) = Ok (doc_of "['\u00E9\uD83D\uDE00']").
Proof. vm_compute. reflexivity. Qed.

(** ** C61 *)
(** A class whose members are all absent gets a comma without a member. *)
Definition trailing_commas : sopt := mksopt false [] [10] true false false.
Theorem C61_refuted : to_json trailing_commas (TClass false [(bytes "a", TNullable TBool)]) (VClass [VNone]) = Ok (bytes "{,}").
Proof. vm_compute. reflexivity. Qed.
Print Assumptions C61_refuted.

Example C61_ex :
  to_json trailing_commas ab (VClass [VInt 1; VInt 2]) = Ok (doc_of "{'a':1,'b':2,}") /\
  from_json default_cfg true ab (doc_of "{'a':1,'b':2,}") = Ok (VClass [VInt 1; VInt 2]) /\
  to_json trailing_commas (TArr TBool) (VArr [VBool true]) = Ok (bytes "[true,]") /\
  from_json default_cfg true (TArr TBool) (bytes "[true,]") = Ok (VArr [VBool true]) /\
  to_json trailing_commas (TArr TBool) (VArr []) = Ok (bytes "[]").
Proof. repeat split; vm_compute; reflexivity. Qed.

(** ** The theorems say something *)
Definition pretty2 : sopt := mksopt true [32; 32] [10] false false false.
Definition everything : ty := TClass false
  [(bytes "a", TNullable uint); (bytes "b", TArr (TNullable (TInt 16 false))); (bytes "c", TMap TStr);
   (bytes "d", TTuple true [TBool; TClass false []]); (bytes "e", TNullable (TArr TBool))].
Definition some_value : val := VClass
  [VNone; VArr [VSome (VInt (-7)); VNone]; VMap [([34], VStr (encode [10; 233]))]; VTuple [VBool false; VClass []]; VSome (VArr [])].
Lemma unicode_ascii : forall s, forallb (fun c => c <? 128) s = true -> unicode s.
Proof.
  intros s H. exists s. rewrite forallb_forall in H. split.
  - apply Forall_forall. intros c Hc. specialize (H c Hc). unfold scalar. lia.
  - unfold encode. induction s as [|c s IH]; [reflexivity|]. cbn [map concat].
    assert (E : utf8 c = [c]) by (unfold utf8; specialize (H c (or_introl eq_refl)); replace (c <? 128) with true by lia; reflexivity).
    rewrite E. cbn [app]. f_equal. apply IH. intros d Hd. apply H. now right.
Qed.
Lemma belongs_everything : belongs everything some_value.
Proof.
  cbn. split; [|split].
  - repeat (constructor; [cbn; intros H; repeat (destruct H as [H|H]; [discriminate|]); contradiction|]). constructor.
  - repeat (constructor; [apply Forall_forall; intros c Hc; cbn in Hc; repeat (destruct Hc as [<-|Hc]; [lia|]); contradiction|]). constructor.
  - eexists. split; [reflexivity|]. split; [auto|]. split; [|split; [|split; [|split; [|exact I]]]].
    + eexists. split; [reflexivity|]. constructor; [|constructor; [|constructor]].
      * split; [reflexivity|]. right. exists (VInt (-7)). split; [reflexivity|]. split; [unfold int_size; auto|].
        exists (-7)%Z. split; [reflexivity|]. split; [vm_compute; split; [discriminate|reflexivity]|]. intros [H _]. discriminate.
      * split; [reflexivity|]. now left.
    + eexists. split; [reflexivity|]. constructor; [|constructor]. cbn [fst snd]. split; [now apply unicode_ascii|].
      eexists. split; [reflexivity|]. exists [10; 233]. split; [|reflexivity]. repeat constructor; unfold scalar; lia.
    + eexists. split; [reflexivity|]. split; [eauto|]. split; [|exact I]. split; [constructor|]. split; [constructor|]. exists []. split; [reflexivity|exact I].
    + split; [reflexivity|]. right. eexists. split; [reflexivity|]. eexists. split; [reflexivity|constructor].
Qed.

Example C29_ex : exists out, to_json pretty2 everything some_value = Ok out /\ from_json default_cfg true everything out = Ok some_value.
Proof.
  destruct (C31_well_formed_partial pretty2 everything some_value) as (v & out & E & _); [reflexivity|apply layouts; cbn; auto 10|exact belongs_everything|].
  exists out. split; [exact E|]. apply (C29_round_trip_partial default_cfg true pretty2 everything some_value out); auto.
  - split; reflexivity.
  - apply layouts; cbn; auto 10.
  - exact belongs_everything.
  - assert (X : to_json pretty2 everything some_value = Ok out) by exact E. vm_compute in X. injection X as <-. reflexivity.
Qed.
