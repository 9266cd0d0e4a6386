(** C112: a JSON document is read to what it means, or refused. *)
From Coq Require Import String.
From Coq Require Import List NArith ZArith Bool Lia Arith ZifyBool ZifyNat ZifyN.
From Verif Require Import Base Mem PolicyModel IntModel StrScanModel SpecNum SpecText SpecJson SpecUnicode SpecCompact SpecTyped ValueModel TypedProofs PropertiesTyped SpecTokens UniqueProofs SpecLax LaxProofs PropertiesSkip PropertiesLax SpecMeans MeansProofs ClassMeans Dec.
Import ListNotations.
Local Open Scope N_scope.

(** Full claim: whatever JSON document is read successfully, at any type, gives what
    its value means at the type, and numbers that do not fit are refused.
    Partial: the types of C111; numbers that do not fit (below). *)
Theorem C112_means_partial : forall g verify t doc x v tx u w, c_ex g = ExConstexpr -> lax_type t = true -> is_bytes doc -> N.of_nat (length doc) < 2^32 ->
  jtext str_body v tx -> ws u -> ws w -> doc = u ++ tx ++ w -> from_json g verify t doc = Ok x -> means t v x.
Proof.
  intros g verify t doc x v tx u w HG HT HB H32 T U W ED E. apply C111_start_partial in E as (ty & r & z & EZ & HZ & LX); auto.
  assert (z = []) as ->.
  { destruct HZ as [->| ->]; [reflexivity|]. exfalso. rewrite ED in EZ. rewrite (app_assoc ty) in EZ.
    destruct w as [|b w _] using rev_ind.
    - destruct (text_end _ _ _ T) as (y & c & -> & C & _). rewrite app_nil_r, app_assoc in EZ. apply app_inj_tail in EZ as [_ ->]. lia.
    - rewrite !app_assoc in EZ. apply app_inj_tail in EZ as [_ ->]. apply Forall_app in W as [_ W]. apply Forall_inv in W. unfold json_ws in W. lia. }
  rewrite app_nil_r in EZ. rewrite ED in EZ. symmetry in EZ.
  destruct (proj1 lax_means t x ty r LX v tx w u U T) as (M & _); [|exact EZ|exact M].
  destruct W; [exact I|]. now left.
Qed.
Print Assumptions C112_means_partial.

(** ** What follows *)

(** An array type reads arrays only, a map type objects only, text strings only, ... *)
Theorem C112_kind_partial : forall g verify t doc x v tx u w, c_ex g = ExConstexpr -> lax_type t = true -> is_bytes doc -> N.of_nat (length doc) < 2^32 ->
  jtext str_body v tx -> ws u -> ws w -> doc = u ++ tx ++ w -> from_json g verify t doc = Ok x ->
  match t, v with
  | (TUInt _ _ | TInt _ _), JNum _ | TBool, (JTrue | JFalse) | TStr, JStr _ | TNullable _, _ | TArr _, JArr _ | TTuple _ _, JArr _ | (TMap _ | TClass _ _), JObj _ => True
  | _, _ => False
  end.
Proof. intros. assert (M : means t v x) by (apply (C112_means_partial g verify t doc x v tx u w); assumption). destruct M; exact I. Qed.
Print Assumptions C112_kind_partial.

(** As many elements as the array has, as many members as the object has *)
Theorem C112_count_partial : forall g verify t doc x v tx u w, c_ex g = ExConstexpr -> lax_type t = true -> is_bytes doc -> N.of_nat (length doc) < 2^32 ->
  jtext str_body v tx -> ws u -> ws w -> doc = u ++ tx ++ w -> from_json g verify t doc = Ok x ->
  match v, x with
  | JArr vs, VArr xs => length xs = length vs
  | JArr vs, VTuple xs => (length vs <= length xs)%nat
  | JObj ms, VMap kxs => length kxs = length ms
  | _, _ => True
  end.
Proof.
  intros. assert (M : means t v x) by (apply (C112_means_partial g verify t doc x v tx u w); assumption). destruct M as [| | | | | |? v ? NV ?|? ? ? M|? ? ? M|? ? ? M|]; try exact I.
  - destruct v; exact I.
  - clear - M. induction M; cbn; congruence.
  - clear - M. induction M; cbn; congruence.
  - clear - M. induction M; cbn; lia.
Qed.
Print Assumptions C112_count_partial.

Example C112_ex : let t := TMap (TArr (TTuple true [uint; TNullable TStr])) in
  from_json default_cfg true t (doc_of "{'a': [[1],[2, 'x'] ]}") =
    Ok (VMap [([97], VArr [VTuple [VInt 1; VNone]; VTuple [VInt 2; VSome (VStr [120])]])]) /\
  lax_type t = true /\ c_ex default_cfg = ExConstexpr /\
  from_json default_cfg true t (doc_of "{'a': [[1, null, 3]]}") <> Ok (VMap []) /\
  (exists e, from_json default_cfg true t (doc_of "{'a': [[1, null, 3]]}") = Err e) /\
  (exists e, from_json default_cfg true t (doc_of "[]") = Err e).
Proof. repeat split; try (vm_compute; reflexivity); try (vm_compute; discriminate); eexists; vm_compute; reflexivity. Qed.

(** ** Classes

    A document that is read as a class, or as arrays, maps, optional values and
    classes of classes, is read to what its value means: every member has what the
    member of its name means, wherever it is, and is left out only if it is optional.

    Partial: the objects are [tidy]: mapped names are not repeated, the names are told
    apart by their hashes and, if all members have to be mapped, are mapped.  A member
    that is there before one that is mapped earlier has to be of the mapped type
    already (C73: what these are read to is not checked); all the others are anything. *)
Theorem C112_class_partial : forall g, covered g -> forall verify t v x doc, class_type t = true -> is_bytes doc -> N.of_nat (length doc) < 2^32 ->
  document t v doc -> tidy (usable g) t v -> from_json g verify t doc = Ok x -> means t v x.
Proof. intros g [HX HE] verify t v x doc HC HB H32 D TD E. apply (from_json_means g HX HE (usable g) (fun _ _ H => H) verify t v x doc); assumption. Qed.
Print Assumptions C112_class_partial.

(** Of a class, member by member *)
Theorem C112_member_partial : forall g, covered g -> forall verify exact ms v x doc, class_type (TClass exact ms) = true -> is_bytes doc -> N.of_nat (length doc) < 2^32 ->
  document (TClass exact ms) v doc -> tidy (usable g) (TClass exact ms) v -> from_json g verify (TClass exact ms) doc = Ok x ->
  exists js xs, v = JObj js /\ x = VClass xs /\ length xs = length ms /\
    forall i nm t, nth_error ms i = Some (nm, t) -> exists y, nth_error xs i = Some y /\
      ((exists v', lookup nm js = Some v' /\ means t v' y) \/ lookup nm js = None /\ is_nullable t = true /\ y = VNone).
Proof.
  intros g HG verify exact ms v x doc HC HB H32 D TD E. pose proof (C112_class_partial g HG verify _ v x doc HC HB H32 D TD E) as M. clear - M.
  remember (TClass exact ms) as t eqn:ET. destruct M; try discriminate. injection ET as -> ->. exists js, xs. split; [reflexivity|]. split; [reflexivity|]. rename H into M.
  induction M as [|n t ms js v x xs L M Ms [IHl IH]|n t ms js xs L Ms [IHl IH]]; (split; [cbn [length]; congruence|]); intros [|i] nm ty EN; try discriminate EN; cbn [nth_error] in *; eauto.
  - injection EN as <- <-. eauto 8.
  - injection EN as <- <-. exists VNone. split; [reflexivity|]. right. auto.
Qed.
Print Assumptions C112_member_partial.

(** Two objects, the members of the first in another order; the second has a member
    that is not mapped.  With [true] in place of the first number the document is not
    read. *)
Definition pair_ty := TClass false [(bytes "a", uint); (bytes "b", TStr)].
Definition pairs (v : jv) := JArr [JObj [(bytes "b", JStr (bytes "x")); (bytes "a", v)]; JObj [(bytes "c", JArr []); (bytes "a", num "7"); (bytes "b", JStr (bytes "x"))]].

Lemma pairs_tidy : forall v, tidy (usable default_cfg) (TArr pair_ty) (pairs v).
Proof.
  intros v. assert (ND : NoDup (map fst [(bytes "a", uint); (bytes "b", TStr)])) by (vm_compute; repeat constructor; cbn; intuition discriminate).
  cbn [tidy pair_ty pairs]. apply Forall_cons; [|apply Forall_cons; [|apply Forall_nil]]; (split; [exact ND|]); (split; [|split; [cbn [map fst]; names|split; [discriminate|]]]).
  - intros k [<-|[<-|[]]]; vm_compute; lia.
  - split; [|split; [|exact I]].
    + replace (lookup (bytes "a") _) with (Some v) by reflexivity. split; [exact I|]. intros (a & w & b & pos & m & nm & E & PM & N1 & N2 & _). exfalso.
      destruct m as [|[|[|m]]]; try discriminate N2. lia.
    + replace (lookup (bytes "b") _) with (Some (JStr (bytes "x"))) by reflexivity. split; [exact I|]. intros _ _. exists (VStr (bytes "x")). exists (bytes "x"), (bytes "x").
      split; [reflexivity|]. split; [exact den_x|reflexivity].
  - intros k [<-|[<-|[]]]; vm_compute; lia.
  - split; [|split; [|exact I]].
    + replace (lookup (bytes "a") _) with (Some (num "7")) by reflexivity. split; [exact I|]. intros (a & w & b & pos & m & nm & E & PM & N1 & N2 & _). exfalso.
      destruct m as [|[|[|m]]]; try discriminate N2. lia.
    + replace (lookup (bytes "b") _) with (Some (JStr (bytes "x"))) by reflexivity. split; [exact I|]. intros _ _. exists (VStr (bytes "x")). exists (bytes "x"), (bytes "x").
      split; [reflexivity|]. split; [exact den_x|reflexivity].
Qed.

Example C112_class_ex : class_type (TArr pair_ty) = true /\ (forall v, tidy (usable default_cfg) (TArr pair_ty) (pairs v)) /\
  document (TArr pair_ty) (pairs (num "12")) (compact (pairs (num "12"))) /\
  from_json default_cfg true (TArr pair_ty) (compact (pairs (num "12"))) = Ok (VArr [VClass [VInt 12; VStr (bytes "x")]; VClass [VInt 7; VStr (bytes "x")]]) /\
  (exists e, from_json default_cfg true (TArr pair_ty) (compact (pairs JTrue)) = Err e).
Proof.
  split; [reflexivity|]. split; [exact pairs_tidy|]. split; [apply compact_doc; vm_compute; legals|]. split; [vm_compute; reflexivity|eexists; vm_compute; reflexivity].
Qed.

(** Refuted: a number that does not fit is read, to another number (compare C02, C03) *)
Theorem C112_fit_refuted : exists doc z, jtext str_body (JNum doc) doc /\ from_json default_cfg true (TUInt 64 true) doc = Ok (VInt z) /\ z <> Z.of_N (dec_val doc).
Proof.
  exists (bytes "18446744073709551616"), 0%Z. split; [|split; [vm_compute; reflexivity|vm_compute; discriminate]].
  apply t_num. change (bytes "18446744073709551616") with ([] ++ bytes "18446744073709551616" ++ [] ++ []). constructor; [now left| |constructor|constructor].
  now apply canonical_dec.
Qed.
Print Assumptions C112_fit_refuted.
