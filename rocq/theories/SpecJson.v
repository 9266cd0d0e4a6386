(** The JSON grammar (RFC 8259) as relations between values and texts,
    independent of the model. *)
From Coq Require Import List NArith Bool Lia.
From Verif Require Import SpecNum SpecText.
Import ListNotations.
Local Open Scope N_scope.

(** ** Strings, between the quotes *)

(** What a scanner needs to know: any byte except quote and backslash, or a
    backslash with the byte after it. *)
Inductive str_body : list N -> Prop :=
| sb_nil : str_body []
| sb_plain : forall c t, c <> 34 -> c <> 92 -> str_body t -> str_body (c :: t)
| sb_esc : forall c t, str_body t -> str_body (92 :: c :: t).

Definition is_hex (b : N) : Prop :=
  48 <= b <= 57 \/ 65 <= b <= 70 \/ 97 <= b <= 102.

(** RFC 8259 section 7 (bytes 0x20.. except quote and backslash, and the listed
    escapes). *)
Inductive rfc_body : list N -> Prop :=
| rb_nil : rfc_body []
| rb_plain : forall c t, 32 <= c -> c <> 34 -> c <> 92 -> rfc_body t -> rfc_body (c :: t)
| rb_esc : forall c t, In c [34; 92; 47; 98; 102; 110; 114; 116] ->
    rfc_body t -> rfc_body (92 :: c :: t)
| rb_u : forall a b c d t, is_hex a -> is_hex b -> is_hex c -> is_hex d ->
    rfc_body t -> rfc_body (92 :: 117 :: a :: b :: c :: d :: t).

(** Offset of the first backslash, if any. *)
Fixpoint escape_offset (t : list N) : option nat :=
  match t with
  | [] => None
  | c :: r => if c =? 92 then Some O else option_map S (escape_offset r)
  end.

(** ** Numbers *)

(** int *)
Definition int_part (t : list N) : Prop := canonical t.
(** [ "." 1*DIGIT ] *)
Inductive frac_part : list N -> Prop :=
| fp_none : frac_part []
| fp_some : forall ds, digits ds -> ds <> [] -> frac_part (46 :: ds).
(** [ ("e"|"E") [+|-] 1*DIGIT ] *)
Inductive exp_part : list N -> Prop :=
| ep_none : exp_part []
| ep_some : forall e s ds, e = 101 \/ e = 69 -> s = [] \/ s = [43] \/ s = [45] ->
    digits ds -> ds <> [] -> exp_part (e :: s ++ ds).
Inductive jnum : list N -> Prop :=
| jn : forall sg i f e, sg = [] \/ sg = [45] -> int_part i -> frac_part f -> exp_part e ->
    jnum (sg ++ i ++ f ++ e).

(** ** Values *)

Inductive jv : Set :=
| JNull
| JTrue
| JFalse
| JNum (n : list N)
| JStr (body : list N)
| JArr (es : list jv)
| JObj (ms : list (list N * jv)).

Definition ws (t : list N) : Prop := Forall json_ws t.

(** [jtext sb v t]: [t] is a text of the value [v], where [sb] says which
    string bodies are allowed. *)
Inductive jtext (sb : list N -> Prop) : jv -> list N -> Prop :=
| t_null : jtext sb JNull [110; 117; 108; 108]
| t_true : jtext sb JTrue [116; 114; 117; 101]
| t_false : jtext sb JFalse [102; 97; 108; 115; 101]
| t_num : forall n, jnum n -> jtext sb (JNum n) n
| t_str : forall b, sb b -> jtext sb (JStr b) (34 :: b ++ [34])
| t_arr0 : forall w, ws w -> jtext sb (JArr []) (91 :: w ++ [93])
| t_arr : forall es t, jelems sb es t -> jtext sb (JArr es) (91 :: t ++ [93])
| t_obj0 : forall w, ws w -> jtext sb (JObj []) (123 :: w ++ [125])
| t_obj : forall ms t, jmembers sb ms t -> jtext sb (JObj ms) (123 :: t ++ [125])
with jelems (sb : list N -> Prop) : list jv -> list N -> Prop :=
| e_one : forall w1 v t w2, ws w1 -> jtext sb v t -> ws w2 ->
    jelems sb [v] (w1 ++ t ++ w2)
| e_cons : forall w1 v t w2 es ts, ws w1 -> jtext sb v t -> ws w2 -> jelems sb es ts ->
    jelems sb (v :: es) (w1 ++ t ++ w2 ++ 44 :: ts)
with jmembers (sb : list N -> Prop) : list (list N * jv) -> list N -> Prop :=
| m_one : forall w1 k w2 w3 v t w4, ws w1 -> sb k -> ws w2 -> ws w3 -> jtext sb v t -> ws w4 ->
    jmembers sb [(k, v)] (w1 ++ (34 :: k ++ [34]) ++ w2 ++ 58 :: w3 ++ t ++ w4)
| m_cons : forall w1 k w2 w3 v t w4 ms ts, ws w1 -> sb k -> ws w2 -> ws w3 -> jtext sb v t -> ws w4 ->
    jmembers sb ms ts ->
    jmembers sb ((k, v) :: ms)
      (w1 ++ (34 :: k ++ [34]) ++ w2 ++ 58 :: w3 ++ t ++ w4 ++ 44 :: ts).

Scheme jtext_mut := Induction for jtext Sort Prop
  with jelems_mut := Induction for jelems Sort Prop
  with jmembers_mut := Induction for jmembers Sort Prop.
Combined Scheme jtext_ind3 from jtext_mut, jelems_mut, jmembers_mut.

Lemma rfc_str_body : forall t, rfc_body t -> str_body t.
Proof.
  induction 1.
  - constructor.
  - constructor; assumption.
  - constructor; assumption.
  - apply sb_esc. unfold is_hex in *. repeat (apply sb_plain; [lia|lia|]). assumption.
Qed.

Lemma jtext_weaken : forall (P Q : list N -> Prop), (forall b, P b -> Q b) ->
  (forall v t, jtext P v t -> jtext Q v t) /\
  (forall es t, jelems P es t -> jelems Q es t) /\
  (forall ms t, jmembers P ms t -> jmembers Q ms t).
Proof.
  intros P Q W. apply jtext_ind3; intros; try (constructor; auto; fail).
Qed.
