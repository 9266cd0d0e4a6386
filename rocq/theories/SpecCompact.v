(** The text of a value without any whitespace, independent of the model. *)
From Coq Require Import List NArith Bool Lia.
From Verif Require Import SpecNum SpecText SpecJson.
Import ListNotations.
Local Open Scope N_scope.

Definition quoted (b : list N) : list N := 34 :: b ++ [34].

Fixpoint compact (v : jv) : list N :=
  match v with
  | JNull => [110; 117; 108; 108]
  | JTrue => [116; 114; 117; 101]
  | JFalse => [102; 97; 108; 115; 101]
  | JNum n => n
  | JStr b => quoted b
  | JArr es => 91 ::
      (fix elems (es : list jv) : list N :=
         match es with
         | [] => []
         | [e] => compact e
         | e :: r => compact e ++ 44 :: elems r
         end) es ++ [93]
  | JObj ms => 123 ::
      (fix members (ms : list (list N * jv)) : list N :=
         match ms with
         | [] => []
         | [(k, e)] => quoted k ++ 58 :: compact e
         | (k, e) :: r => quoted k ++ 58 :: compact e ++ 44 :: members r
         end) ms ++ [125]
  end.

Fixpoint compact_elems (es : list jv) : list N :=
  match es with
  | [] => []
  | [e] => compact e
  | e :: r => compact e ++ 44 :: compact_elems r
  end.
Fixpoint compact_members (ms : list (list N * jv)) : list N :=
  match ms with
  | [] => []
  | [(k, e)] => quoted k ++ 58 :: compact e
  | (k, e) :: r => quoted k ++ 58 :: compact e ++ 44 :: compact_members r
  end.

Lemma compact_arr : forall es, compact (JArr es) = 91 :: compact_elems es ++ [93].
Proof. reflexivity. Qed.
Lemma compact_obj : forall ms, compact (JObj ms) = 123 :: compact_members ms ++ [125].
Proof. reflexivity. Qed.

(** Numbers, strings and names are legal. *)
Fixpoint legal (sb : list N -> Prop) (v : jv) : Prop :=
  match v with
  | JNum n => jnum n
  | JStr b => sb b
  | JArr es => (fix elems (es : list jv) : Prop := match es with [] => True | e :: r => legal sb e /\ elems r end) es
  | JObj ms => (fix members (ms : list (list N * jv)) : Prop := match ms with [] => True | (k, e) :: r => sb k /\ legal sb e /\ members r end) ms
  | _ => True
  end.

Lemma ws_nil : ws [].
Proof. constructor. Qed.

Lemma compact_jtext : forall sb v, legal sb v -> jtext sb v (compact v).
Proof.
  intros sb. fix IH 1. intros v HL. destruct v as [| | |n|b|es|ms].
  - constructor.
  - constructor.
  - constructor.
  - constructor. exact HL.
  - constructor. exact HL.
  - assert (X : es <> [] -> jelems sb es (compact_elems es)).
    { induction es as [|e es IHe]; [congruence|]. intros _. destruct HL as [H1 H2]. specialize (IH e H1). destruct es as [|e' es].
      - pose proof (e_one sb [] e (compact e) [] ws_nil IH ws_nil) as H. cbn [app] in H. rewrite app_nil_r in H. exact H.
      - assert (NE : e' :: es <> []) by congruence. exact (e_cons sb [] e (compact e) [] (e' :: es) _ ws_nil IH ws_nil (IHe H2 NE)). }
    destruct es as [|e es]; [apply (t_arr0 _ []), ws_nil|]. rewrite compact_arr. apply t_arr. apply X. congruence.
  - assert (X : ms <> [] -> jmembers sb ms (compact_members ms)).
    { induction ms as [|[k e] ms IHm]; [congruence|]. intros _. destruct HL as (H1 & H2 & H3). specialize (IH e H2). destruct ms as [|[k' e'] ms].
      - pose proof (m_one sb [] k [] [] e (compact e) [] ws_nil H1 ws_nil ws_nil IH ws_nil) as H. cbn [app] in H. rewrite app_nil_r in H. exact H.
      - assert (NE : (k', e') :: ms <> []) by congruence. exact (m_cons sb [] k [] [] e (compact e) [] ((k', e') :: ms) _ ws_nil H1 ws_nil ws_nil IH ws_nil (IHm H3 NE)). }
    destruct ms as [|[k e] ms]; [apply (t_obj0 _ []), ws_nil|]. rewrite compact_obj. apply t_obj. apply X. congruence.
Qed.
