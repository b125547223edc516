(** What a reference counts: the objects of a document that have a number, in the order in which
    the document is written.  Only the document is looked at, not the encoder. *)
From Verif Require Import PyStr Tags Json JsonText.
From Coq Require Import List.
Import ListNotations.
Open Scope nat_scope.
Local Open Scope list_scope.

(** Reading a document from left to right, one meets objects that have a number and references. *)
Inductive event : Type := Obj | Ref (z : Z).
Fixpoint objects (tr : list event) : nat :=
  match tr with [] => 0 | Obj :: tr => S (objects tr) | Ref _ :: tr => objects tr end.

Definition scalar (j : json) : bool := match j with JList _ | JObj _ => false | _ => true end.
(** Objects with one of these keys have no number and no content that has. *)
Definition leaf_tags : list pystr := [TYPE_; FUNCTION; B64; B85; BYTEARRAY].
(** What is under them: a string, or bytes as a string. *)
Definition leaf_content (j : json) : bool :=
  match j with JStr _ => true | JObj [(tg, JStr _)] => smem tg [B64; B85] | _ => false end.
(** Objects with one of these keys have no number; the list in them has none either. *)
Definition group_tags : list pystr := [TUPLE; SET_].
(** The list under one of these keys of a numbered object has no number of its own. *)
Definition bare_tags : list pystr := [SEQ; NEWARGSEX; REDUCE; ITERATOR].
Definition special_tags : list pystr := ID :: MODULE :: group_tags ++ leaf_tags.

Section events.
  Variable keys : bool.
  Inductive events : json -> list event -> Prop :=
  | ev_scalar j : scalar j = true -> events j []
  | ev_list js tr : events_all js tr -> events (JList js) (Obj :: tr)
  | ev_ref z : events (JObj [(ID, JInt z)]) [Ref z]
  | ev_leaf tg j : In tg leaf_tags -> leaf_content j = true -> events (JObj [(tg, j)]) []
  | ev_module s : events (JObj [(MODULE, JStr s)]) [Obj]
  | ev_group tg js tr : In tg group_tags -> events_all js tr -> events (JObj [(tg, JList js)]) tr
  | ev_object d tr : (forall tg, In tg special_tags -> sget tg d = None) -> events_of d tr -> events (JObj d) (Obj :: tr)
  with events_all : list json -> list event -> Prop :=
  | ea_nil : events_all [] []
  | ea_cons j js t1 t2 : events j t1 -> events_all js t2 -> events_all (j :: js) (t1 ++ t2)
  with events_of : jobj -> list event -> Prop :=
  | eo_nil : events_of [] []
  | eo_bare tg js d t1 t2 : In tg bare_tags -> events_all js t1 -> events_of d t2 -> events_of ((tg, JList js) :: d) (t1 ++ t2)
  (* with keys=True the text of a key may hold a document *)
  | eo_key text jq j d t0 t1 t2 : keys = true -> loads text = Some jq -> events jq t0 -> events j t1 -> events_of d t2 ->
      events_of ((JSON_KEY ++ text, j) :: d) (t0 ++ t1 ++ t2)
  | eo_value a j d t1 t2 : ~ In a bare_tags -> (keys = true -> prefixb JSON_KEY a = false) -> events j t1 -> events_of d t2 ->
      events_of ((a, j) :: d) (t1 ++ t2).
End events.

(** A reference anywhere in a document, whatever the tags around it. *)
Inductive occurs (keys : bool) (z : Z) : json -> Prop :=
| oc_ref : occurs keys z (JObj [(ID, JInt z)])
| oc_list j js : In j js -> occurs keys z j -> occurs keys z (JList js)
| oc_value a j d : In (a, j) d -> occurs keys z j -> occurs keys z (JObj d)
| oc_key text jq j d : keys = true -> In (JSON_KEY ++ text, j) d -> loads text = Some jq -> occurs keys z jq -> occurs keys z (JObj d).

(** Every reference is to an object met before. *)
Definition backward (tr : list event) : Prop := forall pre z post, tr = pre ++ Ref z :: post ->
  (0 <= z < Z.of_nat (objects pre))%Z.
