(** C81: entries of a document that are not looked at.  Only JSON is used here. *)
From Verif Require Import PyStr Json.
From Coq Require Import List. Import ListNotations.

(** The tags in the order in which they count. *)
Definition ranked : list pystr :=
  [u "py/tuple"; u "py/set"; u "py/b64"; u "py/b85"; u "py/bytea"; u "py/id"; u "py/iterator"; u "py/object";
   u "py/type"; u "py/reduce"; u "py/function"; u "py/mod"; u "py/repr"].
(** The tag that counts in an object. *)
Definition counts (t : pystr) (ob : list (pystr * json)) : Prop :=
  exists before after, ranked = before ++ t :: after /\ In t (map fst ob) /\
    (forall x, In x before -> ~ In x (map fst ob)).
Definition untagged (ob : list (pystr * json)) : Prop := forall x, In x ranked -> ~ In x (map fst ob).

(** [fewer j j']: [j'] is [j] in which, at any places inside lists, dicts without tags and the lists of
    tuples, sets, iterators and reduce values, everything beside the tag that counts has been left out. *)
Inductive fewer : json -> json -> Prop :=
| fewer_same : forall j, fewer j j
| fewer_trans : forall a b c, fewer a b -> fewer b c -> fewer a c
| fewer_rest : forall ob t v, counts t ob -> t <> u "py/object" -> t <> u "py/type" -> NoDup (map fst ob) ->
    In (t, v) ob -> fewer (JObj ob) (JObj [(t, v)])
| fewer_list : forall l l', Forall2 fewer l l' -> fewer (JList l) (JList l')
| fewer_dict : forall ob ob', untagged ob -> Forall2 (fun a b => fst a = fst b /\ fewer (snd a) (snd b)) ob ob' ->
    fewer (JObj ob) (JObj ob')
| fewer_tag : forall t l l', In t [u "py/tuple"; u "py/set"; u "py/iterator"; u "py/reduce"] -> Forall2 fewer l l' ->
    fewer (JObj [(t, JList l)]) (JObj [(t, JList l')]).

(** Beside py/object the tags after it in the order are left out, nothing else. *)
Definition behind_object : list pystr := skipn 8 ranked.
Definition without_behind (ob : list (pystr * json)) : list (pystr * json) :=
  filter (fun e => negb (existsb (seqb (fst e)) behind_object)) ob.
