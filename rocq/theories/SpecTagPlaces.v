(** C81 inside objects: places in the attributes, states and arguments of instances. *)
From Verif Require Import PyStr Tags Json Base Heap Registry LoadClass SpecProps SpecTagOrder.
From Coq Require Import List. Import ListNotations.

Section places.
  Variables (w : world) (cl : list (pystr * val)).
  (** [leaner j j']: [j'] is [j] where at some places ignored entries have been left out.  The objects around
      these places have no other tags than py/tuple, py/set, py/iterator, py/object and py/reduce with what
      belongs to them, and if there is py/object, its class is there ([plain_part]). *)
  Inductive leaner : json -> json -> Prop :=
  | ln_same j : leaner j j
  | ln_list l l' : Forall2 leaner l l' -> leaner (JList l) (JList l')
  | ln_obj ob ob' : plain_part w cl ob -> Forall2 leaner_entry ob ob' -> leaner (JObj ob) (JObj ob')
  | ln_rest ob t v : counts t ob -> t <> u "py/object" -> t <> u "py/type" -> NoDup (map fst ob) -> In (t, v) ob ->
      leaner (JObj ob) (JObj [(t, v)])
  | ln_object ob : counts (u "py/object") ob -> class_there w cl ob -> leaner (JObj ob) (JObj (without_behind ob))
  | ln_type ob name v : counts (u "py/type") ob -> sget (u "py/type") ob = Some (JStr name) ->
      loadclass w cl (JStr name) = Ret v -> v <> VNone -> leaner (JObj ob) (JObj [(u "py/type", JStr name)])
  with leaner_entry : pystr * json -> pystr * json -> Prop :=
  | le_list t l l' : Forall2 leaner l l' -> leaner_entry (t, JList l) (t, JList l')
  | le_other t j j' : smem t list_tags = false \/ j = j' -> leaner j j' -> leaner_entry (t, j) (t, j').
End places.
