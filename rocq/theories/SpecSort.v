(** Documents and object graphs for which sorted keys make no difference. *)
From Verif Require Import PyStr Tags Json JsonText Base Heap Registry LoadClass Sort SpecHoles SpecLack SpecProps.
From Coq Require Import List Sorted Permutation. Import ListNotations.
Open Scope nat_scope.

(** Ascending in Python's order of strings, by code points. *)
Definition ascending (ks : list pystr) : Prop := StronglySorted (fun a b => str_leb a b = true) ks.

Section docs.
  Variables (w : world) (cl : list (pystr * val)).
  Definition names (ob : jobj) : list pystr := filter (fun a => negb (is_reserved a)) (map fst ob).
  (** In objects with py/object or py/reduce the attribute names are ascending, in other ones
      all keys. *)
  Definition keys_in_order (ob : jobj) : Prop := has_owner ob /\ ascending (names ob) \/ ascending (map fst ob).
  Inductive sortable : json -> Prop :=
  | so_same j : jsort j = j -> sortable j
  | so_list l : Forall sortable l -> sortable (JList l)
  | so_obj ob : plain_part w cl ob -> keys_in_order ob ->
      Forall (fun kv => sortable (snd kv)) ob ->
      (forall t j, In (t, j) ob -> smem t list_tags = true -> jsort j = j \/ exists l, j = JList l) -> sortable (JObj ob).
End docs.

(** The string keys of a dict or the attribute names are ascending. *)
Definition ascending_items (d : list (val * val)) : Prop := exists ks, map fst d = map VStr ks /\ ascending ks.
Section graphs.
  Variables (h : heap) (ok : val -> Prop).
  (** All dicts of the graph, and all instances but the object given to encode. *)
  Definition dicts_ascend : Prop := forall l d, ok (VLoc l) -> hget h l = Some (ODict d) -> ascending_items d.
  Definition others_ascend (v : val) : Prop := forall l i dl d, ok (VLoc l) -> VLoc l <> v -> hget h l = Some (OInst i) ->
    i_dict i = Some dl -> hget h dl = Some (ODict d) -> ascending_items d.
  (** What encode does to the object given to it: its __dict__ becomes a new one, sorted. *)
  Definition with_dict (i : inst) (d : loc) : inst :=
    mkInst (i_cls i) (Some d) (i_slots i) (i_items i) (i_elems i) (i_fac i) (i_rec i) (i_state i) (i_pos i).
  Definition root_sorted (h1 : heap) (v : val) : Prop :=
    match v with
    | VLoc l =>
        match hget h l with
        | Some (OInst i) =>
            exists dl d d', i_dict i = Some dl /\ hget h dl = Some (ODict d) /\
              hget h1 l = Some (OInst (with_dict i (length h))) /\ hget h1 (length h) = Some (ODict d') /\
              Permutation d d' /\ ascending_items d' /\
              forall x, x < length h -> x <> l -> hget h1 x = hget h x
        | _ => h1 = h
        end
    | _ => h1 = h
    end.
End graphs.
