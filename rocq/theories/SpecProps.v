(** Documents written with include_properties=True. *)
From Verif Require Import PyStr Tags Json JsonText JsonTextProofs Base Heap Registry LoadClass SpecHoles.
Open Scope nat_scope.

Section props.
  Variables (w : world) (cl : list (pystr * val)).

  (** Entries that hold a list of documents. *)
  Definition list_tags : list pystr := [u "py/tuple"; u "py/set"; u "py/iterator"; u "py/seq"; u "py/reduce"; u "py/newargsex"].
  (** An object document whose class is there, whose instances can be made and are not given to a
      handler. *)
  Definition class_there (ob : jobj) : Prop := forall j, sget (u "py/object") ob = Some j ->
    exists name c, j = JStr name /\ loadclass w cl (JStr name) = Ret (VType c) /\
      reg_lookup (w_sub w) (w_reg w) c name = None /\ w_blank w c = true.
  Definition plain_part (ob : jobj) : Prop :=
    class_there ob /\ forall t, In t [u "py/b64"; u "py/b85"; u "py/bytea"; u "py/id"; u "py/type"; u "py/function"; u "py/mod"; u "py/repr"] -> sget t ob = None.
  Definition has_owner (ob : jobj) : Prop := sget (u "py/object") ob <> None \/ sget (u "py/reduce") ob <> None.

  (** The second document is the first one with entries py/property added in front of the entries of
      some objects that have an entry py/object or py/reduce. *)
  Inductive with_props : json -> json -> Prop :=
  | wp_same j : with_props j j
  | wp_list l l' : Forall2 with_props l l' -> with_props (JList l) (JList l')
  | wp_obj ob ob' : plain_part ob -> Forall2 entry_props ob ob' -> with_props (JObj ob) (JObj ob')
  | wp_prop p ob ob' : plain_part ob -> has_owner ob -> Forall2 entry_props ob ob' ->
      with_props (JObj ob) (JObj ((u "py/property", p) :: ob'))
  with entry_props : pystr * json -> pystr * json -> Prop :=
  | ep_list t l l' : Forall2 with_props l l' -> entry_props (t, JList l) (t, JList l')
  | ep_other t j j' : smem t list_tags = false \/ j = j' -> with_props j j' -> entry_props (t, j) (t, j').
End props.

(** What getattr gives for a member of the class, and members with scalar values. *)
Definition member_value (k : hooks) (h : heap) (l : loc) (i : inst) (a : pystr) (v : val) : Prop :=
  match inst_attr h i a with Some x => v = x | None => k_attr k l a = Ret v end.
Definition scalar_members (k : hooks) (h : heap) (l : loc) (i : inst) : Prop :=
  forall a, In a (k_props k l) -> str_ok a = true /\
    exists v j, member_value k h l i a v /\ scalar_json v j /\ jwf j = true.
