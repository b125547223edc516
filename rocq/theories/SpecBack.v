(** Graphs in which the state that [__reduce__] gives leads back to the object.

    [leads v x]: x is reached from v through elements of tuples and lists, values of dicts,
    attributes of instances, and what [__reduce__] gives for the instances that have it.  The
    functions of the encoder and decoder do not occur. *)
From Verif Require Import PyStr Tags Json JsonText JsonTextProofs Base Heap Registry LoadClass SpecGraph SpecHoles SpecLack.
Open Scope nat_scope.

Section back.
  Variables (w : world) (k : hooks) (cl : list (pystr * val)) (h : heap).
  Notation cls := (w_cls w).

  Inductive has_part : val -> val -> Prop :=
  | hp_tuple xs x : In x xs -> has_part (VTuple xs) x
  | hp_list l xs x : hget h l = Some (OList xs) -> In x xs -> has_part (VLoc l) x
  | hp_dict l d q x : hget h l = Some (ODict d) -> In (q, x) d -> has_part (VLoc l) x
  | hp_attr l i dl d q x : hget h l = Some (OInst i) -> c_reduce (cls (i_cls i)) = false -> i_dict i = Some dl ->
      hget h dl = Some (ODict d) -> In (q, x) d -> has_part (VLoc l) x
  | hp_reduce l i rl x : hget h l = Some (OInst i) -> c_reduce (cls (i_cls i)) = true ->
      k_reduce k l = Ret (RTup rl) -> In x rl -> has_part (VLoc l) x.
  Inductive leads : val -> val -> Prop :=
  | ld_refl v : leads v v
  | ld_step a b c : leads a b -> has_part b c -> leads a c.

  (** The object at l has [__reduce__]. *)
  Definition by_reduce (l : loc) : Prop := exists i, hget h l = Some (OInst i) /\ c_reduce (cls (i_cls i)) = true.
  (** x is not an object with [__reduce__] that leads to v. *)
  Definition settled (v x : val) : Prop := forall z, x = VLoc z -> by_reduce z -> ~ leads (VLoc z) v.

  Definition string_keys (d : list (val * val)) : Prop :=
    NoDup (map fst d) /\ forall q x, In (q, x) d -> exists a, q = VStr a /\ name_ok false a = true.
  (** Attributes can be set; where the class is a frozen dataclass the values are settled. *)
  Definition settable (v : val) (c : nat) (d : list (val * val)) : Prop :=
    forall a x, In (VStr a, x) d -> attr_ok false (cls c) a = true /\ slot_named (cls c) a = false /\
      (c_setattr (cls c) a = SAOk \/ settled v x).
  (** [__reduce__] gives a class, its arguments and possibly a dict, which becomes [__dict__]. *)
  Definition with_state (l : loc) (i : inst) (t : nat) (args : list val) (st : val) : Prop :=
    reduced w k h l i (VType t) args (CCall (VType t)) st VNone [] VNone [] /\ c_dict (cls (i_cls i)) = true /\
    (st = VNone \/ exists sd a, st = VLoc sd /\ hget h sd = Some (ODict a) /\ a <> [] /\ c_setstate (cls (i_cls i)) = false).

  Definition back_node (v : val) : Prop :=
    match v with
    | VNone | VBool _ | VInt _ => True
    | VFloat t => float_ok t = true
    | VStr s => str_ok s = true
    | VType c => str_ok (cname w c) = true /\ loadclass w cl (JStr (cname w c)) = Ret (VType c)
    | VTuple xs => forall x, In x xs -> settled v x
    | VLoc l =>
        match hget h l with
        | Some (OList _) => True
        | Some (ODict d) => string_keys d
        | Some (OInst i) =>
            if c_reduce (cls (i_cls i)) then exists t args st, with_state l i t args st
            else plain_class w (i_cls i) /\ found w w cl (i_cls i) /\ str_ok (cname w (i_cls i)) = true /\ i_slots i = [] /\
                 exists dl d, i_dict i = Some dl /\ hget h dl = Some (ODict d) /\ string_keys d /\ settable v (i_cls i) d
        | _ => False
        end
    | _ => False
    end.
  (** sd is the dict that [__reduce__] gives as the state of the object at l. *)
  Definition state_of (l sd : loc) : Prop := exists i t args, hget h l = Some (OInst i) /\ with_state l i t args (VLoc sd).
  (** Only the object itself has this dict. *)
  Definition own_states (v : val) : Prop := forall l sd, leads v (VLoc l) -> state_of l sd ->
    v <> VLoc sd /\ forall z, leads v z -> has_part z (VLoc sd) -> z = VLoc l.
  Definition back_graph (v : val) : Prop := (forall x, leads v x -> back_node x) /\ own_states v.
End back.
