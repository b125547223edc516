(** Decoding where some classes cannot be imported: the graphs in question and what is expected
    of the result. *)
From Verif Require Import PyStr Tags Json JsonText JsonTextProofs Base Heap Registry LoadClass SpecGraph SpecPlain SpecHoles.
Open Scope nat_scope.

Section lack.
  (* encoding takes place in w, decoding in w' with the table cl of classes given to decode *)
  Variables (w w' : world) (cl : list (pystr * val)) (h : heap).
  Definition cname (c : nat) : pystr := importable_name (w_cls w c).

  (** The decoding process has the class, and its instances are made without arguments. *)
  Record found (c : nat) : Prop := {
    fd_load : loadclass w' cl (JStr (cname c)) = Ret (VType c);
    fd_handler : reg_lookup (w_sub w') (w_reg w') c (cname c) = None;
    fd_kind : c_kind (w_cls w' c) = KPlain;
    fd_dict : c_dict (w_cls w' c) = true;
    fd_deffac : c_deffac (w_cls w' c) = false;
    fd_new : forall h', w_new w' h' c [] [] = CInst c
  }.
  (** It does not have the class, and no handler by that name. *)
  Definition absent (c : nat) : Prop :=
    loadclass w' cl (JStr (cname c)) = Ret VNone /\ reg_get_name (w_reg w') (cname c) = None.

  Definition lack_fields (ok : val -> Prop) (d : list (val * val)) : Prop :=
    NoDup (map fst d) /\
    forall kv, In kv d -> ok (snd kv) /\ (exists a, fst kv = VStr a /\ name_ok false a = true) /\
      (forall l i, snd kv = VLoc l -> hget h l = Some (OInst i) -> c_isfun (w_cls w (i_cls i)) = false).
  Definition lack_obj (ok : val -> Prop) (ob : obj) : Prop :=
    match ob with
    | OList vs => Forall ok vs
    | OSet vs => Forall ok vs /\ forallb pure vs = true /\ kdistinct vs = true
    | ODict d => lack_fields ok d
    | OInst i =>
        plain_class w (i_cls i) /\ str_ok (cname (i_cls i)) = true /\
        exists dl d, i_dict i = Some dl /\ hget h dl = Some (ODict d) /\ lack_fields ok d /\
          (found (i_cls i) /\
             (forall a v, In (VStr a, v) d -> attr_ok false (w_cls w' (i_cls i)) a = true /\ slot_named (w_cls w' (i_cls i)) a = false)
           \/ absent (i_cls i) /\ (forall a v, In (VStr a, v) d -> exists j, scalar_json v j))
    | _ => False
    end.
  (** Lists, dicts with string keys, tuples, sets of immutable values, classes and plain
      instances; the instances of absent classes have scalar attributes.  [ok] is a set of values that
      contains with a value what the value consists of. *)
  Definition lack_val (ok : val -> Prop) (v : val) : Prop :=
    match v with
    | VNone | VBool _ | VInt _ => True
    | VFloat t => float_ok t = true
    | VStr s => str_ok s = true
    | VType c => str_ok (cname c) = true /\ loadclass w' cl (JStr (cname c)) = Ret (VType c)
    | VTuple vs => Forall ok vs
    | VLoc l => exists ob, hget h l = Some ob /\ lack_obj ok ob
    | _ => False
    end.
  Definition lacking (ok : val -> Prop) : Prop := forall v, ok v -> lack_val ok v.

  (** The object at l' of h' stands for the object at l: the same kind of object with the
      corresponding content, or for an absent class the dict of the document. *)
  Definition stands_for (h' : heap) (b : nat) (R : loc -> loc -> Prop) (l l' : loc) : Prop :=
    b <= l' /\
    match hget h l, hget h' l' with
    | Some (OList vs), Some (OList vs') => Forall2 (vmatch h h' b R) vs vs'
    | Some (ODict d), Some (ODict d') => Forall2 (pmatch h h' b R) d d'
    | Some (OInst i), Some (OInst i') =>
        found (i_cls i) /\ i_cls i' = i_cls i /\
        exists dl d dl' d', i_dict i = Some dl /\ hget h dl = Some (ODict d) /\
          i_dict i' = Some dl' /\ b <= dl' /\ hget h' dl' = Some (ODict d') /\ Forall2 (pmatch h h' b R) d d'
    | Some (OInst i), Some (ODict d') =>
        absent (i_cls i) /\
        exists dl d, i_dict i = Some dl /\ hget h dl = Some (ODict d) /\
          d' = (VStr (u "py/object"), VStr (cname (i_cls i))) :: d
    | _, _ => False
    end.
  (** x is a copy of v; the dicts of the absent objects stand in their places, one for each
      object, also where the object is referred to again. *)
  Definition copy_lacking (h' : heap) (b : nat) (v x : val) : Prop :=
    exists R : loc -> loc -> Prop,
      (forall l a c, R l a -> R l c -> a = c) /\ (forall a c l, R a l -> R c l -> a = c) /\
      (forall l l', R l l' -> stands_for h' b R l l') /\ vmatch h h' b R v x.
End lack.

(** Members of an enumeration and other objects that are had by calling their class: the call gives
    in the decoding process an object that exists there. *)
Section members.
  Variables (w w' : world) (k : hooks) (cl : list (pystr * val)) (h : heap).
  (* the objects in question, with the objects of the decoding process *)
  Variable mem : loc -> option loc.
  Definition member (l m : loc) : Prop :=
    exists c args, by_call w k h l c args /\ str_ok (cname w c) = true /\ loadclass w' cl (JStr (cname w c)) = Ret (VType c) /\
      c_name (w_cls w' c) <> u "__newobj__" /\ forall h', w_call w' h' (VType c) args = CVal (VLoc m).
  Definition with_members (ok : val -> Prop) : Prop := forall v, ok v ->
    (exists l m, v = VLoc l /\ mem l = Some m /\ member l m) \/
    ((forall l m, v = VLoc l -> mem l <> Some m) /\ lack_val w w' cl h ok v).
  (** x is a copy of v, but in the places of the members there are the members themselves. *)
  Definition copy_with_members (h' : heap) (b : nat) (v x : val) : Prop :=
    exists R : loc -> loc -> Prop,
      (forall l a c, R l a -> R l c -> a = c) /\ (forall a c l, R a l -> R c l -> a = c) /\
      (forall l l', R l l' -> match mem l with Some m => l' = m | None => stands_for w w' cl h h' b R l l' end) /\ vmatch h h' b R v x.

  (** Among the objects that are had by calling a class there may also be some, [gone], whose class the
      decoding process does not have. *)
  Variable gone : loc -> Prop.
  Definition lost (l : loc) : Prop :=
    exists c args, by_call w k h l c args /\ str_ok (cname w c) = true /\ loadclass w' cl (JStr (cname w c)) = Ret VNone.
  Definition with_calls (ok : val -> Prop) : Prop := forall v, ok v ->
    (exists l m, v = VLoc l /\ mem l = Some m /\ member l m) \/
    (exists l, v = VLoc l /\ mem l = None /\ gone l /\ lost l) \/
    ((forall l m, v = VLoc l -> mem l <> Some m) /\ lack_val w w' cl h ok v).
  (** As before, and in the place of a lost object there is an empty list, the same one
      wherever the object is referred to. *)
  Definition copy_with_calls (h' : heap) (b : nat) (v x : val) : Prop :=
    exists R : loc -> loc -> Prop,
      (forall l a c, R l a -> R l c -> a = c) /\ (forall a c l, R a l -> R c l -> a = c) /\
      (forall l l', R l l' -> match mem l with
         | Some m => l' = m
         | None => gone l /\ b <= l' /\ hget h' l' = Some (OList []) \/ stands_for w w' cl h h' b R l l'
         end) /\ vmatch h h' b R v x.
End members.
