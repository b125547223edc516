(** Object graphs in which some objects are not written as what they are: the replacement made
    by fail_safe, or null, or a call that gives the object.

    [written h tab v j tab']: with the objects [tab] numbered so far, the value v of heap h has
    the document j; afterwards the objects [tab'] are numbered.  This is the wire format for
    lists, dicts, tuples, sets, classes and plain instances, with references for objects met
    before; the encoder's functions do not occur. *)
From Verif Require Import PyStr Tags Json JsonText JsonTextProofs Base Heap Registry SpecPlain SpecRefs SpecFail.
Open Scope nat_scope.

(** Instances that are written as their class and attributes. *)
Record plain_class (w : world) (c : nat) : Prop := {
  pc_kind : c_kind (w_cls w c) = KPlain;
  pc_handler : reg_lookup (w_sub w) (w_reg w) c (importable_name (w_cls w c)) = None;
  pc_reduce : c_reduce (w_cls w c) = false;
  pc_newargs_ex : c_newargs_ex (w_cls w c) = false;
  pc_newargs : c_newargs (w_cls w c) = false;
  pc_initargs : c_initargs (w_cls w c) = false;
  pc_getstate : c_getstate (w_cls w c) = false;
  pc_exclude : c_exclude (w_cls w c) = [];
  pc_isfun : c_isfun (w_cls w c) = false
}.

(** Arguments that are written without references: scalars and tuples of such. *)
Fixpoint simple (v : val) : bool :=
  match v with
  | VNone | VBool _ | VInt _ => true
  | VFloat t => float_ok t
  | VStr s => str_ok s
  | VTuple vs => forallb simple vs
  | _ => false
  end.
Fixpoint simple_doc (v : val) : json :=
  match v with
  | VBool b => JBool b
  | VInt z => JInt z
  | VFloat t => JFloat t
  | VStr s => JStr s
  | VTuple vs => JObj [(u "py/tuple", JList (map simple_doc vs))]
  | _ => JNull
  end.
(** The object at l says with __reduce__ that it is had by calling the class c with args. *)
Record by_call (w : world) (k : hooks) (h : heap) (l : loc) (c : nat) (args : list val) : Prop := {
  bc_inst : exists i, hget h l = Some (OInst i) /\
    reg_lookup (w_sub w) (w_reg w) (i_cls i) (importable_name (w_cls w (i_cls i))) = None /\ c_reduce (w_cls w (i_cls i)) = true;
  bc_reduce : k_reduce k l = Ret (RTup [VType c; VTuple args]);
  bc_args : forallb simple args = true
}.

Section holes.
  Variables (w : world) (k : hooks) (fail_safe : option (exn -> res json)) (h : heap).

  (** The object at l becomes j: its pickling methods or its handler raise and fail_safe gives
      j; its handler gives None; its __getstate__ says that it cannot be pickled; it is written as
      the call of a class. *)
  Inductive hole (l : loc) : json -> Prop :=
  | ho_fails i e f j : hget h l = Some (OInst i) -> raises_at w k l i e -> is_Exception e = true ->
      fail_safe = Some f -> f e = Ret j -> hole l j
  | ho_none i hd : hget h l = Some (OInst i) ->
      reg_lookup (w_sub w) (w_reg w) (i_cls i) (importable_name (w_cls w (i_cls i))) = Some hd ->
      (forall ctx ob, w_hflat w hd ctx l ob = FDone None) -> hole l JNull
  | ho_unpicklable i e : hget h l = Some (OInst i) ->
      reg_lookup (w_sub w) (w_reg w) (i_cls i) (importable_name (w_cls w (i_cls i))) = None ->
      c_reduce (w_cls w (i_cls i)) = false -> c_newargs_ex (w_cls w (i_cls i)) = false ->
      c_newargs (w_cls w (i_cls i)) = false -> c_initargs (w_cls w (i_cls i)) = false ->
      c_getstate (w_cls w (i_cls i)) = true -> k_getstate k l = Exc e -> is_TypeError e = true -> hole l JNull
  | ho_call c args : by_call w k h l c args ->
      hole l (JObj [(u "py/reduce", JList [JObj [(u "py/type", JStr (importable_name (w_cls w c)))]; simple_doc (VTuple args)])]).

  Inductive written : list loc -> val -> json -> list loc -> Prop :=
  | wr_none tab : written tab VNone JNull tab
  | wr_bool tab b : written tab (VBool b) (JBool b) tab
  | wr_int tab z : written tab (VInt z) (JInt z) tab
  | wr_float tab t : written tab (VFloat t) (JFloat t) tab
  | wr_str tab s : written tab (VStr s) (JStr s) tab
  | wr_type tab c : written tab (VType c) (JObj [(u "py/type", JStr (importable_name (w_cls w c)))]) tab
  | wr_tuple tab vs js tab' : writtens tab vs js tab' -> written tab (VTuple vs) (JObj [(u "py/tuple", JList js)]) tab'
  | wr_set tab l vs js tab' : hget h l = Some (OSet vs) -> writtens tab vs js tab' ->
      written tab (VLoc l) (JObj [(u "py/set", JList js)]) tab'
  | wr_ref tab l i ob : hget h l = Some ob -> (forall x, ob <> OSet x) -> (forall x, ob <> OByteArray x) -> (forall x, ob <> OIter x) ->
      nth_error tab i = Some l -> written tab (VLoc l) (JObj [(u "py/id", JInt (Z.of_nat i))]) tab
  | wr_list tab l vs js tab' : ~ In l tab -> hget h l = Some (OList vs) -> writtens (tab ++ [l]) vs js tab' ->
      written tab (VLoc l) (JList js) tab'
  | wr_dict tab l d ob tab' : ~ In l tab -> hget h l = Some (ODict d) -> fields_written (tab ++ [l]) d ob tab' ->
      written tab (VLoc l) (JObj ob) tab'
  | wr_inst tab l i dl d ob tab' : ~ In l tab -> hget h l = Some (OInst i) -> plain_class w (i_cls i) ->
      i_dict i = Some dl -> hget h dl = Some (ODict d) -> fields_written (tab ++ [l]) d ob tab' ->
      written tab (VLoc l) (JObj ((u "py/object", JStr (importable_name (w_cls w (i_cls i)))) :: ob)) tab'
  | wr_hole tab l j : ~ In l tab -> hole l j -> written tab (VLoc l) j (tab ++ [l])
  with writtens : list loc -> list val -> list json -> list loc -> Prop :=
  | ws_nil tab : writtens tab [] [] tab
  | ws_cons tab v j tab1 vs js tab2 : written tab v j tab1 -> writtens tab1 vs js tab2 -> writtens tab (v :: vs) (j :: js) tab2
  with fields_written : list loc -> list (val * val) -> jobj -> list loc -> Prop :=
  | fw_nil tab : fields_written tab [] [] tab
  | fw_cons tab a v j tab1 d ob tab2 : smem a wire_names = false -> ~ In a (map fst ob) ->
      (forall f, v <> VFun f) -> (forall l i, v = VLoc l -> hget h l = Some (OInst i) -> c_isfun (w_cls w (i_cls i)) = false) ->
      written tab v j tab1 -> fields_written tab1 d ob tab2 -> fields_written tab ((VStr a, v) :: d) ((a, j) :: ob) tab2.
End holes.
Scheme written_mind := Minimality for written Sort Prop
  with writtens_mind := Minimality for writtens Sort Prop
  with fields_written_mind := Minimality for fields_written Sort Prop.
Combined Scheme written_mutind from written_mind, writtens_mind, fields_written_mind.

(** The graph in which the values [bad] gives stand in the place of some objects. *)
Section fill.
  Variable bad : loc -> option val.
  Fixpoint fill (v : val) : val :=
    match v with
    | VLoc l => match bad l with Some a => a | None => v end
    | VTuple vs => VTuple (map fill vs)
    | _ => v
    end.
  Definition fill_obj (ob : obj) : obj :=
    match ob with
    | OList vs => OList (map fill vs)
    | OSet vs => OSet (map fill vs)
    | ODict d => ODict (map (fun kv => (fst kv, fill (snd kv))) d)
    | _ => ob
    end.
  Definition fill_heap (h : heap) : heap := map fill_obj h.
End fill.
(** Scalars, and how they are written. *)
Inductive scalar_json : val -> json -> Prop :=
| sj_none : scalar_json VNone JNull
| sj_bool b : scalar_json (VBool b) (JBool b)
| sj_int z : scalar_json (VInt z) (JInt z)
| sj_float t : scalar_json (VFloat t) (JFloat t)
| sj_str s : scalar_json (VStr s) (JStr s).
(** [bad] gives for each object that is replaced the scalar that is written for it. *)
Definition replacements (w : world) (k : hooks) (fail_safe : option (exn -> res json)) (h : heap) (bad : loc -> option val) : Prop :=
  (forall l j, hole w k fail_safe h l j -> exists a, bad l = Some a /\ scalar_json a j) /\
  (forall l a, bad l = Some a -> exists j, hole w k fail_safe h l j).
(** Every reference in the document is to an object numbered before the first replaced one. *)
Definition refs_before (bad : loc -> option val) (tab : list loc) (j : json) : Prop :=
  forall z i l, occurs false z j -> nth_error tab i = Some l -> bad l <> None -> (z < Z.of_nat i)%Z.

(** The graphs described: lists, dicts with string keys, tuples, sets, classes, plain instances
    and objects that are replaced.  [ok] is a set of values that contains with a value what
    the value consists of. *)
Section clean.
  Variables (w : world) (k : hooks) (fail_safe : option (exn -> res json)) (h : heap).
  (** No set inside without a list, dict or instance between. *)
  Fixpoint flat (v : val) : Prop :=
    match v with
    | VLoc l => forall vs, hget h l <> Some (OSet vs)
    | VTuple vs => (fix go vs := match vs with [] => True | v :: vs => flat v /\ go vs end) vs
    | _ => True
    end.
  Definition clean_fields (ok : val -> Prop) (d : list (val * val)) : Prop :=
    NoDup (map fst d) /\
    forall kv, In kv d -> ok (snd kv) /\ (exists a, fst kv = VStr a /\ smem a wire_names = false) /\
      (forall f, snd kv <> VFun f) /\ (forall l i, snd kv = VLoc l -> hget h l = Some (OInst i) -> c_isfun (w_cls w (i_cls i)) = false).
  Definition clean_obj (ok : val -> Prop) (ob : obj) : Prop :=
    match ob with
    | OList vs => Forall ok vs
    | OSet vs => Forall ok vs /\ Forall flat vs
    | ODict d => clean_fields ok d
    | OInst i => plain_class w (i_cls i) /\ exists dl d, i_dict i = Some dl /\ hget h dl = Some (ODict d) /\ clean_fields ok d
    | _ => False
    end.
  Definition clean (ok : val -> Prop) : Prop := forall v, ok v ->
    match v with
    | VNone | VBool _ | VInt _ | VFloat _ | VStr _ | VType _ => True
    | VTuple vs => Forall ok vs
    | VLoc l => (exists j, hole w k fail_safe h l j) \/ exists ob, hget h l = Some ob /\ clean_obj ok ob
    | _ => False
    end.
End clean.
