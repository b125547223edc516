(** Specification: two object graphs that differ only in the addresses of their objects, and
    graphs that differ only in what encode cannot see. *)
From Verif Require Import PyStr Json Base Heap Registry Pickler SpecGraph.
Open Scope nat_scope.

(** ** Isomorphic graphs *)
Section isomorphic.
  Variables (h h' : heap) (R : loc -> loc -> Prop).   (* which object corresponds to which *)
  (** Values: immutable ones are the same, references correspond. *)
  Definition flat (v : val) : bool := match v with VTuple _ | VLoc _ => false | _ => true end.
  Inductive viso : val -> val -> Prop :=
  | vi_flat v : flat v = true -> viso v v
  | vi_tuple xs ys : Forall2 viso xs ys -> viso (VTuple xs) (VTuple ys)
  | vi_loc l l' : R l l' -> viso (VLoc l) (VLoc l').
  Definition piso (p p' : val * val) : Prop := viso (fst p) (fst p') /\ viso (snd p) (snd p').
  Definition opt {A B} (P : A -> B -> Prop) (x : option A) (y : option B) : Prop :=
    match x, y with None, None => True | Some a, Some b => P a b | _, _ => False end.
  (** Objects: the same kind, the same class, contents that correspond in the same order. *)
  Record inst_iso (i i' : inst) : Prop := {
    ii_cls : i_cls i = i_cls i';
    ii_dict : opt (fun d d' => R d d' /\ exists its, hget h d = Some (ODict its)) (i_dict i) (i_dict i');
    ii_slots : Forall2 (fun p p' => fst p = fst p' /\ viso (snd p) (snd p')) (i_slots i) (i_slots i');
    ii_items : Forall2 piso (i_items i) (i_items i');
    ii_elems : Forall2 viso (i_elems i) (i_elems i');
    ii_fac : opt viso (i_fac i) (i_fac i');
    ii_pos : i_pos i = i_pos i'
  }.
  Inductive oiso : obj -> obj -> Prop :=
  | oi_list xs ys : Forall2 viso xs ys -> oiso (OList xs) (OList ys)
  | oi_set xs ys : Forall2 viso xs ys -> oiso (OSet xs) (OSet ys)
  | oi_dict d d' : Forall2 piso d d' -> oiso (ODict d) (ODict d')
  | oi_bytearray b : oiso (OByteArray b) (OByteArray b)
  | oi_inst i i' : inst_iso i i' -> oiso (OInst i) (OInst i')
  | oi_iter l l' : oiso (OIter l) (OIter l').
  Definition one_to_one : Prop := (forall l x y, R l x -> R l y -> x = y) /\ (forall x y l, R x l -> R y l -> x = y).
  Definition heap_iso : Prop := forall l l', R l l' -> opt oiso (hget h l) (hget h' l') /\ hget h l <> None.
End isomorphic.

(** User code that answers alike on corresponding objects. *)
Definition same_res {A} (P : A -> A -> Prop) (x y : res A) : Prop :=
  match x, y with Ret a, Ret b => P a b | Exc e, Exc e' => e = e' | OOF, OOF => True | _, _ => False end.
Fixpoint same_script (V : val -> val -> Prop) (s s' : fscript) : Prop :=
  match s, s' with
  | FDone r, FDone r' => r = r'
  | FRaise e, FRaise e' => e = e'
  | FFlatten b v kk, FFlatten b' v' kk' => b = b' /\ V v v' /\ forall j, same_script V (kk j) (kk' j)
  | _, _ => False
  end.
(** Values that can get a reference number. *)
Definition number (R : loc -> loc -> Prop) (v v' : val) : Prop :=
  match v, v' with
  | VLoc l, VLoc l' => R l l'
  | _, _ => flat v = true /\ v = v'
  end.
Section user.
  Variables (w : world) (k k' : hooks) (h : heap) (R : loc -> loc -> Prop) (V S : val -> val -> Prop).
  (** [V]: values correspond; [S]: also their truth values. *)
  Definition same_rv (x y : rv) : Prop :=
    match x, y with
    | RNone, RNone => True
    | RStr a, RStr b => a = b
    | RTup l, RTup l' => Forall2 S l l'
    | _, _ => False
    end.
  (** The objects at l and l' correspond, and are of a class of which P holds. *)
  Definition asked (P : cinfo -> bool) (l l' : loc) : Prop :=
    R l l' /\ exists i, hget h l = Some (OInst i) /\ P (w_cls w (i_cls i)) = true.
  Definition is_iterator (c : cinfo) : bool := match c_kind c with KIter => true | _ => false end.
  Definition is_dict_sub (c : cinfo) : bool := match c_kind c with KDict => true | _ => false end.
  Definition has_slots (c : cinfo) : bool := match c_slots c with Some _ => true | None => false end.
  Record same_hooks : Prop := {
    ho_reduce : forall l l', asked c_reduce l l' -> same_res same_rv (k_reduce k l) (k_reduce k' l');
    ho_getstate : forall l l', asked c_getstate l l' -> same_res S (k_getstate k l) (k_getstate k' l');
    ho_newargs : forall l l', asked c_newargs l l' -> same_res V (k_newargs k l) (k_newargs k' l');
    ho_newargs_ex : forall l l', asked c_newargs_ex l l' -> same_res (Forall2 V) (k_newargs_ex k l) (k_newargs_ex k' l');
    ho_initargs : forall l l', asked c_initargs l l' -> same_res V (k_initargs k l) (k_initargs k' l');
    ho_iter : forall l l' n, asked is_iterator l l' -> same_res (opt V) (k_iter k l n) (k_iter k' l' n);
    ho_eqdict : forall l l', asked is_dict_sub l l' -> k_eqdict k l = k_eqdict k' l';
    ho_dir : forall l l', asked has_slots l l' -> k_dir k l = k_dir k' l';
    ho_attr : forall l l' a, R l l' -> same_res V (k_attr k l a) (k_attr k' l' a);
    ho_props : forall l l', R l l' -> k_props k l = k_props k' l';
    ho_call0 : forall f f', number R f f' -> same_res V (k_call0 k f) (k_call0 k' f');
    ho_modstr : forall m, k_str k (VMod m) = k_str k' (VMod m);
    ho_script : forall hd ctx l l' data i, R l l' -> hget h l = Some (OInst i) ->
      reg_lookup (w_sub w) (w_reg w) (i_cls i) (importable_name (w_cls w (i_cls i))) = Some hd ->
      same_script V (w_hflat w hd ctx l data) (w_hflat w hd ctx l' data);
    (* a name given by __reduce__ stands for an object that corresponds to itself *)
    ho_global : forall l l' s m a x, asked c_reduce l l' -> k_reduce k l = Ret (RStr s) -> w_getattr w m a = Ret x -> V x x
  }.
End user.

(** The same options with numeric_keys=nk. *)
Definition set_numeric (nk : bool) (o : popts) : popts :=
  {| po_unpicklable := po_unpicklable o; po_make_refs := po_make_refs o; po_keys := po_keys o; po_max_depth := po_max_depth o;
     po_warn := po_warn o; po_max_iter := po_max_iter o; po_b85 := po_b85 o; po_fail_safe := po_fail_safe o; po_props := po_props o;
     po_readonly := po_readonly o; po_root := po_root o; po_sort := po_sort o; po_ctx := po_ctx o; po_numeric := nk |}.

(** ** Graphs that look alike to encode, the second time with numeric_keys=nk *)
Section alike.
  Variables (w : world) (o : popts) (nk : bool) (k k' : hooks) (h h' : heap).
  Variable R0 : loc -> loc -> Prop.    (* which object corresponds to which *)
  Variable exact : bool.               (* also sets and bytearrays correspond one to one *)
  Notation cls := (w_cls w).
  (** Dicts that encode makes itself correspond in the order they are made. *)
  Definition corr (x y : loc) : Prop := R0 x y \/ exists n, x = length h + n /\ y = length h' + n.
  Inductive like : val -> val -> Prop :=
  | lk_flat v : flat v = true -> like v v
  | lk_tuple xs ys : Forall2 like xs ys -> like (VTuple xs) (VTuple ys)
  | lk_loc l l' : corr l l' -> like (VLoc l) (VLoc l')
  | lk_set l l' xs ys : exact = false -> hget h l = Some (OSet xs) -> hget h' l' = Some (OSet ys) ->
      Forall2 like xs ys -> like (VLoc l) (VLoc l')
  | lk_bytearray l l' x : exact = false -> hget h l = Some (OByteArray x) -> hget h' l' = Some (OByteArray x) ->
      like (VLoc l) (VLoc l').
  Definition numb : val -> val -> Prop := number corr.
  Definition truth_like (v v' : val) : Prop := like v v' /\ truthy cls h v = truthy cls h' v'.
  Definition entry_like (p p' : val * val) : Prop :=
    like (fst p) (fst p') /\ (po_keys o = false -> key_string k o (fst p) = key_string k' (set_numeric nk o) (fst p')) /\ like (snd p) (snd p').
  (** With keys=True string keys are written before the others. *)
  Definition strings (d : list (val * val)) : list (val * val) := filter (fun kv => is_str (fst kv)) d.
  Definition dict_like (d d' : list (val * val)) : Prop :=
    if po_keys o then Forall2 entry_like (strings d) (strings d') /\ Forall2 entry_like (non_strings d) (non_strings d')
    else Forall2 entry_like d d'.
  (** The dict at d without the excluded names. *)
  Definition names_like (exclude : list pystr) (d d' : loc) : Prop :=
    exists its its', hget h d = Some (ODict its) /\ hget h' d' = Some (ODict its') /\
      dict_like (items exclude its) (items exclude its').
  Definition not_callable (hh : heap) (f : option val) : Prop := match f with Some v => callable w hh v = false | None => True end.
  Definition dict_there (hh : heap) (i : inst) : Prop := forall d, i_dict i = Some d -> hget hh d <> None.
  (** What encode reads of an instance itself. *)
  Definition fields_like (l : loc) (i i' : inst) : Prop :=
    let c := cls (i_cls i) in
    match c_kind c with
    | KDict =>
        length (i_items i) = length (i_items i') /\
        dict_like (items (c_exclude c) (i_items i)) (items (c_exclude c) (i_items i')) /\
        (opt like (factory_of w h i) (factory_of w h' i') \/
         not_callable h (factory_of w h i) /\ not_callable h' (factory_of w h' i')) /\
        opt (fun d d' => names_like (c_exclude c) d d' /\
               exists its its', hget h d = Some (ODict its) /\ hget h' d' = Some (ODict its') /\ length its = length its' /\
                 (corr d d' \/ i_items i = [] /\ its = [])) (i_dict i) (i_dict i')
    | KList | KSet | KTuple => opt (names_like []) (i_dict i) (i_dict i') /\ Forall2 like (i_elems i) (i_elems i')
    | KIter => True
    | _ => opt (names_like (c_exclude c)) (i_dict i) (i_dict i') /\
           (i_dict i = None -> c_slots c <> None -> forall a, smem a (c_exclude c) = false ->
              opt like (inst_attr h i (mangle c a)) (inst_attr h' i' (mangle c a)))
    end.
  (** Instances taken apart by user code alone: a handler, [__reduce__], [__getstate__]. *)
  Inductive by_user (l : loc) (i : inst) : Prop :=
  | bu_handler hd : reg_lookup (w_sub w) (w_reg w) (i_cls i) (importable_name (cls (i_cls i))) = Some hd -> by_user l i
  | bu_reduce rl : po_unpicklable o = true -> c_reduce (cls (i_cls i)) = true -> k_reduce k l = Ret (RTup rl) -> rl <> [] ->
      (forall x, nth 2 rl VNone = VLoc x -> hget h x <> None) ->
      (truthy cls h (nth 2 rl VNone) = false \/ c_getstate (cls (i_cls i)) = false \/ c_setstate (cls (i_cls i)) = true \/
       c_kind (cls (i_cls i)) = KDict) -> by_user l i
  | bu_state st : c_getstate (cls (i_cls i)) = true -> k_getstate k l = Ret st -> truthy cls h st = true ->
      (forall x, st = VLoc x -> c_exclude (cls (i_cls i)) = [] /\ hget h x <> None) -> by_user l i.
  Record inst_like (l : loc) (i i' : inst) : Prop := {
    il_cls : i_cls i = i_cls i';
    il_props : po_props o = true -> dict_there h i /\ dict_there h' i' /\ forall a, opt like (inst_attr h i a) (inst_attr h' i' a);
    il_fields : by_user l i \/ fields_like l i i'
  }.
  Inductive obj_like (l : loc) : obj -> obj -> Prop :=
  | ol_list xs ys : Forall2 like xs ys -> obj_like l (OList xs) (OList ys)
  | ol_set xs ys : Forall2 like xs ys -> obj_like l (OSet xs) (OSet ys)
  | ol_dict d d' : dict_like d d' -> obj_like l (ODict d) (ODict d')
  | ol_bytearray b : obj_like l (OByteArray b) (OByteArray b)
  | ol_inst i i' : inst_like l i i' -> (c_kind (cls (i_cls i)) = KIter -> i_pos i = i_pos i') -> obj_like l (OInst i) (OInst i')
  | ol_iter x x' : obj_like l (OIter x) (OIter x').
  Record alike : Prop := {
    al_one : one_to_one R0;
    al_obj : forall l l', R0 l l' -> exists ob ob', hget h l = Some ob /\ hget h' l' = Some ob' /\ obj_like l ob ob';
    al_hooks : same_hooks w k k' h R0 like truth_like;
    (* repr is only asked for what max_depth or make_refs=False cut off *)
    al_repr : (po_max_depth o = None /\ po_make_refs o = true) \/ forall v v', like v v' -> py_repr k v = py_repr k' v'
  }.
End alike.

(** ** A graph and its decoded copy *)
Section copies.
  Variables (w : world) (k : hooks) (keys : bool) (cl : list (pystr * val)) (h : heap) (v : val).
  (** R says which object is the copy of which. *)
  Definition copied_by (h' : heap) (b : nat) (v' : val) (R : loc -> loc -> Prop) : Prop :=
    one_to_one R /\ (forall l l', R l l' -> omatch w k keys h h' b b R l l') /\ vmatch h h' b R v v'.
  (** Of those, the objects reached from v. *)
  Definition within_v (R : loc -> loc -> Prop) (l l' : loc) : Prop := R l l' /\ reach w k keys cl h v (VLoc l).
  (** String keys that are written in escaped form come after the other string keys. *)
  Fixpoint escaped_last (d : list (val * val)) : Prop :=
    match d with
    | [] => True
    | (q, _) :: r => (is_escaped keys q = true -> forall kv, In kv r -> is_str (fst kv) = true -> is_escaped keys (fst kv) = true) /\ escaped_last r
    end.
  Record settled : Prop := {
    (* decoded dicts have their escaped keys after the others *)
    se_order : forall l d, reach w k keys cl h v (VLoc l) -> hget h l = Some (ODict d) -> escaped_last d;
    (* tuple subclasses are made by __new__, which is not modelled; iterators decode to built-in ones *)
    se_kind : forall l i, reach w k keys cl h v (VLoc l) -> hget h l = Some (OInst i) ->
      c_kind (w_cls w (i_cls i)) <> KIter /\ (c_kind (w_cls w (i_cls i)) = KTuple -> ~ (ordinary w k l i /\ no_state w k h (w_cls w (i_cls i)) l));
    (* a private slot is not excluded by its mangled name alone *)
    se_slots : forall l i a, reach w k keys cl h v (VLoc l) -> hget h l = Some (OInst i) ->
      kept (w_cls w (i_cls i)) a = true -> kept (w_cls w (i_cls i)) (mangle (w_cls w (i_cls i)) a) = true
  }.
End copies.
