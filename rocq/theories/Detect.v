(** How the pickler finds out which protocol methods an object has: util.py:89-133 [has_method],
    296-346 [_is_list_like .. _is_reducible], 374-424 [in_dict .. has_reduce] and pickler.py:586-600
    [_reduce].

    Classes are numbers with a dictionary and a method resolution order; metaclasses other than
    [type], [__getattr__] and [__slots__] that are strings or iterators are not modelled. *)
From Verif Require Import PyStr Base Json.
Open Scope nat_scope.

(** What a class dictionary holds under a name. *)
(** what a class attribute can be, as far as util.py:89-133, 374-424 looks at it *)
Inductive attr : Type :=
| AFunction                    (* a def in the class *)
| AStatic | AClassmethod
| ABuiltin                     (* a method of a type written in C: bound, it is a BuiltinMethodType *)
| AOther (truthy : bool).      (* any other object *)
Definition attr_truthy (a : attr) : bool := match a with AOther b => b | _ => true end.
(** [None] as a class attribute is [AOther false]; it is what [vars(subtype).get(name)] takes for absent. *)
(** a class: its __dict__ and its __mro__ *)
Record klass : Type := mkKlass { kl_module : pystr; kl_dict : list (pystr * attr) }.
(** What the instance's own [__dict__] holds under a name. *)
(** an instance: its __dict__ and its class *)
Inductive iattr : Type :=
| IFunction                          (* a plain function *)
| IBoundTo (c : nat)                 (* a method bound to an instance of class c *)
| IBoundClass (c : nat)              (* a method bound to class c *)
| IBuiltin | IOther.
Record iobj : Type := mkIobj { io_cls : nat; io_dict : list (pystr * iattr); io_slots : list pystr }.

(** util.py:374-424 *)
Definition REDUCE_ : pystr := u "__reduce__".
Definition REDUCE_EX : pystr := u "__reduce_ex__".

Section detect.
  Variable kl : nat -> klass.
  Variable mro : nat -> list nat.          (* type.__mro__ *)
  (** the classes that util.py names *)
  Variables (c_object c_dict c_list c_set c_tuple c_modtype c_defaultdict c_struct : nat).
  Variable nonreducible : list nat.        (* NON_REDUCIBLE_TYPES, util.py:46-57 *)

  Definition nmem (x : nat) (l : list nat) : bool := existsb (Nat.eqb x) l.
  (** Python: issubclass, the attribute lookup along the __mro__ (type.__getattribute__) *)
  Definition issub (c d : nat) : bool := nmem d (mro c).
  Definition defines (name : pystr) (c : nat) : bool := shas name (kl_dict (kl c)).
  (** [getattr(c, name)] on a class: the first definition *)
  Fixpoint first_def (name : pystr) (l : list nat) : option (nat * attr) :=
    match l with
    | [] => None
    | c :: r => match sget name (kl_dict (kl c)) with Some a => Some (c, a) | None => first_def name r end
    end.
  Definition cls_attr (c : nat) (name : pystr) : option (nat * attr) := first_def name (mro c).
  Definition cls_has (c : nat) (name : pystr) : bool := match cls_attr c name with Some _ => true | None => false end.
  Definition obj_has (x : iobj) (name : pystr) : bool := shas name (io_dict x) || cls_has (io_cls x) name.

  (** util.py:296-297 *)
  Definition list_like_obj (x : iobj) : bool := obj_has x (u "__getitem__") && obj_has x (u "append").
  Definition list_like_cls (c : nat) : bool := cls_has c (u "__getitem__") && cls_has c (u "append").
  (** util.py:315-332 for an instance *)
  Definition reducible_obj (x : iobj) : bool :=
    let c := io_cls x in
    if seqb (kl_module (kl c)) (u "collections") && negb (issub c c_defaultdict) then true
    else negb (nmem c nonreducible
               || (issub c c_dict && negb (Nat.eqb c c_dict))
               || issub c c_modtype
               || (issub c c_list || issub c c_set || issub c c_tuple)
               || list_like_obj x).
  (** util.py:315-332 applied to a class, whose own type is [type] *)
  Definition reducible_cls (c : nat) : bool :=
    negb (Nat.eqb c c_object || list_like_cls c || seqb (kl_module (kl c)) (u "datetime")).

  (** util.py:358-371 *)
  Definition in_dict_obj (x : iobj) (name : pystr) : bool := shas name (io_dict x).
  Definition in_slots_obj (x : iobj) (name : pystr) : bool := smem name (io_slots x).
  (** util.py:399-406: the loop over the MRO; the third component is "returned" *)
  Fixpoint mro_loop (l : list nat) (r rx : bool) : bool * bool * bool :=
    match l with
    | [] => (r, rx, false)
    | b :: rest =>
        let r' := if reducible_cls b then r || defines REDUCE_ b else r in
        let rx' := if reducible_cls b then rx || defines REDUCE_EX b else rx in
        if r' && rx' then (r', rx', true) else mro_loop rest r' rx'
    end.
  (** util.py:408-422: [getattr(cls, name, False)], unless it is that of object *)
  Definition by_getattr (c : nat) (name : pystr) (found : bool) : bool :=
    if found then true
    else match cls_attr c name with
         | Some (b, a) => negb (Nat.eqb b c_object) && attr_truthy a
         | None => false
         end.
  (** util.py:374-424; the truth values of the two results *)
  Definition has_reduce (x : iobj) : bool * bool :=
    if negb (reducible_obj x) then (false, false)
    else if Nat.eqb (io_cls x) c_struct then (false, true)
    else
      let r0 := in_dict_obj x REDUCE_ || in_slots_obj x REDUCE_ in
      let rx0 := in_dict_obj x REDUCE_EX || in_slots_obj x REDUCE_EX in
      let '(r, rx, done) := mro_loop (mro (io_cls x)) r0 rx0 in
      if done then (r, rx)
      else (by_getattr (io_cls x) REDUCE_ r, by_getattr (io_cls x) REDUCE_EX rx).

  (** What runs when a method of x is called by name: the instance's own function, or the
      definition of a class. *)
  (** util.py:374-424: the object whose methods are looked at *)
  Inductive target : Type := TOwn (name : pystr) | TClass (c : nat) (name : pystr) | TNone.
  Definition resolve (x : iobj) (name : pystr) : target :=
    if shas name (io_dict x) then TOwn name
    else match cls_attr (io_cls x) name with Some (b, _) => TClass b name | None => TNone end.
  (** pickler.py:586-600: what is called on the object, if anything *)
  Definition reduce_call (x : iobj) : option target :=
    let '(r, rx) := has_reduce x in
    if r && negb rx then Some (resolve x REDUCE_)
    else if rx then Some (resolve x REDUCE_EX)
    else None.

  (** util.py:89-133 for an instance *)
  Inductive func : Type := FBuiltin | FFunction | FMethodTo (c : nat) | FMethodCls (c : nat) | FElse.
  Definition getattr_func (x : iobj) (name : pystr) : option func :=
    match sget name (io_dict x) with
    | Some IFunction => Some FFunction
    | Some (IBoundTo c) => Some (FMethodTo c)
    | Some (IBoundClass c) => Some (FMethodCls c)
    | Some IBuiltin => Some FBuiltin
    | Some IOther => Some FElse
    | None =>
        match cls_attr (io_cls x) name with
        | Some (_, AFunction) => Some (FMethodTo (io_cls x))
        | Some (_, AStatic) => Some FFunction
        | Some (_, AClassmethod) => Some (FMethodCls (io_cls x))
        | Some (_, ABuiltin) => Some FBuiltin
        | Some (_, AOther _) => Some FElse
        | None => None
        end
    end.
  (** util.py:107-116: the first definition that is not None *)
  Fixpoint original (name : pystr) (l : list nat) : option attr :=
    match l with
    | [] => None
    | c :: r => match sget name (kl_dict (kl c)) with
                | Some (AOther false) | None => original name r
                | Some a => Some a
                end
    end.
  (** util.py:89-133 *)
  Definition has_method (x : iobj) (name : pystr) : bool :=
    match getattr_func x name with
    | None => false
    | Some FBuiltin => true
    | Some FElse => false
    | Some f =>
        match original name (mro (io_cls x)) with
        | None => false
        | Some AStatic => true
        | Some og =>
            match f with
            | FMethodTo c => match og with AClassmethod => false | _ => issub (io_cls x) c end
            | FMethodCls c => match og with AClassmethod => issub (io_cls x) c | _ => false end
            | _ => false
            end
        end
    end.
End detect.
