(** Python object graphs and the environment (classes, functions, user code).

    A value is an immediate ([None], numbers, strings, bytes, tuples, classes, functions,
    modules) or a heap location.  Simplifications: tuples are structural (two equal tuples
    are the same value), instances compare and hash by identity, a float is its repr
    token, an int key and an equal float key are different keys. *)
From Verif Require Import PyStr Json Base B64 JsonText.
Open Scope nat_scope.
Open Scope list_scope.

Definition loc := nat.

Inductive val : Type :=
| VNone
| VBool (b : bool)
| VInt (z : Z)
| VFloat (tok : pystr)
| VStr (s : pystr)
| VBytes (b : bytes)
| VTuple (l : list val)
| VType (c : nat)            (* a class, by number in the class table *)
| VFun (f : nat)             (* functions, builtins and lambdas *)
| VMod (m : nat)             (* modules *)
| VExt (n : nat)             (* any other object that exists before decoding *)
| VLoc (l : loc)             (* lists, dicts, sets, bytearrays, instances *)
| VProxy (n : nat)           (* unpickler._Proxy, unpickler.py:142-178 *)
| VIDProxy (z : Z).          (* unpickler._IDProxy, unpickler.py:181-190 *)

Section val_ind.
  Variable P : val -> Prop.
  Hypothesis H1 : P VNone.
  Hypothesis H2 : forall b, P (VBool b).
  Hypothesis H3 : forall z, P (VInt z).
  Hypothesis H4 : forall t, P (VFloat t).
  Hypothesis H5 : forall s, P (VStr s).
  Hypothesis H6 : forall b, P (VBytes b).
  Hypothesis H7 : forall l, Forall P l -> P (VTuple l).
  Hypothesis H8 : forall c, P (VType c).
  Hypothesis H9 : forall f, P (VFun f).
  Hypothesis H10 : forall m, P (VMod m).
  Hypothesis H11 : forall n, P (VExt n).
  Hypothesis H12 : forall l, P (VLoc l).
  Hypothesis H13 : forall n, P (VProxy n).
  Hypothesis H14 : forall z, P (VIDProxy z).
  Fixpoint val_ind' (v : val) : P v :=
    match v with
    | VNone => H1 | VBool b => H2 b | VInt z => H3 z | VFloat t => H4 t | VStr s => H5 s
    | VBytes b => H6 b
    | VTuple l => H7 l ((fix go (l : list val) : Forall P l :=
        match l with [] => Forall_nil _ | x :: r => Forall_cons _ (val_ind' x) (go r) end) l)
    | VType c => H8 c | VFun f => H9 f | VMod m => H10 m | VExt n => H11 n | VLoc l => H12 l
    | VProxy n => H13 n | VIDProxy z => H14 z
    end.
End val_ind.

(** Object identity ([is] / equality of [id()]). *)
Fixpoint val_eqb (a b : val) : bool :=
  match a, b with
  | VNone, VNone => true
  | VBool x, VBool y => Bool.eqb x y
  | VInt x, VInt y => Z.eqb x y
  | VFloat x, VFloat y => seqb x y
  | VStr x, VStr y => seqb x y
  | VBytes x, VBytes y => list_eqb Ascii.eqb x y
  | VTuple x, VTuple y =>
      (fix go (x y : list val) : bool :=
         match x, y with
         | [], [] => true
         | p :: x', q :: y' => val_eqb p q && go x' y'
         | _, _ => false
         end) x y
  | VType x, VType y => Nat.eqb x y
  | VFun x, VFun y => Nat.eqb x y
  | VMod x, VMod y => Nat.eqb x y
  | VExt x, VExt y => Nat.eqb x y
  | VLoc x, VLoc y => Nat.eqb x y
  | VProxy x, VProxy y => Nat.eqb x y
  | VIDProxy x, VIDProxy y => Z.eqb x y
  | _, _ => false
  end.

Lemma val_eqb_eq a b : val_eqb a b = true <-> a = b.
Proof.
  revert b. induction a as [|x|x|x|x|x|l H|x|x|x|x|x|x|x] using val_ind'; intros w; destruct w; simpl;
    try (split; [intros E; discriminate E | intros E; inversion E]); try (split; intros; auto; fail).
  - destruct x, b; simpl; split; intros E; auto; inversion E.
  - rewrite Z.eqb_eq. split; [intros ->; auto | intros E; inversion E; auto].
  - rewrite seqb_eq. split; [intros ->; auto | intros E; inversion E; auto].
  - rewrite seqb_eq. split; [intros ->; auto | intros E; inversion E; auto].
  - rewrite (list_eqb_spec Ascii.eqb); [|intros; apply Ascii.eqb_eq].
    split; [intros ->; auto | intros E; inversion E; auto].
  - revert l0. induction H as [|x l Hx Hl IH]; intros [|y l0]; simpl;
      try (split; intros E; inversion E; auto; fail).
    + rewrite andb_true_iff, Hx, IH. split.
      * intros [-> E]. inversion E; subst; auto.
      * intros E. inversion E; subst; auto.
  - rewrite Nat.eqb_eq. split; [intros ->; auto | intros E; inversion E; auto].
  - rewrite Nat.eqb_eq. split; [intros ->; auto | intros E; inversion E; auto].
  - rewrite Nat.eqb_eq. split; [intros ->; auto | intros E; inversion E; auto].
  - rewrite Nat.eqb_eq. split; [intros ->; auto | intros E; inversion E; auto].
  - rewrite Nat.eqb_eq. split; [intros ->; auto | intros E; inversion E; auto].
  - rewrite Nat.eqb_eq. split; [intros ->; auto | intros E; inversion E; auto].
  - rewrite Z.eqb_eq. split; [intros ->; auto | intros E; inversion E; auto].
Qed.
Lemma val_eqb_refl a : val_eqb a a = true.
Proof. apply val_eqb_eq; auto. Qed.
Lemma val_eqb_spec a b : reflect (a = b) (val_eqb a b).
Proof.
  destruct (val_eqb a b) eqn:E; constructor; [apply val_eqb_eq; auto|].
  intros ->. rewrite val_eqb_refl in E. discriminate.
Qed.

(** Equality of dictionary keys and set members: [True == 1], tuples componentwise. *)
Fixpoint norm_key (v : val) : val :=
  match v with
  | VBool b => VInt (if b then 1 else 0)%Z
  | VTuple l => VTuple (map norm_key l)
  | _ => v
  end.
Definition key_eqb (a b : val) : bool := val_eqb (norm_key a) (norm_key b).
Lemma key_eqb_refl a : key_eqb a a = true.
Proof. apply val_eqb_refl. Qed.
Lemma key_eqb_sym a b : key_eqb a b = key_eqb b a.
Proof.
  unfold key_eqb. destruct (val_eqb_spec (norm_key a) (norm_key b)) as [E|E].
  - rewrite E, val_eqb_refl. reflexivity.
  - destruct (val_eqb_spec (norm_key b) (norm_key a)); congruence.
Qed.
Lemma key_eqb_trans a b c : key_eqb a b = true -> key_eqb b c = true -> key_eqb a c = true.
Proof. unfold key_eqb. rewrite !val_eqb_eq. congruence. Qed.

(** Python dict operations on [list (val * val)] (insertion ordered). *)
Fixpoint dget (k : val) (d : list (val * val)) : option val :=
  match d with
  | [] => None
  | (k', v) :: r => if key_eqb k k' then Some v else dget k r
  end.
Fixpoint dset (k v : val) (d : list (val * val)) : list (val * val) :=
  match d with
  | [] => [(k, v)]
  | (k', v') :: r => if key_eqb k k' then (k', v) :: r else (k', v') :: dset k v r
  end.
(** [set.add] *)
Definition set_add (v : val) (l : list val) : list val :=
  if existsb (key_eqb v) l then l else l ++ [v].

(** How a decoded instance came to be: [cls.__new__], a call, [make_blank_classic], or a
    custom handler.  Instances in an encoder's input carry [CSrc]. *)
Inductive crec : Type :=
| CSrc
| CNew (args : list val) (kwargs : list (pystr * val))
| CCall (f : val) (args : list val)
| CBlank
| CHandler (h : nat) (parts : list val).

Record inst : Type := mkInst {
  i_cls : nat;                       (* class *)
  i_dict : option loc;               (* __dict__ *)
  i_slots : list (pystr * val);      (* values of the slots that are set *)
  i_items : list (val * val);        (* content of a dict subclass *)
  i_elems : list val;                (* content of a list/set/tuple subclass or deque *)
  i_fac : option val;                (* defaultdict's default_factory slot *)
  i_rec : crec;
  i_state : list val;                (* arguments of the __setstate__ / state setter calls made on it *)
  i_pos : nat                        (* iterators: number of items already taken *)
}.

Inductive obj : Type :=
| OList (l : list val)
| OSet (l : list val)
| ODict (d : list (val * val))
| OByteArray (b : bytes)
| OInst (i : inst)
| OIter (l : loc).                   (* iter(list) made by the unpickler *)

Definition heap := list obj.

Definition hget (h : heap) (l : loc) : option obj := nth_error h l.
Fixpoint hset (h : heap) (l : loc) (o : obj) : heap :=
  match h, l with
  | [], _ => []
  | _ :: r, 0 => o :: r
  | x :: r, S l' => x :: hset r l' o
  end.
Definition halloc (o : obj) (h : heap) : loc * heap := (length h, h ++ [o]).

Lemma hset_length h l o : length (hset h l o) = length h.
Proof. revert l; induction h as [|x h IH]; destruct l; simpl; auto. Qed.
Lemma hget_hset_same h l o : l < length h -> hget (hset h l o) l = Some o.
Proof.
  unfold hget. revert l; induction h as [|x h IH]; destruct l; simpl; intros H; try lia; auto.
  apply IH; lia.
Qed.
Lemma hget_hset_other h l l' o : l <> l' -> hget (hset h l o) l' = hget h l'.
Proof.
  unfold hget. revert l l'; induction h as [|x h IH]; destruct l, l'; simpl; intros H; auto; try congruence.
Qed.
Lemma hget_app_old h o l : l < length h -> hget (h ++ [o]) l = hget h l.
Proof. intros H. unfold hget. apply nth_error_app1; auto. Qed.
Lemma hget_app_new h o : hget (h ++ [o]) (length h) = Some o.
Proof. unfold hget. rewrite nth_error_app2, Nat.sub_diag; auto. Qed.
Lemma hget_lt h l o : hget h l = Some o -> l < length h.
Proof. intros H. apply nth_error_Some. unfold hget in H. congruence. Qed.

(** Class kinds: which builtin container the class derives from. *)
Inductive kind : Type := KPlain | KDict | KList | KSet | KTuple | KIter | KDeque.

(** Outcome of [setattr(instance, name, value)] as decided by the class. *)
Inductive sattr : Type := SAOk | SARaise (e : exn).

Record cinfo : Type := mkCinfo {
  c_name : pystr;                    (* __name__ *)
  c_qualname : pystr;                (* __qualname__ *)
  c_module : pystr;                  (* __module__ *)
  c_types_name : option pystr;       (* entry in util._TYPES_IMPORTABLE_NAMES *)
  c_kind : kind;
  c_dict : bool;                     (* instances have __dict__ *)
  c_slots : option (list pystr);     (* chain of __slots__ over the MRO, if any *)
  c_exclude : list pystr;            (* _jsonpickle_exclude *)
  c_enum : bool;
  c_isfun : bool;                    (* type in util.FUNCTION_TYPES (bound methods) *)
  c_getstate : bool;                 (* defines its own __getstate__ *)
  c_setstate : bool;                 (* has __setstate__ *)
  c_newargs : bool; c_newargs_ex : bool; c_initargs : bool;
  c_reduce : bool;                   (* util.has_reduce(obj) != (False, False) *)
  c_fields : option nat;             (* len(cls._fields) for namedtuples *)
  c_deffac : bool;                   (* derives from collections.defaultdict *)
  c_hash : bool;                     (* instances are hashable *)
  c_callable : bool;                 (* instances are callable *)
  c_intstr : bool;                   (* derives from int or str *)
  c_setattr : pystr -> sattr
}.

Record finfo : Type := mkFinfo {
  f_name : pystr; f_qualname : pystr; f_module : pystr;
  f_modfun : bool                    (* util._is_module_function *)
}.

(** util.py:427-443, 464-497 [importable_name] uses [translate_module_name] (446-462). *)
Definition translate_module_name (m : pystr) : pystr :=
  if seqb m (u "__builtin__") then u "builtins"
  else if seqb m (u "exceptions") then u "builtins" else m.
Definition DOT : N := 46%N.
Definition importable_name (c : cinfo) : pystr :=
  match c_types_name c with
  | Some n => n
  | None => translate_module_name (c_module c) ++ DOT :: c_qualname c
  end.
Definition importable_fname (f : finfo) : pystr :=
  translate_module_name (f_module f) ++ DOT :: f_qualname f.

(** Result of running user code that constructs an object. *)
Inductive cres : Type :=
| CInst (c : nat)                    (* a fresh instance of class c *)
| CVal (v : val)
| CRaise (e : exn).

(** Python truthiness ([__bool__]/[__len__] written by users are not modelled). *)
Definition otruthy (o : obj) (cls : nat -> cinfo) : bool :=
  match o with
  | OList l | OSet l => match l with [] => false | _ => true end
  | ODict d => match d with [] => false | _ => true end
  | OByteArray b => match b with [] => false | _ => true end
  | OIter _ => true
  | OInst i =>
      match c_kind (cls (i_cls i)) with
      | KDict => match i_items i with [] => false | _ => true end
      | KList | KSet | KTuple | KDeque => match i_elems i with [] => false | _ => true end
      | _ => true
      end
  end.
Definition truthy (cls : nat -> cinfo) (h : heap) (v : val) : bool :=
  match v with
  | VNone => false
  | VBool b => b
  | VInt z => negb (Z.eqb z 0)
  | VFloat t => negb (float_zero t)
  | VStr s => match s with [] => false | _ => true end
  | VBytes b => match b with [] => false | _ => true end
  | VTuple l => match l with [] => false | _ => true end
  | VLoc l => match hget h l with Some o => otruthy o cls | None => true end
  | _ => true
  end.

(** [hash(v)] succeeds. *)
Fixpoint hashable (cls : nat -> cinfo) (h : heap) (v : val) : bool :=
  match v with
  | VTuple l => forallb (hashable cls h) l
  | VLoc l =>
      match hget h l with
      | Some (OInst i) => c_hash (cls (i_cls i))
      | Some (OIter _) => true
      | _ => false
      end
  | _ => true
  end.

(** [list(v)], i.e. what [*v] unpacks. *)
Definition iter_val (cls : nat -> cinfo) (h : heap) (v : val) : res (list val) :=
  match v with
  | VTuple l => Ret l
  | VStr s => Ret (map (fun c => VStr [c]) s)
  | VBytes b => Ret (map (fun c => VInt (Z.of_N (N_of_ascii c))) b)
  | VLoc l =>
      match hget h l with
      | Some (OList l) | Some (OSet l) => Ret l
      | Some (ODict d) => Ret (map fst d)
      | Some (OByteArray b) => Ret (map (fun c => VInt (Z.of_N (N_of_ascii c))) b)
      | Some (OIter l') => match hget h l' with Some (OList l) => Ret l | _ => Ret [] end
      | Some (OInst i) =>
          match c_kind (cls (i_cls i)) with
          | KDict => Ret (map fst (i_items i))
          | KList | KSet | KTuple | KDeque => Ret (i_elems i)
          | KIter => Exc EUnmodelled
          | KPlain => Exc ETypeError
          end
      | None => Exc EUnmodelled
      end
  | VExt _ => Exc EUnmodelled
  | _ => Exc ETypeError
  end.

(** Raw JSON documents as Python objects (fresh lists and dicts). *)
Fixpoint alloc_json (j : json) (h : heap) : val * heap :=
  match j with
  | JNull => (VNone, h)
  | JBool b => (VBool b, h)
  | JInt z => (VInt z, h)
  | JFloat t => (VFloat t, h)
  | JStr s => (VStr s, h)
  | JList l =>
      let (vs, h1) := (fix go (l : list json) (h : heap) : list val * heap :=
         match l with
         | [] => ([], h)
         | x :: r => let (v, h1) := alloc_json x h in let (vs, h2) := go r h1 in (v :: vs, h2)
         end) l h in
      (VLoc (length h1), h1 ++ [OList vs])
  | JObj o =>
      let (vs, h1) := (fix go (o : list (pystr * json)) (h : heap) : list (val * val) * heap :=
         match o with
         | [] => ([], h)
         | (k, x) :: r => let (v, h1) := alloc_json x h in let (vs, h2) := go r h1 in ((VStr k, v) :: vs, h2)
         end) o h in
      (VLoc (length h1), h1 ++ [ODict vs])
  end.

(** Custom handlers as arbitrary interaction trees: the only effects a handler has on the
    pickler/unpickler are calls of [context.flatten] / [context.restore].

    [FFlatten r v k]: call [self.context.flatten(v, reset=r)] and go on with its result. *)
Inductive fscript : Type :=
| FDone (r : option json)            (* return value of flatten(); None is Python None *)
| FRaise (e : exn)
| FFlatten (reset : bool) (v : val) (k : json -> fscript).
Inductive hout : Type :=
| HInst (c : nat) (parts : list val)
| HVal (v : val).
(** [HRestore j k]: call [self.context.restore(j, reset=False)]. *)
Inductive hscript : Type :=
| HDone (r : hout)
| HRaise (e : exn)
| HRestore (j : json) (k : val -> hscript).

(** handlers.Registry state (handlers.py:39-42); operations are in Registry.v. *)
Inductive rkey : Type := RCls (c : nat) | RName (n : pystr).
Record registry : Type := mkReg {
  r_handlers : list (rkey * nat);
  r_base : list (nat * nat)
}.

(** The environment. *)
Record world : Type := mkWorld {
  w_cls : nat -> cinfo;
  w_fun : nat -> finfo;
  w_mod : nat -> pystr;                                (* module __name__ *)
  w_sub : nat -> nat -> bool;                          (* issubclass *)
  w_import : pystr -> res val;                         (* import_module + sys.modules *)
  w_import_top : pystr -> res val;                     (* the object __import__ returns *)
  w_sysmod : pystr -> option val;                      (* sys.modules *)
  w_getattr : val -> pystr -> res val;                 (* attributes of modules and classes *)
  w_new : heap -> nat -> list val -> list (pystr * val) -> cres;   (* cls.__new__ *)
  w_call : heap -> val -> list val -> cres;            (* calls of callables *)
  w_blank : nat -> bool;                               (* obj.__class__ = cls works *)
  w_ext_callable : nat -> bool;
  w_setstate : heap -> nat -> val -> option exn;       (* instance.__setstate__(state) *)
  w_setter : heap -> val -> val -> val -> option exn;  (* state_setter(obj, state) *)
  w_eval : pystr -> res val;                           (* loadrepr: import + eval *)
  w_reg : registry;
  w_hflat : nat -> option val -> loc -> jobj -> fscript;
  w_hrest : nat -> option val -> jobj -> hscript;
  w_hctx_flat : nat -> bool;                           (* handler_accepts_handler_context *)
  w_hctx_rest : nat -> bool;
  w_clone : nat;                                       (* class handlers.CloneFactory *)
  w_nonetype : nat                                     (* type(None) *)
}.

(** What encoding asks of user objects; fixed answers per object (no side effects). *)
Inductive rv : Type := RNone | RStr (s : pystr) | RTup (l : list val).
Record hooks : Type := mkHooks {
  k_reduce : loc -> res rv;
  k_getstate : loc -> res val;
  k_newargs : loc -> res val;
  k_newargs_ex : loc -> res (list val);
  k_initargs : loc -> res val;
  k_iter : loc -> nat -> res (option val);             (* n-th item an iterator yields *)
  k_attr : loc -> pystr -> res val;                    (* class attributes, properties *)
  k_dir : loc -> list pystr;                           (* dir(obj) without dunder names *)
  k_props : loc -> list pystr;                         (* members of the class, no dunder names *)
  k_eqdict : loc -> bool;                              (* obj == obj.__dict__, both non-empty *)
  k_members : val -> list pystr;                       (* inspect.getmembers names *)
  k_repr : val -> res pystr;
  k_str : val -> res pystr;
  k_call0 : val -> res val                             (* factory() *)
}.

(** Name mangling of slot names ([__x] in class C is stored as [_C__x]). *)
Definition dunder (s : pystr) : bool := prefixb (u "__") s.
Definition mangle (c : cinfo) (s : pystr) : pystr :=
  if dunder s then u "_" ++ c_name c ++ s else s.

(** [getattr] for attributes stored in the instance: slots first, then [__dict__]. *)
Definition inst_attr (h : heap) (i : inst) (a : pystr) : option val :=
  match sget a (i_slots i) with
  | Some v => Some v
  | None =>
      match i_dict i with
      | Some d => match hget h d with Some (ODict items) => dget (VStr a) items | _ => None end
      | None => None
      end
  end.

(** Storing an instance attribute: the [default_factory] slot of defaultdicts, a declared
    slot, or [__dict__].  Assigning [__dict__] itself needs a dict (dict subclasses are not
    modelled).  This is also [object.__setattr__]. *)
Definition inst_store (cls : nat -> cinfo) (h : heap) (l : loc) (i : inst) (a : pystr) (v : val) : res heap :=
  let c := cls (i_cls i) in
  if seqb a (u "__dict__") then
    if c_dict c then
      match v with
      | VLoc d =>
          match hget h d with
          | Some (ODict _) =>
              Ret (hset h l (OInst (mkInst (i_cls i) (Some d) (i_slots i) (i_items i) (i_elems i)
                                      (i_fac i) (i_rec i) (i_state i) (i_pos i))))
          | Some (OInst j) => match c_kind (cls (i_cls j)) with
                              | KDict => Exc EUnmodelled | _ => Exc ETypeError end
          | _ => Exc ETypeError
          end
      | _ => Exc ETypeError
      end
    else Exc EAttributeError
  else if seqb a (u "default_factory") && c_deffac c then
    Ret (hset h l (OInst (mkInst (i_cls i) (i_dict i) (i_slots i) (i_items i) (i_elems i)
                            (Some v) (i_rec i) (i_state i) (i_pos i))))
  else if match c_slots c with Some sl => smem a (map (mangle c) sl) | None => false end then
    Ret (hset h l (OInst (mkInst (i_cls i) (i_dict i) (sset a v (i_slots i)) (i_items i) (i_elems i)
                            (i_fac i) (i_rec i) (i_state i) (i_pos i))))
  else
    match i_dict i with
    | Some d =>
        match hget h d with
        | Some (ODict items) => Ret (hset h d (ODict (dset (VStr a) v items)))
        | _ => Exc EUnmodelled
        end
    | None => Exc EAttributeError
    end.
(** [setattr(instance, a, v)]: the class may refuse ([c_setattr]). *)
Definition inst_setattr (cls : nat -> cinfo) (h : heap) (l : loc) (a : pystr) (v : val) : res heap :=
  match hget h l with
  | Some (OInst i) =>
      match c_setattr (cls (i_cls i)) a with
      | SARaise e => Exc e
      | SAOk => inst_store cls h l i a v
      end
  | Some _ => Exc EAttributeError
  | None => Exc EUnmodelled
  end.
