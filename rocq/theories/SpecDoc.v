(** Specification: shapes of the documents made by encode. *)
From Verif Require Import PyStr Json Base Heap Pickler.
Open Scope nat_scope.

(** The keys used in a document, at any depth. *)
Fixpoint doc_keys (j : json) : list pystr :=
  match j with
  | JList l => (fix go l := match l with [] => [] | x :: r => doc_keys x ++ go r end) l
  | JObj ob => (fix go ob := match ob with [] => [] | (k, x) :: r => k :: doc_keys x ++ go r end) ob
  | _ => []
  end.
(** The names jsonpickle keeps for itself (jsonpickle/tags.py), without the two for bytes. *)
Definition tag_names : list pystr :=
  map u ["py/bytes"; "py/bytea"; "py/function"; "py/id"; "py/initargs"; "py/iterator"; "py/mod"; "py/newargs";
         "py/newargsex"; "py/newobj"; "py/object"; "py/property"; "py/reduce"; "py/default_factory"; "py/ref";
         "py/repr"; "py/seq"; "py/set"; "py/state"; "py/tuple"; "py/type"]%string.

(** Graphs of atoms, bytes, tuples, lists, sets, dicts and plain instances: no classes as
    values, no bytearrays, no iterators, no dict/list/set subclasses, no __getnewargs__. *)
Fixpoint plain_val (n : nat) (v : val) : bool :=
  match v with
  | VTuple l => forallb (plain_val n) l
  | VLoc l => Nat.ltb l n
  | VType _ => false
  | _ => true
  end.
Definition plain_class (c : cinfo) : bool :=
  match c_kind c with KPlain => true | _ => false end &&
  negb (c_newargs c) && negb (c_newargs_ex c) && negb (c_initargs c).
Definition obj_values (ob : obj) : list val :=
  match ob with
  | OList l | OSet l => l
  | ODict d => map fst d ++ map snd d
  | OInst i => match i_dict i with Some d => [VLoc d] | None => [] end ++ map snd (i_slots i) ++
               map fst (i_items i) ++ map snd (i_items i) ++ i_elems i ++
               match i_fac i with Some f => [f] | None => [] end
  | _ => []
  end.
Definition plain_obj (w : world) (n : nat) (ob : obj) : bool :=
  forallb (plain_val n) (obj_values ob) &&
  match ob with
  | OList _ | OSet _ | ODict _ => true
  | OInst i => plain_class (w_cls w (i_cls i))
  | _ => false
  end.
(** What user code answers for such a graph. *)
Record plain_hooks (k : hooks) (n : nat) : Prop := {
  ph_newargs_ex : forall l x, k_newargs_ex k l = Ret x -> forallb (plain_val n) x = true;
  ph_newargs : forall l x, k_newargs k l = Ret x -> plain_val n x = true;
  ph_initargs : forall l x, k_initargs k l = Ret x -> plain_val n x = true;
  ph_getstate : forall l x, k_getstate k l = Ret x -> plain_val n x = true;
  ph_reduce : forall l x, k_reduce k l = Ret (RTup x) -> forallb (plain_val n) x = true;
  ph_iter : forall l p x, k_iter k l p = Ret (Some x) -> plain_val n x = true;
  ph_attr : forall l a x, k_attr k l a = Ret x -> plain_val n x = true;
  ph_call0 : forall f x, k_call0 k f = Ret x -> plain_val n x = true
}.
(** User code that makes parts of documents (handlers, fail_safe) or strings out of keys
    uses names of jsonpickle nowhere. *)
Fixpoint script_keys (ok : val -> bool) (bad : pystr -> Prop) (sc : fscript) : Prop :=
  match sc with
  | FDone (Some j) => forall n, In n (doc_keys j) -> ~ bad n
  | FDone None | FRaise _ => True
  | FFlatten reset v kk => reset = false /\ ok v = true /\
      forall j, (forall n, In n (doc_keys j) -> ~ bad n) -> script_keys ok bad (kk j)
  end.
Record keys_clean (w : world) (k : hooks) (o : popts) (ok : val -> bool) (bad : pystr -> Prop) : Prop := {
  kc_repr : forall v n, (forall s, v <> VStr s) -> key_string k o v = Ret n -> ~ bad n;
  kc_fail : forall f e j n, po_fail_safe o = Some f -> f e = Ret j -> In n (doc_keys j) -> ~ bad n;
  kc_props : forall l n, po_props o = true -> In n (k_props k l) -> ~ bad n;
  kc_script : forall h ctx l c, script_keys ok bad (w_hflat w h ctx l (if po_unpicklable o then [(u "py/object", JStr c)] else []))
}.
