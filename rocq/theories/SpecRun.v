(** Specifications about runs of the encoder: objects left alone, keys made strings,
    values left out. *)
From Verif Require Import PyStr Tags Json JsonText Base Heap Registry Pickler.
Open Scope nat_scope.

(** Custom handlers that call back with reset=False, as the documentation asks them to. *)
Fixpoint no_reset (sc : fscript) : Prop :=
  match sc with
  | FDone _ | FRaise _ => True
  | FFlatten reset _ kk => reset = false /\ forall j, no_reset (kk j)
  end.
Definition handlers_keep (w : world) : Prop := forall hd ctx l ob, no_reset (w_hflat w hd ctx l ob).

(** js is what the pickler makes of vs, one after the other. *)
Inductive runs (f : val -> MP json) : list val -> list json -> pst -> pst -> Prop :=
| runs_nil s : runs f [] [] s s
| runs_cons v j vs js s s1 s2 : f v s = (Ret j, s1) -> runs f vs js s1 s2 -> runs f (v :: vs) (j :: js) s s2.

(** Keys of dicts without keys=True: strings as they are, None as null, other keys by repr
    (str if repr fails).  With numeric_keys=True numbers have the text JSON has for them. *)
Definition spelled_by_repr (nk : bool) (v : val) : Prop :=
  match v with VNone | VBool _ | VInt _ | VStr _ => False | VFloat _ => nk = false | _ => True end.
Inductive coerces (nk : bool) (k : hooks) : val -> pystr -> Prop :=
| co_str s : coerces nk k (VStr s) s
| co_none : coerces nk k VNone (u "null")
| co_true : nk = false -> coerces nk k (VBool true) (u "True")
| co_false : nk = false -> coerces nk k (VBool false) (u "False")
| co_num_true : nk = true -> coerces nk k (VBool true) (u "true")
| co_num_false : nk = true -> coerces nk k (VBool false) (u "false")
| co_int z : coerces nk k (VInt z) (string_of_Z z)
| co_num_float t : nk = true -> coerces nk k (VFloat t) t
| co_repr v s : spelled_by_repr nk v -> k_repr k v = Ret s -> coerces nk k v s
| co_str_of v s e : spelled_by_repr nk v -> k_repr k v = Exc e -> is_Exception e = true -> k_str k v = Ret s -> coerces nk k v s.

(** Functions that cannot be found again by name: lambdas, methods. *)
Definition anonymous (w : world) (h : heap) (v : val) : bool :=
  match v with
  | VFun f => negb (f_modfun (w_fun w f))
  | VLoc l => match hget h l with Some (OInst i) => c_isfun (w_cls w (i_cls i)) | _ => false end
  | _ => false
  end.
(** Entries of a dict that are encoded: not under the name of a tag, not anonymous functions. *)
Definition entry_kept (w : world) (h : heap) (kv : val * val) : bool :=
  negb (match fst kv with VStr n => is_reserved n | _ => false end) && negb (anonymous w h (snd kv)).
Definition kept_entries (w : world) (h : heap) (d : list (val * val)) : list (val * val) := filter (entry_kept w h) d.

(** xs are taken from the iterator at l, the first at position p; each is encoded before the
    next is taken. *)
Definition at_pos (l : loc) (p : nat) (s : pst) : pst :=
  match hget (p_heap s) l with
  | Some (OInst i) => set_heap (hset (p_heap s) l (OInst (set_pos i p))) s
  | _ => s
  end.
Inductive pulls (k : hooks) (f : val -> MP json) (l : loc) : nat -> list val -> list json -> pst -> pst -> Prop :=
| pulls_nil p s : pulls k f l p [] [] s s
| pulls_cons p x j xs js s s1 s2 : k_iter k l p = Ret (Some x) -> f x (at_pos l (S p) s) = (Ret j, s1) ->
    pulls k f l (S p) xs js s1 s2 -> pulls k f l p (x :: xs) (j :: js) s s2.
(** m items are as many as max_iter and the iterator allow. *)
Definition stops (k : hooks) (l : loc) (p : nat) (limit : option nat) (m : nat) : Prop :=
  match limit with
  | Some q => m <= q /\ (m = q \/ k_iter k l (p + m) = Ret None)
  | None => k_iter k l (p + m) = Ret None
  end.
(** An iterator without any protocol of its own. *)
Record bare_iterator (w : world) (c : nat) : Prop := {
  bi_kind : c_kind (w_cls w c) = KIter;
  bi_handler : reg_lookup (w_sub w) (w_reg w) c (importable_name (w_cls w c)) = None;
  bi_reduce : c_reduce (w_cls w c) = false;
  bi_newargs : c_newargs (w_cls w c) = false;
  bi_newargs_ex : c_newargs_ex (w_cls w c) = false;
  bi_initargs : c_initargs (w_cls w c) = false;
  bi_getstate : c_getstate (w_cls w c) = false;
  bi_enum : c_enum (w_cls w c) = false
}.

(** Instances whose only protocol is __getstate__. *)
Record stateful (w : world) (c : nat) : Prop := {
  sf_handler : reg_lookup (w_sub w) (w_reg w) c (importable_name (w_cls w c)) = None;
  sf_reduce : c_reduce (w_cls w c) = false;
  sf_newargs : c_newargs (w_cls w c) = false;
  sf_newargs_ex : c_newargs_ex (w_cls w c) = false;
  sf_initargs : c_initargs (w_cls w c) = false;
  sf_exclude : c_exclude (w_cls w c) = [];
  sf_getstate : c_getstate (w_cls w c) = true
}.
(** What becomes of such an object under fail_safe=f: its name and state, or f(e) if
    __getstate__ raises e.  Interrupts go through. *)
Inductive saved (w : world) (k : hooks) (h : heap) (f : exn -> res json) : val -> res json -> Prop :=
| sv_prim v j : prim_json v = Some j -> saved w k h f v (Ret j)
| sv_state l i st j : hget h l = Some (OInst i) -> stateful w (i_cls i) -> k_getstate k l = Ret st ->
    prim_json st = Some j -> truthy (w_cls w) h st = true ->
    saved w k h f (VLoc l) (Ret (JObj [(OBJECT, JStr (importable_name (w_cls w (i_cls i)))); (STATE, j)]))
| sv_fails l i e j : hget h l = Some (OInst i) -> stateful w (i_cls i) -> k_getstate k l = Exc e ->
    is_Exception e = true -> is_TypeError e = false -> f e = Ret j -> saved w k h f (VLoc l) (Ret j)
| sv_interrupt l i e : hget h l = Some (OInst i) -> stateful w (i_cls i) -> k_getstate k l = Exc e ->
    is_Exception e = false -> is_TypeError e = false -> saved w k h f (VLoc l) (Exc e).
Fixpoint all_of {A} (l : list (res A)) : res (list A) :=
  match l with
  | [] => Ret []
  | Ret a :: r => match all_of r with Ret l' => Ret (a :: l') | Exc e => Exc e | OOF => OOF end
  | Exc e :: _ => Exc e
  | OOF :: _ => OOF
  end.

(** Instances without any protocol, with their attributes in a dict. *)
Record ordinary (w : world) (c : nat) : Prop := {
  or_kind : c_kind (w_cls w c) = KPlain;
  or_handler : reg_lookup (w_sub w) (w_reg w) c (importable_name (w_cls w c)) = None;
  or_reduce : c_reduce (w_cls w c) = false;
  or_newargs : c_newargs (w_cls w c) = false;
  or_newargs_ex : c_newargs_ex (w_cls w c) = false;
  or_initargs : c_initargs (w_cls w c) = false;
  or_getstate : c_getstate (w_cls w c) = false
}.
(** Attributes that _jsonpickle_exclude leaves. *)
Definition included (ex : list pystr) (kv : val * val) : bool :=
  match fst kv with VStr n => negb (if in_dec (list_eq_dec N.eq_dec) n ex then true else false) | _ => true end.
