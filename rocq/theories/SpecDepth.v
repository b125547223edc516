(** What max_depth promises: the nesting of documents, and what user code must not do. *)
From Verif Require Import PyStr Json Base Heap Registry Pickler PGen.
Open Scope nat_scope.

(** Nesting of arrays and objects in a document. *)
Fixpoint jdepth (j : json) : nat :=
  match j with
  | JList l => S (list_max (map jdepth l))
  | JObj ob => S (list_max (map (fun kv => jdepth (snd kv)) ob))
  | _ => 0
  end.
(** A handler that, given documents nested at most a deep, makes one nested at most b deep. *)
Fixpoint script_adds (a b : nat) (sc : fscript) : Prop :=
  match sc with
  | FDone (Some j) => jdepth j <= b
  | FDone None | FRaise _ => True
  | FFlatten reset v kk => reset = false /\ forall j, jdepth j <= a -> script_adds a b (kk j)
  end.
(** Exceptions of __repr__ at the bound are not swallowed further up. *)
Definition repr_contained (o : popts) (r : res pystr) : Prop :=
  match r with
  | Ret _ => True
  | OOF => False
  | Exc e => match po_fail_safe o with
             | None => is_AttributeError e || is_KeyError e = false
             | Some f => is_Exception e = true -> exists j, f e = Ret j
             end
  end.
(** max_depth is m; references are on; no object is an enum member; user code returns; iterators end
    after N items or are cut; fail_safe writes documents nested at most B deep; handlers
    nest at most K around what they get. *)
Record depth_bounded (w : world) (k : hooks) (o : popts) (h : heap) (m B K N : nat) : Prop := {
  db_max : po_max_depth o = Some (Z.of_nat m);
  db_unpicklable : po_unpicklable o = true;
  db_refs : po_make_refs o = true;
  db_readonly : po_readonly o = false;
  db_sort : po_sort o = false;
  db_enum : forall l i, hget h l = Some (OInst i) -> c_enum (w_cls w (i_cls i)) = false;
  db_repr : forall v, repr_contained o (py_repr k v);
  db_fail : forall f e j, po_fail_safe o = Some f -> f e = Ret j -> jdepth j <= B;
  db_fail_ret : forall f e, po_fail_safe o = Some f -> f e <> OOF;
  db_scripts : forall a hd ctx l ob, B <= a -> jdepth (JObj ob) <= 1 -> script_adds a (a + K) (w_hflat w hd ctx l ob);
  db_B : 2 <= B;
  db_K : 2 <= K;
  db_ret : hooks_return w k;
  db_ends : (forall l p x, N <= p -> k_iter k l p <> Ret (Some x)) \/ (exists q, po_max_iter o = Some q /\ q <= N)
}.
