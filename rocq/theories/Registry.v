(** Model of handlers.Registry (/repo/jsonpickle/handlers.py:39-100). *)
From Verif Require Import PyStr Json Base Heap.
Open Scope nat_scope.

Definition rkey_eqb (a b : rkey) : bool :=
  match a, b with
  | RCls x, RCls y => Nat.eqb x y
  | RName x, RName y => seqb x y
  | _, _ => false
  end.
Lemma rkey_eqb_eq a b : rkey_eqb a b = true <-> a = b.
Proof.
  destruct a, b; simpl; try (split; intros E; inversion E; fail).
  - rewrite Nat.eqb_eq. split; [intros ->|intros E; inversion E]; auto.
  - rewrite seqb_eq. split; [intros ->|intros E; inversion E]; auto.
Qed.

(** Python dict operations on the two tables. *)
Section tbl.
  Context {K : Type} (eqb : K -> K -> bool).
  (** Python dict operations on the tables of handlers.py:40-42 *)
  Fixpoint tget (k : K) (t : list (K * nat)) : option nat :=
    match t with
    | [] => None
    | (k', h) :: r => if eqb k k' then Some h else tget k r
    end.
  Fixpoint tset (k : K) (h : nat) (t : list (K * nat)) : list (K * nat) :=
    match t with
    | [] => [(k, h)]
    | (k', h') :: r => if eqb k k' then (k', h) :: r else (k', h') :: tset k h r
    end.
  Fixpoint tpop (k : K) (t : list (K * nat)) : list (K * nat) :=
    match t with
    | [] => []
    | (k', h') :: r => if eqb k k' then r else (k', h') :: tpop k r
    end.
End tbl.

(** handlers.py:44-60 [Registry.get] for a class; 57-59 scans the base table in order. *)
Fixpoint base_find (sub : nat -> nat -> bool) (c : nat) (t : list (nat * nat)) : option nat :=
  match t with
  | [] => None
  | (b, h) :: r => if sub c b then Some h else base_find sub c r
  end.
(** handlers.py:44-60 *)
Definition reg_get_cls (sub : nat -> nat -> bool) (r : registry) (c : nat) : option nat :=
  match tget rkey_eqb (RCls c) (r_handlers r) with
  | Some h => Some h
  | None => base_find sub c (r_base r)
  end.
(** [Registry.get] for a name: a string is not a type, so no base search. *)
Definition reg_get_name (r : registry) (n : pystr) : option nat :=
  tget rkey_eqb (RName n) (r_handlers r).

(** pickler.py:633, unpickler.py:877: [handlers.get(cls, handlers.get(class_name))]. *)
Definition reg_lookup (sub : nat -> nat -> bool) (r : registry) (c : nat) (n : pystr) : option nat :=
  match reg_get_cls sub r c with
  | Some h => Some h
  | None => reg_get_name r n
  end.

(** handlers.py:62-95 [register] with an explicit handler; line 92 stores the name first,
    then the class (chained assignment assigns left to right). *)
Definition reg_register (cls : nat -> cinfo) (r : registry) (c h : nat) (base : bool) : registry :=
  {| r_handlers := tset rkey_eqb (RCls c) h
                     (tset rkey_eqb (RName (importable_name (cls c))) h (r_handlers r));
     r_base := if base then tset Nat.eqb c h (r_base r) else r_base r |}.

(** handlers.py:97-100 [unregister] *)
Definition reg_unregister (cls : nat -> cinfo) (r : registry) (c : nat) : registry :=
  {| r_handlers := tpop rkey_eqb (RName (importable_name (cls c)))
                     (tpop rkey_eqb (RCls c) (r_handlers r));
     r_base := tpop Nat.eqb c (r_base r) |}.
