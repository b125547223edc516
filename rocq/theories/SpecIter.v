(** Specification for iterators: what they yield, and parts of the heap that refer to nothing
    outside. *)
From Verif Require Import PyStr Json Base Heap Registry SpecGraph SpecRun SpecIso.
Open Scope nat_scope.

(** From position p on, the iterator at l gives the items xs and then stops, or max_iter cuts
    it off there. *)
Definition yields (k : hooks) (l : loc) (p : nat) (limit : option nat) (xs : list val) : Prop :=
  (forall n x, nth_error xs n = Some x -> k_iter k l (p + n) = Ret (Some x)) /\ stops k l p limit (length xs).

(** The objects in U refer only to each other, also through the answers of user code. *)
Definition on (U : loc -> Prop) (x y : loc) : Prop := x = y /\ U x.
Definition inside (U : loc -> Prop) (v : val) : Prop := viso (on U) v v.
Record self_contained (w : world) (k : hooks) (h : heap) (U : loc -> Prop) : Prop := {
  sc_heap : heap_iso h h (on U);
  sc_hooks : same_hooks w k k h (on U) (viso (on U)) (viso (on U))
}.
