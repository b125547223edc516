(** Classes passed to decode that the document does not ask for (C78). *)
From Verif Require Import PyStr Tags Json Base Heap LoadClass Unpickler RestoreProofs SpecNames LoadClassProofs.
Open Scope nat_scope.

(** Decoding the document looks for [n]: a dotted name of the document, or what follows its last dot. *)
Definition sought (j : json) (n : pystr) : Prop :=
  exists q, dotted_in j q /\ (n = q \/ exists a, q = a ++ DOT :: n /\ ~ In DOT n).
(** No list and no dict where a dotted name is due. *)
Definition no_containers (j : json) : Prop :=
  forall ob t, object_in j ob -> dotted_tag t -> (forall l, ~ In (t, JList l) ob) /\ (forall b, ~ In (t, JObj b) ob).
(** The names and classes of the argument, in order. *)
Definition given (w : world) (cl : option carg) : list (pystr * val) :=
  match cl with Some c => bindings w c | None => [] end.
(** The same value or exception, the same objects and the same calls in the same order. *)
Definition same_run (r1 r2 : res val * ust) : Prop :=
  fst r1 = fst r2 /\ u_heap (snd r1) = u_heap (snd r2) /\ u_log (snd r1) = u_log (snd r2).
