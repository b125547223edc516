(** C80: handlers that may be entered again. *)
From Verif Require Import Reentry.
From Coq Require Import List. Import ListNotations.
Open Scope nat_scope.

(** [inside x l]: the call x happens, at whatever depth, while l is done. *)
Inductive inside (x : nat * nat * list act) : list act -> Prop :=
| in_here h c body l : x = (h, c, body) -> In (Call h c body) l -> inside x l
| in_deep h c body l : In (Call h c body) l -> inside x body -> inside x l.
(** While the handler h works for c, the handler object that h is registered as, if it is one, works
    for nobody else. *)
Definition undisturbed (reg : nat -> registered) (x : nat * nat * list act) : Prop :=
  let '(h, c, body) := x in
  forall i h2 c2 body2, reg h = AsInstance i -> inside (h2, c2, body2) body -> reg h2 = AsInstance i -> c2 = c.
(** The looks of which the answer is the pickler that called the handler. *)
Definition right_context (k : look) : Prop := k_context k = Some (k_caller k).
