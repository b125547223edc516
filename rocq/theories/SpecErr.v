(** Exceptions raised by user code while decoding. *)
From Verif Require Import PyStr Json Base Heap Unpickler.
Open Scope nat_scope.

(** The two kinds of exceptions that decoding uses for its own purposes. *)
Definition used_internally (e : exn) : bool := is_TypeError e || is_AttributeError e.

(** User code has raised e, not of these kinds, in the calls L. *)
Definition failed_with (L : list event) (e : exn) : Prop := In (EvRaise e) L /\ used_internally e = false.
