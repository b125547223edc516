(** Which pickler or unpickler a handler talks to: [self.context] of handlers registered as classes
    and as objects (/repo/jsonpickle/handlers.py:129-138, 172-179; pickler.py:634-641 and
    unpickler.py:874-886, where [handler(self)] is called and then its [flatten] or [restore]).
    Only the attribute [context] of the handler objects is modelled; what the methods do is a
    tree of calls. *)
From Verif Require Import Base.
From Coq Require Import List. Import ListNotations.
Open Scope nat_scope.

(** handlers.py:38-101: the table has for a handler its class or an object, here number [i]. *)
Inductive registered : Type := AsClass | AsInstance (i : nat).
(** What a [flatten] or [restore] method does: look at [self.context], or cause the call of handler [h]
    by the pickler or unpickler [c] (the same one through [self.context.flatten], a new one through
    [encode], [decode]), which does [body]. *)
Inductive act : Type := Use | Call (h c : nat) (body : list act).
(** A look at [self.context]: the handler, the pickler that called it, and what is found. *)
Record look : Type := mkLook { k_handler : nat; k_caller : nat; k_context : option nat }.

Section reentry.
  Variable reg : nat -> registered.
  (** [cells]: the context of the handler objects.  A class makes a new object
      (handlers.py:130-138), an object is called and changed (172-179). *)
  Definition enter (h c : nat) (cells : list nat) : nat * list nat :=
    match reg h with
    | AsClass => (length cells, cells ++ [c])
    | AsInstance i => (i, firstn i cells ++ c :: skipn (S i) cells)
    end.
  (** pickler.py:639-640, unpickler.py:882-883 *)
  Fixpoint run_act (me h c : nat) (a : act) (cells : list nat) : list look * list nat :=
    match a with
    | Use => ([mkLook h c (nth_error cells me)], cells)
    | Call h2 c2 body =>
        let '(me2, cells1) := enter h2 c2 cells in
        (fix go (l : list act) (cells : list nat) : list look * list nat :=
           match l with
           | [] => ([], cells)
           | a :: r => let '(x, cells1) := run_act me2 h2 c2 a cells in
                       let '(y, cells2) := go r cells1 in (x ++ y, cells2)
           end) body cells1
    end.
  Fixpoint run_acts (me h c : nat) (l : list act) (cells : list nat) : list look * list nat :=
    match l with
    | [] => ([], cells)
    | a :: r => let '(x, cells1) := run_act me h c a cells in
                let '(y, cells2) := run_acts me h c r cells1 in (x ++ y, cells2)
    end.
  (** Calls one after the other: handler, pickler, what the method does. *)
  Fixpoint run_calls (l : list (nat * nat * list act)) (cells : list nat) : list look * list nat :=
    match l with
    | [] => ([], cells)
    | (h, c, body) :: r =>
        let '(me, cells1) := enter h c cells in
        let '(x, cells2) := run_acts me h c body cells1 in
        let '(y, cells3) := run_calls r cells2 in (x ++ y, cells3)
    end.
End reentry.
