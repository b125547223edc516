(** unpickler.py: loadrepr, which reads py/repr when decode is told safe=False. *)
From Verif Require Import PyStr Json Base.
Open Scope nat_scope.
Open Scope monad_scope.

Section loadrepr.
  Variables (mdl V : Type).
  (** What a name stands for in the evaluated expression. *)
  Inductive bound := BText (s : pystr) | BModule (m : mdl).
  (** [__import__] and [eval] (with the dict of names it is given); Python adds the builtins. *)
  Variable import_ : pystr -> res mdl.
  Variable evaluate : pystr -> list (pystr * bound) -> res V.
  Inductive doing := Imports (name : pystr) | Evaluates (expr : pystr) (names : list (pystr * bound)).
  Definition does {A} (d : doing) (r : res A) : M (list doing) A := fun s => (r, s ++ [d]).

  (** unpickler.py:275-279: the first part of the name of the module *)
  Definition localname (module : pystr) : pystr :=
    if existsb (N.eqb 46%N) module then match split_on 46%N module with c :: _ => c | [] => module end else module.
  (** unpickler.py:262-281; [locals()] holds the argument and the two parts of it. *)
  Definition loadrepr (reprstr : pystr) : M (list doing) V :=
    match split_on 47%N reprstr with
    | [module; evalstr] =>
        let mylocals := [(u "reprstr", BText reprstr); (u "module", BText module); (u "evalstr", BText evalstr)] in
        m <- does (Imports module) (import_ module) ;;
        let names := sset (localname module) (BModule m) mylocals in
        does (Evaluates evalstr names) (evaluate evalstr names)
    | _ => raise EValueError
    end.
End loadrepr.
Arguments BText {mdl}. Arguments BModule {mdl}. Arguments Imports {mdl}. Arguments Evaluates {mdl}.
Arguments loadrepr {mdl V}.
