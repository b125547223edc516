(** handlers.py:109-126 [handler_accepts_handler_context] and the keyword of
    pickler.py:493-502, unpickler.py:1004-1014, with Python's binding of arguments to parameters. *)
From Verif Require Import PyStr Base Json.
Open Scope nat_scope.

Inductive kind : Type := PosOnly | PosOrKw | VarPos | KwOnly | VarKw.
Record param : Type := mkParam { pa_name : pystr; pa_kind : kind; pa_default : bool }.
(** inspect.signature(fn).parameters, or None when it raises TypeError or ValueError *)
Definition signature : Type := option (list param).
Definition HC : pystr := u "handler_context".

(** handlers.py:113-126 *)
Definition accepts (sg : signature) : bool :=
  match sg with
  | None => false
  | Some ps => match find (fun p => seqb HC (pa_name p)) ps with
               | None => false
               | Some p => match pa_kind p with PosOrKw | KwOnly | VarKw => true | PosOnly | VarPos => false end
               end
  end.
(** pickler.py:496-501, unpickler.py:1008-1013: the keyword arguments of the call *)
Definition kwargs {V} (ctx : option V) (sg : signature) : list (pystr * V) :=
  match ctx with
  | Some c => if accepts sg then [(HC, c)] else []
  | None => []
  end.

(** Python language reference, "Calls": what each parameter is bound to, or None for a TypeError.
    Parameters are in the order of a signature (positional, *args, keyword-only, **kwargs). *)
Inductive bound (V : Type) : Type := One (v : V) | Many (l : list V) | Table (m : list (pystr * V)) | Default.
Arguments One {V} _. Arguments Many {V} _. Arguments Table {V} _. Arguments Default {V}.
Section bind.
  Context {V : Type}.
  Definition from_kw (p : param) (kw : list (pystr * V)) : option (bound V * list (pystr * V)) :=
    match sget (pa_name p) kw with
    | Some v => Some (One v, sdel (pa_name p) kw)
    | None => if pa_default p then Some (Default, kw) else None
    end.
  Fixpoint bind_args (ps : list param) (args : list V) (kw : list (pystr * V)) : option (list (pystr * bound V)) :=
    match ps with
    | [] => match args, kw with [], [] => Some [] | _, _ => None end
    | p :: r =>
        let next (b : bound V) (args' : list V) (kw' : list (pystr * V)) :=
          option_map (cons (pa_name p, b)) (bind_args r args' kw') in
        match pa_kind p with
        | PosOnly => match args with
                     | a :: args' => next (One a) args' kw
                     | [] => if pa_default p then next Default [] kw else None
                     end
        | PosOrKw => match args with
                     | a :: args' => match sget (pa_name p) kw with Some _ => None | None => next (One a) args' kw end
                     | [] => match from_kw p kw with Some (b, kw') => next b [] kw' | None => None end
                     end
        | VarPos => next (Many args) [] kw
        | KwOnly => match from_kw p kw with Some (b, kw') => next b args kw' | None => None end
        | VarKw => next (Table kw) args []
        end
    end.
End bind.
