(** NumpyUfuncHandler (/repo/jsonpickle/ext/numpy.py:453-461): a ufunc is written as the name under
    which it is found. *)
From Verif Require Import PyStr Tags Json Base Heap Registry LoadClass Pickler Unpickler.
Open Scope nat_scope.

Definition IMPORTABLE_NAME : pystr := u "importable_name".
(** numpy.py:454-456: [f] has the module and the qualified name of the ufunc (util.py:464-497). *)
Definition ufunc_flat (f : finfo) (data : jobj) : fscript :=
  FDone (Some (JObj (sset IMPORTABLE_NAME (JStr (importable_fname f)) data))).
(** numpy.py:458-461: [loadclass] without the classes given to decode *)
Definition ufunc_rest (w : world) (data : jobj) : hscript :=
  match sget IMPORTABLE_NAME data with
  | Some j => match loadclass w [] j with
              | Ret v => HDone (HVal v)
              | Exc e => HRaise e
              | OOF => HRaise EUnmodelled
              end
  | None => HRaise EKeyError
  end.
(** Handler number [hd] of the world is the one for ufuncs, whose class is [c]; [fi] tells the names
    of the ufuncs (numpy.py:490). *)
Definition ufunc_installed (w : world) (fi : loc -> finfo) (c hd : nat) : Prop :=
  reg_lookup (w_sub w) (w_reg w) c (importable_name (w_cls w c)) = Some hd /\
  (forall ctx l data, w_hflat w hd ctx l data = ufunc_flat (fi l) data) /\
  (forall ctx data, w_hrest w hd ctx data = ufunc_rest w data).
