(** Model of util.loadclass (/repo/jsonpickle/util.py:555-598) and unpickler._loadmodule
    (/repo/jsonpickle/unpickler.py:284-306).  The import system is the oracle [w_import]
    (import plus [sys.modules] lookup), attributes of modules and classes are [w_getattr]. *)
From Verif Require Import PyStr Json Base Heap.
Open Scope nat_scope.

(** util.py:446-461 *)
Definition untranslate_module_name (m : pystr) : pystr := translate_module_name m.

Section load.
  Variable w : world.

  Fixpoint getattrs (v : val) (names : list pystr) : res val :=
    match names with
    | [] => Ret v
    | n :: r => match w_getattr w v n with Ret v' => getattrs v' r | e => e end
    end.

  (** util.py:586-592, one iteration of the loop *)
  Definition try_split (names : list pystr) (up_to : nat) : res val :=
    match w_import w (untranslate_module_name (join_with DOT (firstn up_to names))) with
    | Ret m => getattrs m (skipn up_to names)
    | r => r
    end.
  Definition load_caught (e : exn) : bool :=
    is_AttributeError e || is_ImportError e || is_ValueError e.
  (** util.py:585-594: [for up_to in range(len(names) - 1, 0, -1)] *)
  Fixpoint load_splits (names : list pystr) (up_to : nat) : res (option val) :=
    match up_to with
    | 0 => Ret None
    | S p =>
        match try_split names (S p) with
        | Ret v => Ret (Some v)
        | Exc e => if load_caught e then load_splits names p else Exc e
        | OOF => OOF
        end
    end.
  (** [s.rsplit(".", 1)[-1]] *)
  Definition last_field (s : pystr) : pystr := last (split_on DOT s) [].

  (** util.py:570-579: caller-provided classes, exact name first, then the last component *)
  Definition from_classes (classes : list (pystr * val)) (s : pystr) : option val :=
    match sget s classes with
    | Some v => Some v
    | None => sget (last_field s) classes
    end.

  (** util.py:555-598; [None] is returned as [VNone]. *)
  Definition loadclass_str (classes : list (pystr * val)) (s : pystr) : res val :=
    match from_classes classes s with
    | Some v => Ret v
    | None =>
        let names := split_on DOT s in
        match load_splits names (length names - 1) with
        | Ret (Some v) => Ret v
        | Ret None => if seqb s (u "builtins.NoneType") then Ret (VType (w_nonetype w)) else Ret VNone
        | Exc e => Exc e
        | OOF => OOF
        end
    end.
  (** The argument comes from the document and need not be a string: [classes[x]] raises
      TypeError for lists and dicts, [x.rsplit]/[x.split] AttributeError otherwise. *)
  (** util.py:555-598 *)
  Definition loadclass (classes : list (pystr * val)) (j : json) : res val :=
    match j with
    | JStr s => loadclass_str classes s
    | JList _ | JObj _ => match classes with [] => Exc EAttributeError | _ => Exc ETypeError end
    | _ => Exc EAttributeError
    end.

  Definition SLASH : N := 47%N.
  (** unpickler.py:301-306: [getattr] chain, AttributeError gives None *)
  Fixpoint mod_attrs (v : val) (names : list pystr) : res val :=
    match names with
    | [] => Ret v
    | n :: r =>
        match w_getattr w v n with
        | Ret v' => mod_attrs v' r
        | Exc e => if is_AttributeError e then Ret VNone else Exc e
        | OOF => OOF
        end
    end.
  (** unpickler.py:284-306 *)
  Definition loadmodule (j : json) : res val :=
    match j with
    | JStr s =>
        match split_on SLASH s with
        | [module; identifier] =>
            match w_import_top w module with
            | Exc e => if is_ImportError e then Ret VNone else Exc e
            | OOF => OOF
            | Ret m =>
                match split_on DOT identifier with
                | first :: rest =>
                    if negb (seqb first module) && negb (prefixb (first ++ [DOT]) module) then Ret VNone
                    else mod_attrs m rest
                | [] => Ret VNone
                end
            end
        | _ => Exc EValueError
        end
    | _ => Exc EAttributeError
    end.
End load.
