(** ext/numpy.py: UnpickleableNumpyGenericHandler, which a user may register for arrays. *)
From Verif Require Import PyStr Json B64 Base Numpy.
Open Scope nat_scope.

(** Its class and the classes behind it (ext/numpy.py:35, 62, 86; handlers.py:129), with what they
    define as flatten. *)
Inductive hclass := HUnpickleable | HGeneric | HNumpyBase | HBase.
Definition hmro : list hclass := [HUnpickleable; HGeneric; HNumpyBase; HBase].
Definition hclass_eqb (a b : hclass) : bool :=
  match a, b with HUnpickleable, HUnpickleable | HGeneric, HGeneric | HNumpyBase, HNumpyBase | HBase, HBase => true | _, _ => false end.
Definition has_flatten (c : hclass) : bool := match c with HNumpyBase => false | _ => true end.
(** [super(c, self).flatten]: the first definition behind [c]. *)
Fixpoint behind (c : hclass) (l : list hclass) : list hclass :=
  match l with [] => [] | x :: r => if hclass_eqb x c then r else behind c r end.
Definition super_flatten (c : hclass) : option hclass := find has_flatten (behind c hmro).

Section handler.
  Variable native : border.
  (** The document of a Python scalar, as tolist() gives it (an item is its bytes, as in Numpy). *)
  Variable scalar : bytes -> json.
  (** What the class NumpyGenericHandler makes of an array. *)
  Variable generic : ndarray -> res json.
  (** [self.context.flatten(obj.tolist(), reset=False)] without unpicklable: lists of scalars, all new
      (C12: they are written in full). *)
  Fixpoint listed_json (v : nest) : json :=
    match v with Leaf b => scalar b | Nest l => JList (map listed_json l) end.
  (** ext/numpy.py:93-97; handlers.py:140-149 *)
  Definition flatten_lists (unpicklable : bool) (a : ndarray) : res json :=
    if negb unpicklable then Ret (listed_json (tolist native a))
    else match super_flatten HGeneric with
         | Some HGeneric => generic a
         | _ => Exc ENotImplemented
         end.
End handler.
