(** [encode] and [decode] with a context that the caller supplies and with an explicit reset flag
    (pickler.py:157-178, unpickler.py:104-124 with context given). *)
From Verif Require Import PyStr Json JsonText Base Heap Pickler Unpickler.
Local Open Scope monad_scope.

Definition encode_r (w : world) (k : hooks) (o : popts) (n : nat) (reset : bool) (v : val) : MP pystr :=
  j <- pickle w k o n reset v ;; ret (dumps j).
(** a context that is supplied is not reset afterwards (unpickler.py:121-124) *)
Definition decode_r (w : world) (o : uopts) (n : nat) (reset : bool) (classes : option carg) (text : pystr) : MU val :=
  match loads text with
  | None => raise EValueError
  | Some j => unpickle w o n reset classes j
  end.
