(** Model of /repo/jsonpickle/tags.py (lines 10-57). *)
From Verif Require Import PyStr.
Open Scope string_scope.

Definition BYTES := u "py/bytes".
Definition BYTEARRAY := u "py/bytea".
Definition B64 := u "py/b64".
Definition B85 := u "py/b85".
Definition FUNCTION := u "py/function".
Definition ID := u "py/id".
Definition INITARGS := u "py/initargs".
Definition ITERATOR := u "py/iterator".
Definition JSON_KEY := u "json://".
Definition MODULE := u "py/mod".
Definition NEWARGS := u "py/newargs".
Definition NEWARGSEX := u "py/newargsex".
Definition NEWOBJ := u "py/newobj".
Definition OBJECT := u "py/object".
Definition PROPERTY := u "py/property".
Definition REDUCE := u "py/reduce".
Definition DEFAULT_FACTORY := u "py/default_factory".
Definition REF := u "py/ref".
Definition REPR := u "py/repr".
Definition SEQ := u "py/seq".
Definition SET_ := u "py/set".
Definition STATE := u "py/state".
Definition TUPLE := u "py/tuple".
Definition TYPE_ := u "py/type".

(** tags.py:35-57: the set of reserved names.  B64, B85 and JSON_KEY are absent in the source. *)
Definition RESERVED : list pystr :=
  [BYTES; BYTEARRAY; FUNCTION; ID; INITARGS; ITERATOR; MODULE; NEWARGS; NEWARGSEX;
   NEWOBJ; OBJECT; PROPERTY; REDUCE; DEFAULT_FACTORY; REF; REPR; SEQ; SET_; STATE;
   TUPLE; TYPE_].

Definition is_reserved (k : pystr) : bool := smem k RESERVED.
