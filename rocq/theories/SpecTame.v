(** Built-in data: what documents without names decode to. *)
From Verif Require Import PyStr Json Base Heap.
Open Scope nat_scope.

(** None, booleans, numbers, strings, bytes, tuples of data, and objects created after the first n;
    no classes, functions, modules or other objects of the program.  VProxy and VIDProxy are the
    placeholders of the unpickler for objects that are not complete. *)
Fixpoint data (n : nat) (v : val) : Prop :=
  match v with
  | VType _ | VFun _ | VMod _ | VExt _ => False
  | VLoc l => n <= l
  | VTuple l => (fix all (l : list val) : Prop := match l with [] => True | x :: r => data n x /\ all r end) l
  | _ => True
  end.
(** Lists, sets, dicts and bytearrays of data, and iterators over lists; no instance of a class. *)
Definition data_obj (n : nat) (ob : obj) : Prop :=
  match ob with
  | OList l | OSet l => Forall (data n) l
  | ODict d => Forall (fun kv => data n (fst kv) /\ data n (snd kv)) d
  | OByteArray _ => True
  | OInst _ => False
  | OIter l => n <= l
  end.
(** The heap h extends h0 by data. *)
Definition only_data (h0 h : heap) : Prop :=
  (forall l, l < length h0 -> hget h l = hget h0 l) /\
  (forall l ob, length h0 <= l -> hget h l = Some ob -> data_obj (length h0) ob).
