(** C52: what it means that an array is the same array, and which arrays own their memory.
    Nothing here mentions the handlers. *)
From Verif Require Import PyStr B64 Base Numpy.
From Coq Require Import List ZArith.
Import ListNotations.
Open Scope nat_scope.

Definition in_bounds (idx shape : list nat) : Prop := Forall2 lt idx shape.
(** a[idx] *)
Definition item (native : border) (a : ndarray) (idx : list nat) : bytes := item_of native (a_dtype a) (raw a idx).
Definition same_items (native : border) (a b : ndarray) : Prop :=
  a_shape a = a_shape b /\ forall idx, in_bounds idx (a_shape a) -> item native a idx = item native b idx.

(** Every item of the array lies in its memory. *)
Definition well_placed (a : ndarray) : Prop :=
  1 <= d_item (a_dtype a) /\ length (a_strides a) = length (a_shape a) /\
  forall idx, in_bounds idx (a_shape a) ->
    (0 <= a_off a + dot idx (a_strides a) /\
     a_off a + dot idx (a_strides a) + Z.of_nat (d_item (a_dtype a)) <= Z.of_nat (length (a_mem a)))%Z.
(** The array owns a block of exactly its size, and fills it in C or in Fortran order. *)
Definition owner (a : ndarray) : Prop :=
  well_placed a /\ a_off a = 0%Z /\ length (a_mem a) = d_item (a_dtype a) * asize a /\ forc a = true.
(** The array after other contents have been written to its memory. *)
Definition with_mem (m : bytes) (a : ndarray) : ndarray :=
  mkArr m (a_off a) (a_shape a) (a_strides a) (a_dtype a) (a_writeable a).
(** A compression module. *)
Definition lossless (c : option ((bytes -> bytes) * (bytes -> res bytes))) : Prop :=
  forall compress decompress, c = Some (compress, decompress) -> forall b, decompress (compress b) = Ret b.
(** Stored as nested lists. *)
Definition small (threshold : option nat) (a : ndarray) : Prop :=
  match threshold with None => True | Some t => asize a <= t end.
