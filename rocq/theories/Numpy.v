(** jsonpickle/ext/numpy.py:103-450: how arrays and views of arrays are stored and rebuilt.

    numpy itself is not jsonpickle's code; what the handlers use of it is modelled here from
    numpy's documentation: an array is a window (offset, shape, strides, item type) on a block
    of memory.  Simplified: the document is a record with one field for each key the handlers
    write (numpy.py:114-122, 188-205, 306-315, 317-343); the entry "dtype" is the item type in native order, so
    str(dtype) followed by np.dtype(...) is taken to be the identity; obj.tolist() followed by
    the JSON text and np.array(...) is taken to keep each item (C05 and C07 for numbers and
    bytes); object and structured dtypes, arrays over bytes or memoryviews (numpy.py:350-395)
    and the deep copies of numpy.py:397-413 are left out. *)
From Verif Require Import PyStr B64 Base.
From Coq Require Import List ZArith Lia Bool.
Import ListNotations.
Open Scope nat_scope.

(** dtype.byteorder: "<", ">", "|" (not applicable) and "=" (native). *)
Inductive border : Type := BLt | BGt | BBar | BEq.
Definition border_eqb (a b : border) : bool :=
  match a, b with BLt, BLt | BGt, BGt | BBar, BBar | BEq, BEq => true | _, _ => false end.
(** a numpy dtype: item size and byte order *)
Record dtype : Type := mkDtype { d_item : nat; d_border : border }.

(** An array: a window on a block of memory. *)
(** a numpy array: dtype, shape, strides, offset, memory *)
Record ndarray : Type := mkArr {
  a_mem : bytes;
  a_off : Z;                 (* address of the first item in the block *)
  a_shape : list nat;
  a_strides : list Z;
  a_dtype : dtype;
  a_writeable : bool
}.

(** the numpy library as used by numpy.py: positions of items, contiguity, copies *)
Definition prod (l : list nat) : nat := fold_right Nat.mul 1 l.
Definition dot (idx : list nat) (strides : list Z) : Z :=
  fold_right Z.add 0%Z (map (fun p => Z.of_nat (fst p) * snd p)%Z (combine idx strides)).
Definition slice (m : bytes) (p : Z) (n : nat) : bytes := firstn n (skipn (Z.to_nat p) m).
(** The bytes of an item. *)
Definition raw (a : ndarray) (idx : list nat) : bytes :=
  slice (a_mem a) (a_off a + dot idx (a_strides a)) (d_item (a_dtype a)).

Fixpoint c_strides (item : nat) (shape : list nat) : list Z :=
  match shape with [] => [] | _ :: r => Z.of_nat (item * prod r) :: c_strides item r end.
Definition f_strides (item : nat) (shape : list nat) : list Z := rev (c_strides item (rev shape)).
(** numpy's contiguity flags: the strides of axes of length one are ignored, and an array
    without items is contiguous. *)
Definition contiguous (shape : list nat) (strides expected : list Z) : bool :=
  existsb (Nat.eqb 0) shape ||
  forallb (fun p => (fst p <=? 1) || (fst (snd p) =? snd (snd p))%Z) (combine shape (combine strides expected)).
Definition c_contiguous (a : ndarray) : bool :=
  contiguous (a_shape a) (a_strides a) (c_strides (d_item (a_dtype a)) (a_shape a)).
Definition f_contiguous (a : ndarray) : bool :=
  contiguous (a_shape a) (a_strides a) (f_strides (d_item (a_dtype a)) (a_shape a)).
Definition forc (a : ndarray) : bool := f_contiguous a || c_contiguous a.
Definition asize (a : ndarray) : nat := prod (a_shape a).

(** All indices, the last axis running fastest ("C") or the first ("F"). *)
Fixpoint indices (shape : list nat) : list (list nat) :=
  match shape with [] => [[]] | n :: r => flat_map (fun i => map (cons i) (indices r)) (seq 0 n) end.
Definition f_indices (shape : list nat) : list (list nat) := map (@rev nat) (indices (rev shape)).
Definition order_indices (forder : bool) (shape : list nat) := if forder then f_indices shape else indices shape.
Definition order_strides (forder : bool) (item : nat) (shape : list nat) :=
  if forder then f_strides item shape else c_strides item shape.

(** obj.tobytes(order="A") *)
Definition tobytes_A (a : ndarray) : bytes :=
  concat (map (raw a) (order_indices (f_contiguous a && negb (c_contiguous a)) (a_shape a))).
(** arr.copy(): numpy's default order for this method is "C" *)
Definition copy (a : ndarray) : ndarray :=
  mkArr (concat (map (raw a) (indices (a_shape a)))) 0 (a_shape a) (c_strides (d_item (a_dtype a)) (a_shape a)) (a_dtype a) true.

(** Nested lists of items, as obj.tolist() gives them.  An item is kept as its bytes in
    little-endian order, so that it does not depend on the byte order of the array. *)
Inductive nest : Type := Leaf (v : bytes) | Nest (l : list nest).

Section numpy.
  Variable native : border.        (* numpy.py:26: "<" or ">" *)
  (** numpy.py:29-32 *)
  Definition get_byteorder (d : dtype) : border :=
    match d_border d with BEq => native | b => b end.
  (** The item the bytes stand for, and the bytes of an item. *)
  Definition item_of (d : dtype) (r : bytes) : bytes := match get_byteorder d with BGt => rev r | _ => r end.
  Definition bytes_of (d : dtype) (v : bytes) : bytes := match get_byteorder d with BGt => rev v | _ => v end.

  (** dtype.newbyteorder: "N", "S", "|" and explicit orders; numpy shows the native order as
      "=" and leaves dtypes without byte order alone. *)
  (** dtype.newbyteorder (numpy library) *)
  Inductive neworder : Type := NNative | NSwap | NIgnore | NExplicit (b : border).
  Definition norm (b : border) : border := if border_eqb b native then BEq else b.
  Definition opposite (b : border) : border := match b with BLt => BGt | BGt => BLt | b => b end.
  Definition newbyteorder (d : dtype) (o : neworder) : dtype :=
    mkDtype (d_item d)
      match d_border d with
      | BBar => BBar
      | b => match o with
             | NNative => BEq
             | NSwap => norm (opposite (get_byteorder d))
             | NIgnore => b
             | NExplicit BBar => b
             | NExplicit b' => norm b'
             end
      end.

  Fixpoint nested (d : dtype) (m : bytes) (off : Z) (shape : list nat) (strides : list Z) : nest :=
    match shape, strides with
    | n :: sh, s :: st => Nest (map (fun i => nested d m (off + Z.of_nat i * s) sh st) (seq 0 n))
    | _, _ => Leaf (item_of d (slice m off (d_item d)))
    end.
  (** ndarray.tolist (numpy library) *)
  Definition tolist (a : ndarray) : nest := nested (a_dtype a) (a_mem a) (a_off a) (a_shape a) (a_strides a).

  (** np.array(values, dtype, order): the shape is read off the nested lists. *)
  Fixpoint shape_of (v : nest) : list nat :=
    match v with Leaf _ => [] | Nest [] => [0] | Nest ((x :: _) as l) => length l :: shape_of x end.
  Fixpoint item_at (v : nest) (idx : list nat) : bytes :=
    match idx, v with
    | i :: r, Nest l => item_at (nth i l (Leaf [])) r
    | [], Leaf b => b
    | _, _ => []
    end.
  (** np.array(values, dtype, order) (numpy library) *)
  Definition np_array (v : nest) (d : dtype) (forder : bool) : ndarray :=
    let sh := shape_of v in
    mkArr (concat (map (fun i => bytes_of d (item_at v i)) (order_indices forder sh))) 0 sh
      (order_strides forder (d_item d) sh) d true.
  (** arr.reshape(shape), which the handler only asks for arrays without items. *)
  Definition reshape (a : ndarray) (shape : list nat) : res ndarray :=
    if prod shape =? asize a
    then Ret (mkArr (a_mem a) (a_off a) shape (c_strides (d_item (a_dtype a)) shape) (a_dtype a) (a_writeable a))
    else Exc EValueError.

  (** the document under the key values *)
  Inductive nvalues : Type := VNest (v : nest) | VText (s : pystr).
  (** The document of an array stored by value. *)
  (** the documents of numpy.py: flatten of a view and of an array *)
  Record vdoc : Type := mkVdoc {
    vd_dtype : dtype;
    vd_values : nvalues;
    vd_shape : option (list nat);
    vd_byteorder : option border;
    vd_order_f : bool;               (* data["order"] = "F" *)
    vd_readonly : bool               (* data["writeable"] = False *)
  }.
  (** The document of an array stored by reference to its base. *)
  Record wdoc : Type := mkWdoc {
    wd_dtype : dtype;
    wd_shape : list nat;
    wd_offset : option Z;
    wd_strides : option (list Z);
    wd_swap : bool;                  (* data["byteorder"] = "S" *)
    wd_readonly : bool
  }.

  Variable size_threshold : option nat.
  Variable compression : option ((bytes -> bytes) * (bytes -> res bytes)).

  (** numpy.py:114-122 NumpyNDArrayHandler.flatten *)
  Definition flatten_text (a : ndarray) : vdoc :=
    mkVdoc (newbyteorder (a_dtype a) NNative) (VNest (tolist a))
      (if existsb (Nat.eqb 0) (a_shape a) then Some (a_shape a) else None)
      None false (negb (a_writeable a)).
  (** numpy.py:172-212 NumpyNDArrayHandlerBinary.flatten *)
  Definition flatten_binary (a : ndarray) : vdoc :=
    if match size_threshold with None => true | Some t => asize a <=? t end then flatten_text a
    else
      let buf := tobytes_A a in
      let buf := match compression with Some (compress, _) => compress buf | None => buf end in
      mkVdoc (newbyteorder (a_dtype a) NNative) (VText (b64encode buf)) (Some (a_shape a))
        (match d_border (a_dtype a) with BBar => None | _ => Some (get_byteorder (a_dtype a)) end)
        (negb (c_contiguous a)) (negb (a_writeable a)).
  (** numpy.py:317-325: stored by value (no base, contiguous) *)
  Definition flatten_value (a : ndarray) : vdoc :=
    let d := flatten_binary a in
    if c_contiguous a then d
    else mkVdoc (vd_dtype d) (vd_values d) (vd_shape d) (vd_byteorder d) true (vd_readonly d).
  (** numpy.py:326-349: stored by reference to the base.  The decorative values are not kept. *)
  Definition flatten_view (base a : ndarray) : wdoc :=
    let offset := (a_off a - a_off base)%Z in
    mkWdoc (newbyteorder (a_dtype a) NNative) (a_shape a)
      (if (offset =? 0)%Z then None else Some offset)
      (if c_contiguous a then None else Some (a_strides a))
      (match get_byteorder (a_dtype a) with
       | BBar => false
       | b => negb (border_eqb b (get_byteorder (a_dtype base)))
       end)
      (negb (a_writeable a)).

  (** numpy.py:110-112 *)
  Definition restore_flags (readonly : bool) (a : ndarray) : ndarray :=
    if readonly then mkArr (a_mem a) (a_off a) (a_shape a) (a_strides a) (a_dtype a) false else a.
  (** numpy.py:124-134 NumpyNDArrayHandler.restore *)
  Definition restore_text (v : nest) (d : vdoc) : res ndarray :=
    let arr := np_array v (vd_dtype d) (vd_order_f d) in
    match match vd_shape d with Some sh => reshape arr sh | None => Ret arr end with
    | Ret arr => Ret (restore_flags (vd_readonly d) arr)
    | Exc e => Exc e
    | OOF => OOF
    end.
  (** numpy.py:167-170 *)
  Definition restore_byteorder (o : option border) (a : ndarray) : ndarray :=
    match o with
    | Some b => mkArr (a_mem a) (a_off a) (a_shape a) (a_strides a) (newbyteorder (a_dtype a) (NExplicit b)) (a_writeable a)
    | None => a
    end.
  (** numpy.py:214-247 NumpyNDArrayHandlerBinary.restore.  A single item is a number here (0-d
      arrays of strings would be taken for binary). *)
  Definition restore_value (d : vdoc) : res ndarray :=
    match vd_values d with
    | VNest (Nest l) => restore_text (Nest l) d
    | VNest (Leaf b) => Ret (np_array (Nest [Leaf b]) (vd_dtype d) false)
    | VText s =>
        let buf := b64decode s in
        match match compression with Some (_, decompress) => decompress buf | None => Ret buf end with
        | Ret buf =>
            match vd_shape d with
            | Some sh =>
                (* np.ndarray(buffer=...): "buffer is too small for requested array" *)
                if d_item (vd_dtype d) * prod sh <=? length buf then
                  let arr := copy (mkArr buf 0 sh (order_strides (vd_order_f d) (d_item (vd_dtype d)) sh) (vd_dtype d) true) in
                  Ret (restore_flags (vd_readonly d) (restore_byteorder (vd_byteorder d) arr))
                else Exc ETypeError
            | None => Exc ETypeError
            end
        | Exc e => Exc e
        | OOF => OOF
        end
    end.
  (** np.ndarray(buffer=..., offset=..., strides=...) checks that the lowest and the highest
      address of the window lie inside the buffer. *)
  (** numpy.lib byte_bounds (numpy library) *)
  Definition lowest (shape : list nat) (strides : list Z) : Z :=
    fold_right Z.add 0%Z (map (fun p => Z.min 0 (Z.of_nat (fst p - 1) * snd p)) (combine shape strides)).
  Definition highest (shape : list nat) (strides : list Z) : Z :=
    fold_right Z.add 0%Z (map (fun p => Z.max 0 (Z.of_nat (fst p - 1) * snd p)) (combine shape strides)).
  Definition inside (a : ndarray) : bool :=
    existsb (Nat.eqb 0) (a_shape a) ||
    ((0 <=? a_off a + lowest (a_shape a) (a_strides a))%Z &&
     (a_off a + highest (a_shape a) (a_strides a) + Z.of_nat (d_item (a_dtype a)) <=? Z.of_nat (length (a_mem a)))%Z).
  (** numpy.py:417-450: [base] is the restored base. *)
  Definition restore_view (base : ndarray) (d : wdoc) : res ndarray :=
    if forc base then
      let arr :=
        mkArr (a_mem base) (a_off base + match wd_offset d with Some o => o | None => 0%Z end) (wd_shape d)
          (match wd_strides d with Some s => s | None => c_strides (d_item (wd_dtype d)) (wd_shape d) end)
          (newbyteorder (wd_dtype d) (if wd_swap d then NSwap else NIgnore)) (a_writeable base) in
      if inside arr then Ret (restore_flags (wd_readonly d) arr) else Exc EValueError
    else Exc EAssertion.
End numpy.
