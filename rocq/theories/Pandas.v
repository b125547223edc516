(** jsonpickle/ext/pandas.py:35-65 run-length helpers and 68-114 PandasProcessor. *)
From Verif Require Import PyStr B64 Json Base Utf8.
Open Scope nat_scope.

Section rle.
  Context {A : Type}.
  Variable eqb : A -> A -> bool.      (* typ == current_type *)
  (** pandas.py:35-55: the loop; [encoded] is the list under construction. *)
  Fixpoint rle_loop (current : A) (count : nat) (encoded : list (A * nat)) (rest : list A) : list (A * nat) :=
    match rest with
    | [] => encoded ++ [(current, count)]
    | typ :: r =>
        if eqb typ current then rle_loop current (S count) encoded r
        else rle_loop typ 1 (encoded ++ [(current, count)]) r
    end.
  Definition rle_encode (l : list A) : list (A * nat) :=
    match l with [] => [] | t :: r => rle_loop t 1 [] r end.
  (** pandas.py:58-65 *)
  Fixpoint rle_decode_loop (decoded : list A) (l : list (A * nat)) : list A :=
    match l with [] => decoded | (t, n) :: r => rle_decode_loop (decoded ++ repeat t n) r end.
  Definition rle_decode (l : list (A * nat)) : list A := rle_decode_loop [] l.
End rle.

(** PandasProcessor(size_threshold, compression).  The compression module is a pair of
    functions. *)
Record processor : Type := mkProc {
  pr_threshold : option nat;
  pr_compression : option ((bytes -> bytes) * (bytes -> res bytes))
}.
(** pandas.py:84-99.  b64encode of a str: TypeError. *)
Definition flatten_pandas (p : processor) (buf : pystr) (data : jobj) (meta : json) : res jobj :=
  let big := match pr_threshold p with Some t => t <? length buf | None => false end in
  if big then
    match pr_compression p with
    | Some (compress, _) =>
        match utf8_encode buf with
        | Ret b =>
            let d1 := sset (u "comp") (JBool true) data in
            let d2 := sset (u "values") (JStr (b64encode (compress b))) d1 in
            Ret (sset (u "meta") meta (sset (u "txt") (JBool false) d2))
        | Exc e => Exc e
        | OOF => OOF
        end
    | None => Exc ETypeError
    end
  else Ret (sset (u "meta") meta (sset (u "txt") (JBool true) (sset (u "values") (JStr buf) data))).

(** pandas.py:101-110.  The buffer is str or, without compression, bytes. *)
Inductive buffer : Type := BStr (s : pystr) | BBytes (b : bytes) | BOther (j : json).
Definition restore_pandas (p : processor) (data : jobj) : res (buffer * json) :=
  let meta := match sget (u "meta") data with Some m => m | None => JObj [] end in
  if match sget (u "txt") data with Some t => jtruthy t | None => true end then
    match sget (u "values") data with
    | Some (JStr s) => Ret (BStr s, meta)
    | Some j => Ret (BOther j, meta)
    | None => Exc EKeyError
    end
  else
    match sget (u "values") data with
    | Some j =>
        (* util.py:507-514: a non-ASCII str raises ValueError, which is not caught; other
           types decode to b"" *)
        if match j with JStr s => existsb (fun c => 128 <=? c)%N s | _ => false end then Exc EValueError else
        let b := match j with JStr s => b64decode s | _ => [] end in
        if match sget (u "comp") data with Some t => jtruthy t | None => false end then
          match pr_compression p with
          | Some (_, decompress) =>
              match decompress b with
              | Ret b' => match utf8_decode (map bN b') with Ret s' => Ret (BStr s', meta) | Exc e => Exc e | OOF => OOF end
              | Exc e => Exc e
              | OOF => OOF
              end
          | None => Exc EAttributeError
          end
        else Ret (BBytes b, meta)
    | None => Exc EKeyError
    end.
