(** The texts of a JSON document (RFC 8259): layout and spelling are free.  Nothing here mentions the
    reader or the writer, except for the form of float tokens ([float_ok]) and of integers. *)
From Verif Require Import PyStr Json JsonText JsonTextProofs Writer.
Open Scope N_scope.

(** space, tab, line feed, carriage return *)
Definition blank (s : pystr) : Prop := Forall (fun c => In c [32; 9; 10; 13]) s.

(** \uXXXX with digits of either case *)
Definition hexv (c n : N) : Prop := n < 10 /\ c = 48 + n \/ 10 <= n < 16 /\ (c = 87 + n \/ c = 55 + n).
Inductive uxxxx : N -> pystr -> Prop :=
| ux a b c d p q r s : hexv a p -> hexv b q -> hexv c r -> hexv d s ->
    uxxxx (p * 4096 + q * 256 + r * 16 + s) [92; 117; a; b; c; d].
Definition high (n : N) : Prop := 55296 <= n <= 56319.
Definition low (n : N) : Prop := 56320 <= n <= 57343.
(** the two-character escapes: quote, backslash, slash, b, f, n, r, t *)
Definition shorts : list (N * N) := [(34, 34); (92, 92); (47, 47); (98, 8); (102, 12); (110, 10); (114, 13); (116, 9)].
(** Between the quotes.  Two escapes that make a surrogate pair are one character. *)
Inductive chars : pystr -> pystr -> Prop :=
| ch_nil : chars [] []
| ch_plain c s t : 32 <= c -> c <> 34 -> c <> 92 -> chars s t -> chars (c :: s) (c :: t)
| ch_short e c s t : In (e, c) shorts -> chars s t -> chars (c :: s) (92 :: e :: t)
| ch_u c e s t : uxxxx c e -> ~ (high c /\ exists m e' r, low m /\ uxxxx m e' /\ t = e' ++ r) -> chars s t -> chars (c :: s) (e ++ t)
| ch_pair m n e e' s t : high m -> low n -> uxxxx m e -> uxxxx n e' -> chars s t ->
    chars (65536 + (m - 55296) * 1024 + (n - 56320) :: s) (e ++ e' ++ t).

Inductive text_of : json -> pystr -> Prop :=
| tx_null : text_of JNull (u "null")
| tx_true : text_of (JBool true) (u "true")
| tx_false : text_of (JBool false) (u "false")
| tx_int z : text_of (JInt z) (string_of_Z z)
| tx_float t : float_ok t = true -> text_of (JFloat t) t
| tx_str s t : chars s t -> text_of (JStr s) (34 :: t ++ [34])
| tx_nolist a : blank a -> text_of (JList []) (91 :: a ++ [93])
| tx_list l t : items_of l t -> text_of (JList l) (91 :: t ++ [93])
| tx_noobj a : blank a -> text_of (JObj []) (123 :: a ++ [125])
| tx_obj o t : members_of o t -> NoDup (map fst o) -> text_of (JObj o) (123 :: t ++ [125])
with items_of : list json -> pystr -> Prop :=
| it_last j a t b : blank a -> text_of j t -> blank b -> items_of [j] (a ++ t ++ b)
| it_more j a t b l r : blank a -> text_of j t -> blank b -> items_of l r -> items_of (j :: l) (a ++ t ++ b ++ 44 :: r)
with members_of : list (pystr * json) -> pystr -> Prop :=
| me_last k v a tk b c t d : blank a -> chars k tk -> blank b -> blank c -> text_of v t -> blank d ->
    members_of [(k, v)] (a ++ (34 :: tk ++ [34]) ++ b ++ 58 :: c ++ t ++ d)
| me_more k v a tk b c t d o r : blank a -> chars k tk -> blank b -> blank c -> text_of v t -> blank d -> members_of o r ->
    members_of ((k, v) :: o) (a ++ (34 :: tk ++ [34]) ++ b ++ 58 :: c ++ t ++ d ++ 44 :: r).
Scheme text_of_ind2 := Induction for text_of Sort Prop
with items_of_ind2 := Induction for items_of Sort Prop
with members_of_ind2 := Induction for members_of Sort Prop.
Combined Scheme text_ind from text_of_ind2, items_of_ind2, members_of_ind2.

(** ** Options of the writer that make a JSON text: the separators are a comma and a colon with blanks around them, the indentation is blank *)
Definition parted (c : N) (s : pystr) : Prop := exists a b, blank a /\ blank b /\ s = a ++ c :: b.
Definition layout_ok (y : layout) : Prop :=
  parted 44 (w_item y) /\ parted 58 (w_key y) /\ match w_indent y with None => True | Some i => blank i end.
(** Documents that can be written: without ensure_ascii strings may be anything *)
Fixpoint writable (ascii : bool) (j : json) : bool :=
  match j with
  | JFloat t => float_ok t
  | JStr s => implb ascii (str_ok s)
  | JList l => forallb (writable ascii) l
  | JObj o => nodupb (map fst o) && forallb (fun kv => match kv with (k, v) => implb ascii (str_ok k) && writable ascii v end) o
  | _ => true
  end.
