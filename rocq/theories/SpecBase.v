(** C05: the texts of base64 (RFC 4648, section 4) and of base85 (as in RFC 1924, in groups of four bytes, the
    padding cut off).  The encoders do not occur. *)
From Verif Require Import PyStr B64.
From Coq Require Import List NArith Ascii. Import ListNotations.
Open Scope N_scope.

Definition letters64 : pystr := u "ABCDEFGHIJKLMNOPQRSTUVWXYZabcdefghijklmnopqrstuvwxyz0123456789+/".
Definition letters85 : pystr := u "0123456789ABCDEFGHIJKLMNOPQRSTUVWXYZabcdefghijklmnopqrstuvwxyz!#$%&()*+-;<=>?@^_`{|}~".
Definition letter (alphabet : pystr) (n : N) : N := nth (N.to_nat n) alphabet 0.

(** The bits of a byte, the highest first, and the number that bits stand for. *)
Definition bits (b : byte) : list bool := match b with Ascii b0 b1 b2 b3 b4 b5 b6 b7 => [b7; b6; b5; b4; b3; b2; b1; b0] end.
Definition number (l : list bool) : N := fold_left (fun n (b : bool) => 2 * n + if b then 1 else 0) l 0.
(** Six bits to a letter; zeros are added at the end. *)
Fixpoint sixes (l : list bool) : pystr :=
  match l with
  | [] => []
  | a :: b :: c :: d :: e :: f :: r => letter letters64 (number [a; b; c; d; e; f]) :: sixes r
  | _ => [letter letters64 (number (firstn 6 (l ++ [false; false; false; false; false])))]
  end.
Definition base64 (b : bytes) : pystr := sixes (flat_map bits b) ++ repeat 61 ((3 - length b mod 3) mod 3).

(** Five digits to base 85 for the number that four bytes stand for. *)
Definition in_base (base : N) (ds : list N) : N := fold_left (fun n d => n * base + d) ds 0.
Definition digits85 (bs : bytes) (ds : list N) : Prop :=
  length ds = 5%nat /\ Forall (fun d => d < 85) ds /\ in_base 85 ds = in_base 256 (map N_of_ascii bs).
Inductive base85 : bytes -> pystr -> Prop :=
| b85_none : base85 [] []
| b85_four a b c d r ds text : digits85 [a; b; c; d] ds -> base85 r text ->
    base85 (a :: b :: c :: d :: r) (map (letter letters85) ds ++ text)
| b85_rest bs ds : (0 < length bs < 4)%nat -> digits85 (bs ++ repeat zero (4 - length bs)) ds ->
    base85 bs (map (letter letters85) (firstn (length bs + 1) ds)).
