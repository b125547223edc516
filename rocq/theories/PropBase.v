(** C05: the texts are base64 and base85 as others write and read them. *)
From Verif Require Import PyStr Tags Json JsonText Base Heap B64 B85 Pickler CodecProofs Samples SpecBase.
From Coq Require Import List NArith Ascii Lia. Import ListNotations.
Open Scope N_scope.

Lemma enc64_letter a b c d e f : enc64 (number [a; b; c; d; e; f]) = letter letters64 (number [a; b; c; d; e; f]).
Proof. destruct a, b, c, d, e, f; vm_compute; reflexivity. Qed.
Ltac byte := match goal with b : byte |- _ => destruct b as [[] [] [] [] [] [] [] []]; reflexivity end.
Lemma hi6 b : bN b / 4 = number (firstn 6 (bits b)). Proof. byte. Qed.
Lemma lo2 b : bN b mod 4 = number (skipn 6 (bits b)). Proof. byte. Qed.
Lemma hi4 b : bN b / 16 = number (firstn 4 (bits b)). Proof. byte. Qed.
Lemma lo4 b : bN b mod 16 = number (skipn 4 (bits b)). Proof. byte. Qed.
Lemma hi2 b : bN b / 64 = number (firstn 2 (bits b)). Proof. byte. Qed.
Lemma lo6 b : bN b mod 64 = number (skipn 2 (bits b)). Proof. byte. Qed.
Lemma join24 a b c d e f : number [a; b] * 16 + number [c; d; e; f] = number [a; b; c; d; e; f].
Proof. destruct a, b, c, d, e, f; reflexivity. Qed.
Lemma join42 a b c d e f : number [a; b; c; d] * 4 + number [e; f] = number [a; b; c; d; e; f].
Proof. destruct a, b, c, d, e, f; reflexivity. Qed.
Lemma pad24 a b : number [a; b] * 16 = number [a; b; false; false; false; false].
Proof. destruct a, b; reflexivity. Qed.
Lemma pad42 a b c d : number [a; b; c; d] * 4 = number [a; b; c; d; false; false].
Proof. destruct a, b, c, d; reflexivity. Qed.

(** C05.  The text of a byte string is its base64. *)
Theorem C05_standard_base64 : forall b, b64encode b = base64 b.
Proof.
  assert (H : forall n b, (length b < n)%nat -> b64encode b = base64 b).
  { induction n as [|n IH]; intros b L; [lia|]. destruct b as [|x [|y [|z r]]]; [reflexivity| | |].
    - cbn [b64encode]. rewrite hi6, lo2. destruct x. unfold base64. cbn [flat_map bits app firstn skipn sixes length repeat].
      rewrite pad24, !enc64_letter. reflexivity.
    - cbn [b64encode]. rewrite hi6, lo2, hi4, lo4. destruct x, y. unfold base64. cbn [flat_map bits app firstn skipn sixes length repeat].
      rewrite join24, pad42, !enc64_letter. reflexivity.
    - cbn [b64encode]. rewrite hi6, lo2, hi4, lo4, hi2, lo6. rewrite (IH r) by (cbn in L; lia). destruct x, y, z. unfold base64.
      cbn [flat_map bits app firstn skipn sixes]. rewrite join24, join42, !enc64_letter. cbn [app length].
      replace (S (S (S (length r))) mod 3)%nat with (length r mod 3)%nat; [|replace (S (S (S (length r)))) with (length r + 1 * 3)%nat by lia; symmetry; apply Nat.mod_add; lia].
      reflexivity. }
  intros b. apply (H (S (length b))). lia.
Qed.
Print Assumptions C05_standard_base64.

Lemma enc85_letter n : enc85 n = letter letters85 n.
Proof. reflexivity. Qed.
Lemma word_digits w : w < 4294967296 -> Forall (fun d => d < 85) (map (digit w) [0; 1; 2; 3; 4]%nat) /\ in_base 85 (map (digit w) [0; 1; 2; 3; 4]%nat) = w.
Proof.
  intros L. unfold in_base. cbn [map digit fold_left]. split.
  - repeat constructor; try (apply N.mod_lt; lia). apply N.div_lt_upper_bound; lia.
  - assert (E1 := N.div_mod w 85 ltac:(lia)). assert (E2 := N.div_mod (w / 85) 85 ltac:(lia)). assert (E3 := N.div_mod (w / 7225) 85 ltac:(lia)). assert (E4 := N.div_mod (w / 614125) 85 ltac:(lia)).
    rewrite N.div_div in E2, E3, E4 by lia. change (85 * 85) with 7225 in E2. change (7225 * 85) with 614125 in E3. change (614125 * 85) with 52200625 in E4. lia.
Qed.
Lemma word_in_base a b c d : in_base 256 (map N_of_ascii [a; b; c; d]) = word (bN a) (bN b) (bN c) (bN d).
Proof. unfold in_base, word, bN. cbn [map fold_left]. lia. Qed.
Lemma word_lt a b c d : word (bN a) (bN b) (bN c) (bN d) < 4294967296.
Proof. pose proof (bN_lt a). pose proof (bN_lt b). pose proof (bN_lt c). pose proof (bN_lt d). unfold word. lia. Qed.
Lemma word_digits85 a b c d : digits85 [a; b; c; d] (map (digit (word (bN a) (bN b) (bN c) (bN d))) [0; 1; 2; 3; 4]%nat).
Proof. destruct (word_digits _ (word_lt a b c d)) as (A & B). split; [reflexivity|]. split; [exact A|]. rewrite B. symmetry. apply word_in_base. Qed.

(** C05.  With use_base85 it is its base85, and there is only one. *)
Theorem C05_standard_base85 : forall b, base85 b (b85encode b).
Proof.
  assert (H : forall n b, (length b < n)%nat -> base85 b (b85encode b)).
  { induction n as [|n IH]; intros b L; [lia|]. destruct b as [|x [|y [|z [|v r]]]]; [constructor| | | |].
    - exact (b85_rest [x] _ ltac:(cbn; lia) (word_digits85 x zero zero zero)).
    - exact (b85_rest [x; y] _ ltac:(cbn; lia) (word_digits85 x y zero zero)).
    - exact (b85_rest [x; y; z] _ ltac:(cbn; lia) (word_digits85 x y z zero)).
    - exact (b85_four x y z v r _ _ (word_digits85 x y z v) (IH r ltac:(cbn in L; lia))). }
  intros b. apply (H (S (length b))). lia.
Qed.
Print Assumptions C05_standard_base85.
Lemma digits_unique bs ds es : digits85 bs ds -> digits85 bs es -> ds = es.
Proof.
  intros (A1 & A2 & A3) (B1 & B2 & B3). rewrite <- B3 in A3. clear B3. unfold in_base in A3.
  destruct ds as [|d0 [|d1 [|d2 [|d3 [|d4 [|]]]]]]; try discriminate A1. destruct es as [|e0 [|e1 [|e2 [|e3 [|e4 [|]]]]]]; try discriminate B1.
  repeat match goal with H : Forall _ (_ :: _) |- _ => inversion H; clear H; subst end. cbn [fold_left] in A3.
  assert (d4 = e4) by lia. assert (d3 = e3) by lia. assert (d2 = e2) by lia. assert (d1 = e1) by lia. assert (d0 = e0) by lia. congruence.
Qed.
Theorem C05_base85_unique : forall b s1 s2, base85 b s1 -> base85 b s2 -> s1 = s2.
Proof.
  intros b s1 s2 H. revert s2. induction H as [|x y z v r ds text D _ IH|bs ds L D]; intros s2 H2; inversion H2; subst; cbn in *; try lia; auto.
  - f_equal; [|auto]. f_equal. eapply digits_unique; eauto.
  - do 2 f_equal. eapply digits_unique; eauto.
Qed.
Print Assumptions C05_base85_unique.

(** C05.  The document of a byte string, with all options. *)
Theorem C05_document : forall w k o b h n, exists text s',
  encode w k o (S n) (VBytes b) (new_pickler h) = (Ret (dumps (JObj [((if po_b85 o then u "py/b85" else u "py/b64"), JStr text)])), s') /\
  if po_b85 o then base85 b text else text = base64 b.
Proof.
  intros w k o b h n. destruct (flatten_of_impl w k o n (VBytes b) (new_pickler h) (flatten_bytestring o b) (new_pickler h)) as (s2 & E & _);
    [reflexivity | apply flatten_impl_bytes |].
  assert (R := encode_run w k o (S n) (VBytes b) (new_pickler h) (flatten_bytestring o b) s2 (fun _ => eq_refl) E).
  unfold flatten_bytestring in R. destruct (po_b85 o).
  - exists (b85encode b), s2. split; [exact R|apply C05_standard_base85].
  - exists (b64encode b), s2. split; [exact R|apply C05_standard_base64].
Qed.
Print Assumptions C05_document.

Example C05_standard_case : base64 (map ascii_of_N [77; 97; 110; 251; 255]) = u "TWFu+/8=" /\ b85encode (map ascii_of_N [77; 97; 110; 251; 255]) = u "O<`{P{{".
Proof. vm_compute. split; reflexivity. Qed.
