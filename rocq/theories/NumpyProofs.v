(** Proofs for C52. *)
From Verif Require Import PyStr B64 Base Numpy SpecNumpy.
From Coq Require Import List ZArith Lia Bool.
Import ListNotations.
Open Scope nat_scope.

Fixpoint rank (shape idx : list nat) : nat :=
  match shape, idx with _ :: sh, i :: r => i * prod sh + rank sh r | _, _ => 0 end.

Lemma rank_lt sh : forall idx, in_bounds idx sh -> rank sh idx < prod sh.
Proof.
  induction sh as [|n sh IH]; intros idx B; inversion B; subst; cbn [rank prod fold_right]; [lia|].
  fold (prod sh). specialize (IH _ H3). nia.
Qed.
Lemma dot_nil idx : dot idx [] = 0%Z.
Proof. unfold dot. destruct idx; reflexivity. Qed.
Lemma dot_cons i r s st : dot (i :: r) (s :: st) = (Z.of_nat i * s + dot r st)%Z.
Proof. reflexivity. Qed.
Lemma c_strides_length k sh : length (c_strides k sh) = length sh.
Proof. induction sh; cbn; auto. Qed.
Lemma dot_c k sh : forall idx, length idx = length sh -> dot idx (c_strides k sh) = Z.of_nat (k * rank sh idx).
Proof.
  induction sh as [|n sh IH]; intros [|i r] L; try discriminate; cbn [c_strides rank].
  - rewrite dot_nil. lia.
  - rewrite dot_cons, IH by (cbn in L; lia). nia.
Qed.
Lemma in_bounds_length idx sh : in_bounds idx sh -> length idx = length sh.
Proof. intros H. induction H; cbn; auto. Qed.

(** * Blocks of equal length. *)
Lemma firstn_skipn_app {A} (x y : list A) p k : p + k <= length x -> firstn k (skipn p (x ++ y)) = firstn k (skipn p x).
Proof.
  intros H. rewrite skipn_app, firstn_app, skipn_length.
  replace (k - (length x - p)) with 0 by lia. cbn [firstn]. now rewrite app_nil_r.
Qed.
Lemma blocks {A} (g : nat -> list A) B : forall n s i p k,
  (forall j, s <= j < s + n -> length (g j) = B) -> i < n -> p + k <= B ->
  firstn k (skipn (B * i + p) (concat (map g (seq s n)))) = firstn k (skipn p (g (s + i))).
Proof.
  induction n as [|n IH]; intros s i p k L I P; [lia|]. cbn [seq map concat].
  assert (L0 : length (g s) = B) by (apply L; lia).
  destruct i as [|i].
  - rewrite Nat.mul_0_r, Nat.add_0_l, Nat.add_0_r. apply firstn_skipn_app. lia.
  - replace (B * S i + p) with (length (g s) + (B * i + p)) by nia.
    rewrite skipn_app, skipn_all2 by lia. cbn [app].
    replace (length (g s) + (B * i + p) - length (g s)) with (B * i + p) by lia.
    rewrite IH; [f_equal; f_equal; f_equal; lia| |lia|lia]. intros j J. apply L. lia.
Qed.
Lemma blocks_length {A} (g : nat -> list A) B : forall n s,
  (forall j, s <= j < s + n -> length (g j) = B) -> length (concat (map g (seq s n))) = B * n.
Proof.
  induction n as [|n IH]; intros s L; cbn [seq map concat]; [now rewrite Nat.mul_0_r|].
  rewrite app_length, IH, (L s) by (intros; try apply L; lia). nia.
Qed.
Lemma concat_flat {A B} (f : A -> list B) (F : nat -> list A) l :
  concat (map f (flat_map F l)) = concat (map (fun i => concat (map f (F i))) l).
Proof. induction l as [|x l IH]; cbn; auto. now rewrite map_app, concat_app, IH. Qed.

Lemma items_length {A} (f : list nat -> list A) k : forall sh,
  (forall idx, in_bounds idx sh -> length (f idx) = k) -> length (concat (map f (indices sh))) = k * prod sh.
Proof.
  intros sh. revert f. induction sh as [|n sh IH]; intros f L; cbn [indices].
  - cbn. rewrite app_nil_r, (L [] (Forall2_nil _)). nia.
  - rewrite concat_flat. rewrite (blocks_length _ (k * prod sh)).
    + cbn [prod fold_right]. fold (prod sh). nia.
    + intros j J. rewrite map_map. apply (IH (fun r => f (j :: r))). intros r R. apply L. constructor; auto. lia.
Qed.
Lemma items_at {A} (f : list nat -> list A) k : forall sh,
  (forall idx, in_bounds idx sh -> length (f idx) = k) ->
  forall idx, in_bounds idx sh -> firstn k (skipn (k * rank sh idx) (concat (map f (indices sh)))) = f idx.
Proof.
  intros sh. revert f. induction sh as [|n sh IH]; intros f L idx B; inversion B; subst; cbn [indices rank].
  - cbn. rewrite Nat.mul_0_r. cbn. rewrite app_nil_r. apply firstn_all2. rewrite (L [] (Forall2_nil _)). lia.
  - rename x into i, l into r. rewrite concat_flat.
    assert (Lb : forall j, 0 <= j < 0 + n -> length (concat (map f (map (cons j) (indices sh)))) = k * prod sh).
    { intros j J. rewrite map_map. apply (items_length (fun r => f (j :: r))). intros q Q. apply L. constructor; auto. lia. }
    pose proof (rank_lt _ _ H3) as R.
    replace (k * (i * prod sh + rank sh r)) with (k * prod sh * i + k * rank sh r) by nia.
    rewrite (blocks (fun j => concat (map f (map (cons j) (indices sh)))) (k * prod sh) n 0 i); [|auto|auto|nia].
    cbn [Nat.add]. rewrite map_map. apply (IH (fun q => f (i :: q))); auto. intros q Q. apply L. constructor; auto.
Qed.

(** * Reading the blocks back. *)
Lemma firstn_split {A} (m : list A) a b : firstn (a + b) m = firstn a m ++ firstn b (skipn a m).
Proof.
  revert m. induction a as [|a IH]; intros m; [reflexivity|]. destruct m; cbn [firstn skipn Nat.add app]; [now rewrite firstn_nil|].
  now rewrite IH.
Qed.
Lemma skipn_skipn {A} (m : list A) a b : skipn a (skipn b m) = skipn (b + a) m.
Proof. revert m. induction b as [|b IH]; intros m; [reflexivity|]. destruct m; cbn [skipn Nat.add]; [now rewrite skipn_nil|auto]. Qed.
Lemma reassemble (m : bytes) k : forall sh p,
  concat (map (fun idx => firstn k (skipn (p + k * rank sh idx) m)) (indices sh)) = firstn (k * prod sh) (skipn p m).
Proof.
  induction sh as [|n sh IH]; intros p; cbn [indices].
  - cbn. rewrite app_nil_r, Nat.mul_0_r, Nat.add_0_r, Nat.mul_1_r. reflexivity.
  - rewrite concat_flat.
    assert (G : forall c s q, concat (map (fun i => concat (map (fun idx => firstn k (skipn (p + k * rank (q :: sh) idx) m)) (map (cons i) (indices sh)))) (seq s c))
      = firstn (k * prod sh * c) (skipn (p + k * prod sh * s) m)).
    { induction c as [|c IHn]; intros s q; cbn [seq map concat]; [now rewrite Nat.mul_0_r|].
      rewrite IHn, map_map. cbn [rank].
      rewrite (map_ext _ (fun idx => firstn k (skipn ((p + k * prod sh * s) + k * rank sh idx) m))) by (intros r; f_equal; f_equal; nia).
      rewrite IH. replace (k * prod sh * S c) with (k * prod sh + k * prod sh * c) by nia.
      rewrite firstn_split, skipn_skipn. f_equal. f_equal. f_equal. nia. }
    rewrite (G n 0 n). cbn [prod fold_right]. fold (prod sh). rewrite Nat.mul_0_r, Nat.add_0_r. f_equal. nia.
Qed.

(** * Fortran order. *)
Lemma in_bounds_rev idx sh : in_bounds idx sh -> in_bounds (rev idx) (rev sh).
Proof. unfold in_bounds. intros H. induction H; cbn; auto. apply Forall2_app; auto. Qed.
Lemma prod_app a b : prod (a ++ b) = prod a * prod b.
Proof. unfold prod. induction a as [|x a IH]; cbn [app fold_right]; [lia|]. rewrite IH. nia. Qed.
Lemma prod_rev sh : prod (rev sh) = prod sh.
Proof. induction sh as [|n sh IH]; auto. cbn [rev]. rewrite prod_app, IH. cbn. fold (prod sh). nia. Qed.
Lemma dot_app a b sa sb : length a = length sa -> dot (a ++ b) (sa ++ sb) = (dot a sa + dot b sb)%Z.
Proof.
  revert sa. induction a as [|i a IH]; intros [|s sa] L; try discriminate; cbn [app]; [reflexivity|].
  rewrite !dot_cons, IH by (cbn in L; lia). lia.
Qed.
Lemma dot_rev idx st : length idx = length st -> dot (rev idx) (rev st) = dot idx st.
Proof.
  revert st. induction idx as [|i r IH]; intros [|s st] L; try discriminate; auto. cbn [rev].
  rewrite dot_app by (rewrite !rev_length; cbn in L; lia). rewrite IH by (cbn in L; lia). rewrite !dot_cons, dot_nil. lia.
Qed.
Lemma f_strides_length k sh : length (f_strides k sh) = length sh.
Proof. unfold f_strides. rewrite rev_length, c_strides_length, rev_length. reflexivity. Qed.
Lemma dot_f k sh idx : length idx = length sh -> dot idx (f_strides k sh) = Z.of_nat (k * rank (rev sh) (rev idx)).
Proof.
  intros L. unfold f_strides. rewrite <- (rev_involutive idx) at 1. rewrite dot_rev by (rewrite c_strides_length, !rev_length; auto).
  apply dot_c. rewrite !rev_length; auto.
Qed.

Definition rank_of (forder : bool) (sh idx : list nat) : nat := if forder then rank (rev sh) (rev idx) else rank sh idx.
Lemma dot_order forder k sh idx : length idx = length sh -> dot idx (order_strides forder k sh) = Z.of_nat (k * rank_of forder sh idx).
Proof. destruct forder; [apply dot_f|apply dot_c]. Qed.
Lemma order_items_length {A} (f : list nat -> list A) k forder sh :
  (forall idx, in_bounds idx sh -> length (f idx) = k) -> length (concat (map f (order_indices forder sh))) = k * prod sh.
Proof.
  intros L. destruct forder; cbn; [|apply items_length; auto]. unfold f_indices. rewrite map_map.
  rewrite (items_length (fun r => f (rev r)) k), prod_rev; auto.
  intros r R. apply L. apply in_bounds_rev in R. rewrite rev_involutive in R. auto.
Qed.
Lemma order_items_at {A} (f : list nat -> list A) k forder sh :
  (forall idx, in_bounds idx sh -> length (f idx) = k) ->
  forall idx, in_bounds idx sh ->
  firstn k (skipn (k * rank_of forder sh idx) (concat (map f (order_indices forder sh)))) = f idx.
Proof.
  intros L idx B. destruct forder; cbn; [|apply items_at; auto]. unfold f_indices. rewrite map_map.
  rewrite (items_at (fun r => f (rev r)) k); [now rewrite rev_involutive| |apply in_bounds_rev; auto].
  intros r R. apply L. apply in_bounds_rev in R. rewrite rev_involutive in R. auto.
Qed.
Lemma order_reassemble (m : bytes) k forder sh :
  length m = k * prod sh ->
  concat (map (fun idx => firstn k (skipn (k * rank_of forder sh idx) m)) (order_indices forder sh)) = m.
Proof.
  intros L. destruct forder; unfold order_indices, rank_of.
  - unfold f_indices. rewrite map_map.
    rewrite (map_ext _ (fun r => firstn k (skipn (0 + k * rank (rev sh) r) m))) by (intros r; now rewrite rev_involutive).
    rewrite reassemble, prod_rev, <- L. apply firstn_all.
  - pose proof (reassemble m k sh 0) as R. cbn [Nat.add skipn] in R. rewrite R, <- L. apply firstn_all.
Qed.

(** * Contiguity flags. *)
Lemma no_zero sh idx : in_bounds idx sh -> existsb (Nat.eqb 0) sh = false.
Proof. intros H. induction H; auto. cbn [existsb]. rewrite IHForall2. destruct y; [lia|reflexivity]. Qed.
Lemma contiguous_dot sh : forall st ex idx, contiguous sh st ex = true -> length st = length sh -> length ex = length sh ->
  in_bounds idx sh -> dot idx st = dot idx ex.
Proof.
  unfold contiguous. intros st ex idx C L1 L2 B. rewrite (no_zero _ _ B) in C. cbn [orb] in C.
  revert st ex idx C L1 L2 B. induction sh as [|n sh IH]; intros [|s st] [|e ex] idx C L1 L2 B; try discriminate; auto.
  inversion B; subst. cbn [combine forallb] in C. apply andb_prop in C. destruct C as [C1 C2].
  rewrite !dot_cons, (IH st ex l) by (auto; cbn in *; lia). cbn [fst snd] in C1. apply orb_prop in C1. destruct C1 as [C1|C1].
  - apply Nat.leb_le in C1. assert (x = 0) by lia. subst. lia.
  - apply Z.eqb_eq in C1. subst. reflexivity.
Qed.
Lemma order_strides_length forder k sh : length (order_strides forder k sh) = length sh.
Proof. destruct forder; [apply f_strides_length|apply c_strides_length]. Qed.
Lemma contiguous_refl sh st : contiguous sh st st = true.
Proof.
  unfold contiguous. apply orb_true_iff. right. revert st. induction sh as [|n sh IH]; intros [|s st]; cbn; auto.
  rewrite Z.eqb_refl, orb_true_r, IH. reflexivity.
Qed.
Lemma order_forc forder m off sh d w :
  forc (mkArr m off sh (order_strides forder (d_item d) sh) d w) = true.
Proof.
  unfold forc, f_contiguous, c_contiguous. cbn [a_shape a_strides a_dtype]. destruct forder; cbn [order_strides]; rewrite contiguous_refl; auto using orb_true_r.
Qed.

Lemma slice_length m p n : (0 <= p)%Z -> (p + Z.of_nat n <= Z.of_nat (length m))%Z -> length (slice m p n) = n.
Proof. intros H1 H2. unfold slice. rewrite firstn_length, skipn_length. lia. Qed.
Lemma raw_length a idx : well_placed a -> in_bounds idx (a_shape a) -> length (raw a idx) = d_item (a_dtype a).
Proof. intros (W1 & W2 & W3) B. destruct (W3 idx B). apply slice_length; lia. Qed.

(** An array that fills a block in some order. *)
Lemma filled_raw forder f k sh d w idx : d_item d = k ->
  (forall idx, in_bounds idx sh -> length (f idx) = k) -> in_bounds idx sh ->
  raw (mkArr (concat (map f (order_indices forder sh))) 0 sh (order_strides forder k sh) d w) idx = f idx.
Proof.
  intros Hk L B. unfold raw. cbn [a_mem a_off a_shape a_strides a_dtype]. rewrite dot_order by (apply in_bounds_length; auto).
  unfold slice. rewrite Hk, Z.add_0_l, Nat2Z.id. apply order_items_at; auto.
Qed.
Lemma filled_owner forder f k sh d w : d_item d = k -> 1 <= k ->
  (forall idx, in_bounds idx sh -> length (f idx) = k) ->
  owner (mkArr (concat (map f (order_indices forder sh))) 0 sh (order_strides forder k sh) d w).
Proof.
  intros Hk K L. unfold owner, well_placed. cbn [a_mem a_off a_shape a_strides a_dtype].
  repeat split; auto.
  - lia.
  - apply order_strides_length.
  - rewrite dot_order by (apply in_bounds_length; auto). lia.
  - rewrite dot_order by (apply in_bounds_length; auto). rewrite (order_items_length f k); auto. rewrite Hk.
    assert (rank_of forder sh idx < prod sh).
    { destruct forder; cbn; [rewrite <- prod_rev|]; apply rank_lt; auto. apply in_bounds_rev; auto. }
    nia.
  - rewrite (order_items_length f k); subst k; auto.
  - subst k. apply order_forc.
Qed.
Lemma order_indices_in forder sh idx : In idx (order_indices forder sh) -> in_bounds idx sh.
Proof.
  assert (G : forall sh i, In i (indices sh) -> in_bounds i sh).
  { clear. induction sh as [|n sh IH]; intros i H; cbn in H.
    - destruct H as [<-|[]]. constructor.
    - apply in_flat_map in H. destruct H as (j & J & H). apply in_map_iff in H. destruct H as (r & <- & H).
      apply Forall2_cons; [apply in_seq in J; lia|exact (IH r H)]. }
  intros H. destruct forder; cbn in H; [|auto]. unfold f_indices in H. apply in_map_iff in H. destruct H as (r & <- & H).
  apply G, in_bounds_rev in H. rewrite rev_involutive in H. auto.
Qed.
(** The memory of an owner is its items in the order of its strides. *)
Lemma owner_mem a forder : owner a ->
  contiguous (a_shape a) (a_strides a) (order_strides forder (d_item (a_dtype a)) (a_shape a)) = true ->
  concat (map (raw a) (order_indices forder (a_shape a))) = a_mem a.
Proof.
  intros ((W1 & W2 & W3) & O & L & _) C. rewrite <- (order_reassemble (a_mem a) _ forder (a_shape a) L).
  f_equal. apply map_ext_in. intros idx In.
  apply order_indices_in in In. rename In into B.
  unfold raw, slice. rewrite O, Z.add_0_l.
  rewrite (contiguous_dot _ _ _ _ C W2 (order_strides_length _ _ _) B), dot_order by (apply in_bounds_length; auto).
  rewrite Nat2Z.id. reflexivity.
Qed.

Section numpy.
  Variable native : border.
  Notation item_of := (item_of native).
  Notation bytes_of := (bytes_of native).

  Lemma item_bytes d v : item_of d (bytes_of d v) = v.
  Proof. unfold Numpy.item_of, Numpy.bytes_of. destruct (get_byteorder native d); auto. apply rev_involutive. Qed.
  Lemma bytes_item d v : bytes_of d (item_of d v) = v.
  Proof. unfold Numpy.item_of, Numpy.bytes_of. destruct (get_byteorder native d); auto. apply rev_involutive. Qed.
  Lemma item_length d v : length (item_of d v) = length v.
  Proof. unfold Numpy.item_of. destruct (get_byteorder native d); auto. apply rev_length. Qed.
  Lemma bytes_length d v : length (bytes_of d v) = length v.
  Proof. unfold Numpy.bytes_of. destruct (get_byteorder native d); auto. apply rev_length. Qed.

  (** * Nested lists. *)
  Lemma nested_shape d m : forall sh st off, length st = length sh -> existsb (Nat.eqb 0) sh = false ->
    shape_of (nested native d m off sh st) = sh.
  Proof.
    induction sh as [|n sh IH]; intros [|s st] off L Z; try discriminate; auto.
    cbn [nested]. destruct n as [|n]; [discriminate|]. cbn [seq map shape_of]. rewrite IH by (cbn in *; auto; lia).
    cbn [length]. rewrite map_length, seq_length. reflexivity.
  Qed.
  Lemma nested_item d m : forall sh st off idx, length st = length sh -> in_bounds idx sh ->
    item_at (nested native d m off sh st) idx = item_of d (slice m (off + dot idx st) (d_item d)).
  Proof.
    induction sh as [|n sh IH]; intros [|s st] off idx L B; try discriminate; inversion B; subst.
    - cbn. rewrite Z.add_0_r. reflexivity.
    - cbn [nested item_at]. rewrite (nth_indep _ (Leaf []) (nested native d m (off + Z.of_nat 0 * s) sh st)) by (rewrite map_length, seq_length; auto).
      rewrite (map_nth (fun i => nested native d m (off + Z.of_nat i * s) sh st)), seq_nth by auto.
      rewrite IH by (auto; cbn in *; lia). rewrite dot_cons. f_equal. f_equal. cbn [Nat.add]. lia.
  Qed.
  Lemma nested_zero d m : forall sh st off, length st = length sh -> existsb (Nat.eqb 0) sh = true ->
    sh <> [] /\ (exists l, nested native d m off sh st = Nest l) /\ prod (shape_of (nested native d m off sh st)) = 0.
  Proof.
    induction sh as [|n sh IH]; intros [|s st] off L Z; try discriminate. split; [discriminate|].
    cbn [nested]. split; [eauto|]. destruct n as [|n]; [reflexivity|]. cbn [seq map shape_of prod fold_right existsb Nat.eqb orb] in *.
    destruct (IH st (off + Z.of_nat 0 * s)%Z) as (_ & _ & H); [cbn in L; lia|auto|].
    match type of H with prod (shape_of ?x) = 0 => change (fold_right Nat.mul 1 (shape_of x)) with (prod (shape_of x)) end.
    rewrite H. lia.
  Qed.

  Variable threshold : option nat.
  Variable compression : option ((bytes -> bytes) * (bytes -> res bytes)).
  Hypothesis Hc : lossless compression.

  Notation flatten_value := (flatten_value native threshold compression).
  Notation restore_value := (restore_value native compression).

  Lemma new_item d o : d_item (newbyteorder native d o) = d_item d.
  Proof. reflexivity. Qed.
  Lemma zero_prod sh : existsb (Nat.eqb 0) sh = true -> prod sh = 0.
  Proof. induction sh as [|n sh IH]; cbn; [discriminate|]. fold (prod sh). destruct n; cbn; auto. intros H. rewrite (IH H). lia. Qed.
  Lemma zero_no_index sh idx : existsb (Nat.eqb 0) sh = true -> in_bounds idx sh -> False.
  Proof. intros Z B. rewrite (no_zero _ _ B) in Z. discriminate. Qed.

  Lemma indices_empty sh : prod sh = 0 -> indices sh = [].
  Proof.
    induction sh as [|n sh IH]; cbn [prod fold_right]; [discriminate|]. fold (prod sh). intros H. cbn [indices].
    destruct n as [|n]; [reflexivity|]. rewrite IH by lia. clear. induction (seq 0 (S n)); auto.
  Qed.
  Lemma order_indices_empty f sh : prod sh = 0 -> order_indices f sh = [].
  Proof. intros H. destruct f; cbn; [unfold f_indices|]; rewrite indices_empty; auto. rewrite prod_rev; auto. Qed.

  Lemma flags_shape r a : a_shape (restore_flags r a) = a_shape a. Proof. destruct r; reflexivity. Qed.
  Lemma flags_mem r a : a_mem (restore_flags r a) = a_mem a. Proof. destruct r; reflexivity. Qed.
  Lemma flags_dtype r a : a_dtype (restore_flags r a) = a_dtype a. Proof. destruct r; reflexivity. Qed.
  Lemma flags_raw r a idx : raw (restore_flags r a) idx = raw a idx. Proof. destruct r; reflexivity. Qed.
  Lemma flags_owner r a : owner a -> owner (restore_flags r a). Proof. destruct r; auto. Qed.
  Lemma flags_write r a : a_writeable (restore_flags r a) = negb r && a_writeable a. Proof. destruct r; reflexivity. Qed.

  Definition big (a : ndarray) : Prop := match threshold with None => False | Some t => t < asize a end.
  Lemma small_or_big a : small threshold a \/ big a.
  Proof. unfold small, big. destruct threshold; auto. lia. Qed.

  (** * Text. *)
  Lemma text_value a : owner a -> small threshold a -> a_shape a <> [] ->
    exists b, restore_value (flatten_value a) = Ret b /\ owner b /\ a_shape b = a_shape a /\
      (forall idx, in_bounds idx (a_shape a) -> item native b idx = item native a idx) /\
      a_dtype b = newbyteorder native (a_dtype a) NNative /\ a_writeable b = a_writeable a /\
      (get_byteorder native (newbyteorder native (a_dtype a) NNative) = get_byteorder native (a_dtype a) -> a_mem b = a_mem a).
  Proof.
    intros O SM NE. pose proof O as ((W1 & W2 & W3) & OFF & LEN & FC).
    assert (D : flatten_value a = mkVdoc (newbyteorder native (a_dtype a) NNative) (VNest (tolist native a))
      (if existsb (Nat.eqb 0) (a_shape a) then Some (a_shape a) else None) None (negb (c_contiguous a)) (negb (a_writeable a))).
    { unfold Numpy.flatten_value, flatten_binary, flatten_text, small in *.
      destruct threshold as [t|]; [rewrite (proj2 (Nat.leb_le _ _) SM)|]; destruct (c_contiguous a); reflexivity. }
    rewrite D. clear D. set (d := newbyteorder native (a_dtype a) NNative).
    assert (LST : exists l, tolist native a = Nest l).
    { unfold tolist. destruct (a_shape a) as [|n sh]; [congruence|]. destruct (a_strides a); [discriminate|]. cbn. eauto. }
    destruct LST as (l & EL). unfold Numpy.restore_value. cbn [vd_values]. rewrite EL.
    unfold restore_text. cbn [vd_dtype vd_order_f vd_shape vd_readonly]. rewrite <- EL. unfold tolist.
    destruct (existsb (Nat.eqb 0) (a_shape a)) eqn:Z0.
    - destruct (nested_zero (a_dtype a) (a_mem a) _ _ (a_off a) W2 Z0) as (_ & _ & P0).
      unfold reshape, asize, np_array. cbn [a_shape a_mem a_off a_dtype a_writeable]. rewrite P0, (zero_prod _ Z0). cbn [Nat.eqb].
      rewrite order_indices_empty by auto. cbn [map concat].
      eexists. split; [reflexivity|]. rewrite flags_shape, flags_dtype, flags_mem, flags_write. cbn [a_shape a_dtype a_mem a_writeable].
      split; [|split; [auto|split; [|split; [auto|split]]]].
      + apply flags_owner. unfold owner, well_placed, asize. cbn [a_shape a_dtype a_mem a_off a_strides].
        repeat split; auto; try (exfalso; eapply zero_no_index; eauto; fail).
        * apply c_strides_length.
        * rewrite (zero_prod _ Z0). cbn. lia.
        * unfold forc, f_contiguous, c_contiguous, contiguous. cbn [a_shape]. rewrite Z0. reflexivity.
      + intros idx B. exfalso. eapply zero_no_index; eauto.
      + rewrite negb_involutive, andb_true_r. reflexivity.
      + intros _. destruct (a_mem a); auto. cbn in LEN. unfold asize in LEN. rewrite (zero_prod _ Z0) in LEN. lia.
    - set (v := nested native (a_dtype a) (a_mem a) (a_off a) (a_shape a) (a_strides a)).
      assert (SH : shape_of v = a_shape a) by (apply nested_shape; auto).
      set (f := fun i => bytes_of d (item_at v i)).
      assert (FV : forall idx, in_bounds idx (a_shape a) -> item_at v idx = item native a idx).
      { intros idx B. unfold v. rewrite nested_item by auto. reflexivity. }
      assert (FL : forall idx, in_bounds idx (a_shape a) -> length (f idx) = d_item (a_dtype a)).
      { intros idx B. unfold f. rewrite bytes_length, FV by auto. unfold item. rewrite item_length. apply raw_length; auto. split; auto. }
      eexists. split; [reflexivity|]. rewrite flags_shape, flags_dtype, flags_mem, flags_write. unfold np_array. rewrite SH.
      cbn [a_shape a_dtype a_mem a_writeable].
      split; [|split; [auto|split; [|split; [auto|split]]]].
      + apply flags_owner. apply (filled_owner (negb (c_contiguous a)) f); auto.
      + intros idx B. unfold item at 1. rewrite flags_dtype, flags_raw. cbn [a_dtype].
        rewrite (filled_raw (negb (c_contiguous a)) f (d_item d) (a_shape a)) by auto.
        unfold f. rewrite item_bytes. apply FV; auto.
      + rewrite negb_involutive, andb_true_r. reflexivity.
      + intros E. rewrite <- (owner_mem a (negb (c_contiguous a))); auto.
        * f_equal. apply map_ext_in. intros idx In. 
          apply order_indices_in in In. rename In into B.
          rewrite FV by auto. unfold item. unfold Numpy.bytes_of. fold d in E. rewrite E. apply bytes_item.
        * unfold forc, c_contiguous, f_contiguous in *. destruct (contiguous (a_shape a) (a_strides a) (c_strides _ _)) eqn:CC; cbn [negb order_strides]; auto.
          rewrite orb_false_r in FC. auto.
  Qed.

  (** A 0-d array comes back with one axis, over the same memory. *)
  Lemma text_scalar a : owner a -> small threshold a -> a_shape a = [] ->
    exists b, restore_value (flatten_value a) = Ret b /\ owner b /\ a_shape b = [1] /\
      item native b [0] = item native a [] /\ a_writeable b = true /\
      a_dtype b = newbyteorder native (a_dtype a) NNative /\
      (get_byteorder native (newbyteorder native (a_dtype a) NNative) = get_byteorder native (a_dtype a) -> a_mem b = a_mem a).
  Proof.
    intros O SM NE. pose proof O as ((W1 & W2 & W3) & OFF & LEN & FC).
    assert (ST : a_strides a = []) by (rewrite NE in W2; destruct (a_strides a); auto; discriminate).
    assert (CC : c_contiguous a = true) by (unfold c_contiguous, contiguous; rewrite NE, ST; reflexivity).
    set (d := newbyteorder native (a_dtype a) NNative).
    assert (D : flatten_value a = mkVdoc d (VNest (Leaf (item native a []))) None None false (negb (a_writeable a))).
    { unfold Numpy.flatten_value, flatten_binary, flatten_text, small in *. rewrite CC.
      assert (E : tolist native a = Leaf (item native a [])).
      { unfold tolist, item, raw. rewrite NE, ST. cbn [nested dot combine map fold_right]. now rewrite Z.add_0_r. }
      rewrite E, NE. destruct threshold as [t|]; [rewrite (proj2 (Nat.leb_le _ _) SM)|]; reflexivity. }
    rewrite D. unfold Numpy.restore_value. cbn [vd_values vd_dtype].
    assert (L0 : length (raw a []) = d_item (a_dtype a)) by (apply raw_length; [split; auto|rewrite NE; constructor]).
    assert (MEM : raw a [] = a_mem a).
    { rewrite <- (owner_mem a false O). - rewrite NE. cbn. now rewrite app_nil_r. - unfold c_contiguous in CC. exact CC. }
    set (f := fun i => bytes_of d (item_at (Nest [Leaf (item native a [])]) i)).
    assert (FL : forall idx, in_bounds idx [1] -> length (f idx) = d_item (a_dtype a)).
    { intros idx B. inversion B as [|i n r sh I R]; subst. inversion R; subst. assert (i = 0) by lia. subst. unfold f. cbn [item_at nth].
      rewrite bytes_length. unfold item. rewrite item_length. auto. }
    eexists. split; [reflexivity|]. split; [|split; [reflexivity|split; [|split; [reflexivity|split; [reflexivity|]]]]].
    - apply (filled_owner false f (d_item (a_dtype a)) [1]); auto.
    - change (np_array native (Nest [Leaf (item native a [])]) d false) with
        (mkArr (concat (map f (order_indices false [1]))) 0 [1] (order_strides false (d_item (a_dtype a)) [1]) d true).
      unfold item at 1. cbn [a_dtype].
      rewrite (filled_raw false f (d_item (a_dtype a)) [1]); auto; [|constructor; [lia|constructor]].
      unfold f. cbn [item_at nth]. apply item_bytes.
    - intros E. cbn [np_array a_mem shape_of length order_indices indices seq flat_map map app concat item_at nth].
      rewrite app_nil_r. unfold Numpy.bytes_of. fold d in E. rewrite E. unfold item. rewrite <- MEM. apply bytes_item.
  Qed.

  (** * Binary. *)
  Lemma order_binary a : owner a -> f_contiguous a && negb (c_contiguous a) = negb (c_contiguous a).
  Proof. intros (_ & _ & _ & F). unfold forc in F. destruct (c_contiguous a); [now rewrite andb_false_r|]. rewrite orb_false_r in F. now rewrite F. Qed.
  Hypothesis Hn : native = BLt \/ native = BGt.
  Lemma byteorder_back d : get_byteorder native (newbyteorder native (newbyteorder native d NNative) (NExplicit (get_byteorder native d))) = get_byteorder native d.
  Proof. unfold newbyteorder, norm, get_byteorder. destruct Hn; subst; destruct d as [k []]; reflexivity. Qed.
  Lemma binary_value a : owner a -> big a ->
    exists b, restore_value (flatten_value a) = Ret b /\ owner b /\ a_shape b = a_shape a /\
      (forall idx, in_bounds idx (a_shape a) -> item native b idx = item native a idx) /\
      d_item (a_dtype b) = d_item (a_dtype a) /\ get_byteorder native (a_dtype b) = get_byteorder native (a_dtype a) /\
      a_writeable b = a_writeable a /\ (c_contiguous a = true -> a_mem b = a_mem a) /\ c_contiguous b = true.
  Proof.
    intros O BG. pose proof O as (W & OFF & LEN & FC). pose proof W as (W1 & W2 & W3).
    set (d := newbyteorder native (a_dtype a) NNative).
    set (buf := concat (map (raw a) (order_indices (negb (c_contiguous a)) (a_shape a)))).
    set (z := match compression with Some (compress, _) => compress buf | None => buf end).
    assert (D : flatten_value a = mkVdoc d (VText (b64encode z)) (Some (a_shape a))
      (match d_border (a_dtype a) with BBar => None | _ => Some (get_byteorder native (a_dtype a)) end)
      (negb (c_contiguous a)) (negb (a_writeable a))).
    { unfold Numpy.flatten_value, flatten_binary, big in *. unfold tobytes_A. rewrite (order_binary a O).
      fold buf. destruct threshold as [t|]; [|tauto]. replace (asize a <=? t) with false by (symmetry; apply Nat.leb_gt; auto).
      fold z. destruct (c_contiguous a); reflexivity. }
    rewrite D. unfold Numpy.restore_value. cbn [vd_values vd_shape vd_dtype vd_order_f vd_byteorder vd_readonly]. rewrite b64_roundtrip.
    assert (Z1 : match compression with Some (_, decompress) => decompress z | None => Ret z end = Ret buf).
    { unfold z, lossless in *. destruct compression as [[c dc]|]; [apply (Hc c dc eq_refl)|reflexivity]. }
    rewrite Z1.
    assert (RL : forall idx, in_bounds idx (a_shape a) -> length (raw a idx) = d_item (a_dtype a)) by (intros; apply raw_length; auto).
    assert (LB : length buf = d_item (a_dtype a) * prod (a_shape a)) by (apply order_items_length; auto).
    change (d_item d) with (d_item (a_dtype a)). rewrite LB, Nat.leb_refl.
    set (arr0 := mkArr buf 0 (a_shape a) (order_strides (negb (c_contiguous a)) (d_item (a_dtype a)) (a_shape a)) d true).
    assert (R0 : forall idx, in_bounds idx (a_shape a) -> raw arr0 idx = raw a idx).
    { intros idx B. unfold arr0, buf. apply filled_raw; auto. }
    assert (E1 : concat (map (raw arr0) (indices (a_shape a))) = concat (map (raw a) (order_indices false (a_shape a)))).
    { f_equal. apply map_ext_in. intros idx In. apply R0. apply (order_indices_in false). exact In. }
    set (bo := match d_border (a_dtype a) with BBar => None | _ => Some (get_byteorder native (a_dtype a)) end).
    set (d2 := match bo with Some b => newbyteorder native d (NExplicit b) | None => d end).
    assert (RB : restore_byteorder native bo (copy arr0) =
      mkArr (concat (map (raw a) (order_indices false (a_shape a)))) 0 (a_shape a) (order_strides false (d_item (a_dtype a)) (a_shape a)) d2 true).
    { unfold copy. unfold arr0 at 2 3 4 5. cbn [a_shape a_dtype]. rewrite E1. unfold restore_byteorder, d2. destruct bo; reflexivity. }
    rewrite RB.
    assert (I2 : d_item d2 = d_item (a_dtype a)) by (unfold d2; destruct bo; reflexivity).
    assert (G2 : get_byteorder native d2 = get_byteorder native (a_dtype a)).
    { unfold d2, bo. destruct (d_border (a_dtype a)) eqn:DB; [apply byteorder_back|apply byteorder_back| |apply byteorder_back].
      unfold d, get_byteorder, newbyteorder. rewrite DB. reflexivity. }
    eexists. split; [reflexivity|]. rewrite flags_shape, flags_dtype, flags_mem, flags_write. cbn [a_shape a_dtype a_mem a_writeable].
    split; [|split; [auto|split; [|split; [auto|split; [auto|split; [|split]]]]]].
    - apply flags_owner. apply filled_owner; auto.
    - intros idx B. unfold item. rewrite flags_raw, flags_dtype, filled_raw by auto. cbn [a_dtype].
      unfold Numpy.item_of. rewrite G2. reflexivity.
    - rewrite negb_involutive, andb_true_r. reflexivity.
    - intros C. apply owner_mem; auto.
    - unfold c_contiguous. destruct (negb (a_writeable a)); cbn [restore_flags a_shape a_strides a_dtype]; rewrite I2; apply contiguous_refl.
  Qed.

  (** * Views. *)
  Lemma low_corner sh : forall st, length st = length sh -> existsb (Nat.eqb 0) sh = false ->
    exists idx, in_bounds idx sh /\ dot idx st = lowest sh st.
  Proof.
    induction sh as [|n sh IH]; intros [|s st] L Z0; try discriminate; [exists []; split; [constructor|reflexivity]|].
    destruct n as [|n]; [discriminate|]. destruct (IH st) as (r & B & E); [cbn in L; lia|auto|].
    unfold lowest in *. cbn [combine map fst snd fold_right].
    destruct (Z.le_ge_cases 0 s) as [S0|S0].
    - exists (0 :: r). split; [constructor; auto; lia|]. rewrite dot_cons, E. rewrite Z.min_l by nia. lia.
    - exists (n :: r). split; [constructor; auto; lia|]. rewrite dot_cons, E. rewrite Z.min_r by nia.
      replace (S n - 1) with n by lia. lia.
  Qed.
  Lemma high_corner sh : forall st, length st = length sh -> existsb (Nat.eqb 0) sh = false ->
    exists idx, in_bounds idx sh /\ dot idx st = highest sh st.
  Proof.
    induction sh as [|n sh IH]; intros [|s st] L Z0; try discriminate; [exists []; split; [constructor|reflexivity]|].
    destruct n as [|n]; [discriminate|]. destruct (IH st) as (r & B & E); [cbn in L; lia|auto|].
    unfold highest in *. cbn [combine map fst snd fold_right].
    destruct (Z.le_ge_cases s 0) as [S0|S0].
    - exists (0 :: r). split; [constructor; auto; lia|]. rewrite dot_cons, E. rewrite Z.max_l by nia. lia.
    - exists (n :: r). split; [constructor; auto; lia|]. rewrite dot_cons, E. rewrite Z.max_r by nia.
      replace (S n - 1) with n by lia. lia.
  Qed.
  Lemma placed_inside a : well_placed a -> inside a = true.
  Proof.
    intros (W1 & W2 & W3). unfold inside. destruct (existsb (Nat.eqb 0) (a_shape a)) eqn:Z0; auto. cbn [orb].
    destruct (low_corner _ _ W2 Z0) as (i & Bi & Ei). destruct (high_corner _ _ W2 Z0) as (j & Bj & Ej).
    rewrite <- Ei, <- Ej. destruct (W3 i Bi). destruct (W3 j Bj). apply andb_true_intro. split; apply Z.leb_le; lia.
  Qed.

  (** The window of the view on a restored base with the same memory. *)
  Lemma view_restored base rb v : owner base -> well_placed v -> a_mem v = a_mem base ->
    owner rb -> a_mem rb = a_mem base ->
    (get_byteorder native (a_dtype v) = BBar \/ get_byteorder native (a_dtype base) = native) ->
    exists rv, restore_view native rb (flatten_view native base v) = Ret rv /\
      a_mem rv = a_mem rb /\ a_shape rv = a_shape v /\ a_writeable rv = a_writeable v && a_writeable rb /\
      d_item (a_dtype rv) = d_item (a_dtype v) /\ get_byteorder native (a_dtype rv) = get_byteorder native (a_dtype v) /\
      forall idx, in_bounds idx (a_shape v) -> (a_off rv + dot idx (a_strides rv) = a_off v + dot idx (a_strides v))%Z.
  Proof.
    intros O W M O' M' BO. pose proof W as (W1 & W2 & W3).
    destruct O as (_ & OFF & _ & _). destruct O' as (_ & OFF' & _ & FC').
    unfold restore_view. rewrite FC'. unfold flatten_view. cbn [wd_offset wd_shape wd_strides wd_dtype wd_swap wd_readonly].
    rewrite OFF, OFF', Z.sub_0_r, Z.add_0_l.
    replace (match (if (a_off v =? 0)%Z then None else Some (a_off v)) with Some o => o | None => 0%Z end) with (a_off v)
      by (destruct (Z.eqb_spec (a_off v) 0); auto).
    set (st := match (if c_contiguous v then None else Some (a_strides v)) with Some s => s | None => c_strides (d_item (newbyteorder native (a_dtype v) NNative)) (a_shape v) end).
    assert (ST : forall idx, in_bounds idx (a_shape v) -> dot idx st = dot idx (a_strides v)).
    { intros idx B. unfold st. destruct (c_contiguous v) eqn:C; auto. symmetry. unfold c_contiguous in C.
      eapply contiguous_dot; eauto. apply c_strides_length. }
    assert (SL : length st = length (a_shape v)).
    { unfold st. destruct (c_contiguous v); auto. apply c_strides_length. }
    set (d := newbyteorder native (newbyteorder native (a_dtype v) NNative) _).
    assert (G : get_byteorder native d = get_byteorder native (a_dtype v)).
    { unfold d. destruct (a_dtype v) as [k b]. cbn [d_border] in *. unfold get_byteorder, newbyteorder, norm in *. cbn [d_border d_item] in *.
      destruct b; auto; destruct BO as [BO|BO]; try (destruct Hn; congruence); try rewrite BO; destruct Hn; subst; try reflexivity. }
    assert (I : d_item d = d_item (a_dtype v)) by reflexivity.
    rewrite placed_inside.
    - eexists. split; [reflexivity|]. rewrite flags_mem, flags_shape, flags_dtype, flags_write. cbn [a_mem a_shape a_dtype a_writeable].
      rewrite negb_involutive. repeat split; auto. intros idx B. rewrite <- (ST idx B).
      destruct (negb (a_writeable v)); reflexivity.
    - unfold well_placed. cbn [a_mem a_shape a_dtype a_off a_strides]. rewrite I, M', <- M. repeat split; auto; rewrite ST by auto; apply W3; auto.
  Qed.
End numpy.
