(** Property theorems about arrays as plain lists: C85. *)
From Verif Require Import PyStr Json B64 Base Numpy SpecNumpy NumpyProofs NumpyLists.
From Coq Require Import Lia.
Open Scope nat_scope.

(** The part of a document at given places of nested lists. *)
Fixpoint at_ (j : json) (idx : list nat) : option json :=
  match idx with
  | [] => Some j
  | i :: r => match j with JList l => match nth_error l i with Some x => at_ x r | None => None end | _ => None end
  end.

Section proofs.
  Variables (native : border) (scalar : bytes -> json).
  Notation doc d m off sh st := (listed_json scalar (nested native d m off sh st)).

  Lemma doc_at d m : forall sh st off i idx, length st = length sh -> forall n s, i < n ->
    at_ (doc d m off (n :: sh) (s :: st)) (i :: idx) = at_ (doc d m (off + Z.of_nat i * s)%Z sh st) idx.
  Proof.
    intros sh st off i idx L n s B. cbn [nested listed_json at_]. rewrite map_map, nth_error_map.
    replace (nth_error (seq 0 n) i) with (Some i); [reflexivity|].
    symmetry. rewrite (nth_error_nth' _ 0) by (rewrite seq_length; auto). rewrite seq_nth; auto.
  Qed.
  Lemma doc_item d m : forall sh st off idx, length st = length sh -> in_bounds idx sh ->
    at_ (doc d m off sh st) idx = Some (scalar (item_of native d (slice m (off + dot idx st) (d_item d)))).
  Proof.
    induction sh as [|n sh IH]; intros [|s st] off idx L B; try discriminate; inversion B; subst.
    - cbn. rewrite Z.add_0_r. reflexivity.
    - rewrite doc_at by (cbn in *; auto). rewrite IH by (cbn in *; auto; lia). rewrite dot_cons. rewrite Z.add_assoc. reflexivity.
  Qed.
  Lemma doc_list d m : forall pre n post st off idx, length st = length (pre ++ n :: post) -> in_bounds idx pre ->
    exists l, at_ (doc d m off (pre ++ n :: post) st) idx = Some (JList l) /\ length l = n.
  Proof.
    induction pre as [|k pre IH]; intros n post [|s st] off idx L B; try discriminate; inversion B; subst.
    - cbn. eexists. split; [reflexivity|]. rewrite !map_length, seq_length. auto.
    - cbn [app]. rewrite doc_at by (cbn in *; auto). apply IH; auto.
  Qed.
End proofs.

(** C85: with unpicklable=False the document of an array is nested lists: those at depth k have the
    length of dimension k, and at the indices of an item is the document of that item. *)
Theorem C85_lists : forall native scalar generic a, well_placed a ->
  exists j, flatten_lists native scalar generic false a = Ret j /\
    (forall idx, in_bounds idx (a_shape a) -> at_ j idx = Some (scalar (item native a idx))) /\
    (forall pre n post idx, a_shape a = pre ++ n :: post -> in_bounds idx pre ->
       exists l, at_ j idx = Some (JList l) /\ length l = n).
Proof.
  intros native scalar generic a (_ & L & _). eexists. split; [reflexivity|]. split.
  - intros idx B. unfold tolist. rewrite doc_item; auto.
  - intros pre n post idx E B. unfold tolist. rewrite E in *. apply doc_list; auto.
Qed.
Print Assumptions C85_lists.

(** C85: arrays with the same items, wherever these lie in memory and in which byte order, give the
    same document. *)
Lemma docs_same native scalar d1 m1 d2 m2 : forall sh st1 st2 o1 o2, length st1 = length sh -> length st2 = length sh ->
  (forall idx, in_bounds idx sh -> item_of native d1 (slice m1 (o1 + dot idx st1) (d_item d1)) = item_of native d2 (slice m2 (o2 + dot idx st2) (d_item d2))) ->
  listed_json scalar (nested native d1 m1 o1 sh st1) = listed_json scalar (nested native d2 m2 o2 sh st2).
Proof.
  induction sh as [|n sh IH]; intros [|s1 st1] [|s2 st2] o1 o2 L1 L2 H; try discriminate.
  - cbn. specialize (H [] (Forall2_nil _)). cbn in H. rewrite !Z.add_0_r in H. rewrite H. auto.
  - cbn [nested listed_json]. f_equal. rewrite !map_map. apply map_ext_in. intros i I1. apply in_seq in I1.
    apply IH; cbn in *; try lia. intros idx B. specialize (H (i :: idx)). rewrite !dot_cons in H.
    replace (o1 + Z.of_nat i * s1 + dot idx st1)%Z with (o1 + (Z.of_nat i * s1 + dot idx st1))%Z by lia.
    replace (o2 + Z.of_nat i * s2 + dot idx st2)%Z with (o2 + (Z.of_nat i * s2 + dot idx st2))%Z by lia.
    apply H. constructor; auto. lia.
Qed.
Theorem C85_same : forall native scalar generic a b, well_placed a -> well_placed b -> same_items native a b ->
  flatten_lists native scalar generic false a = flatten_lists native scalar generic false b.
Proof.
  intros native scalar generic a b (_ & L1 & _) (_ & L2 & _) (S & I1). unfold flatten_lists. cbn [negb]. f_equal.
  unfold tolist. rewrite <- S in *. apply docs_same; auto.
Qed.
Print Assumptions C85_same.

(** C85 with the default unpicklable=True: no array can be encoded, since the handler passes over
    NumpyGenericHandler, whose flatten was meant. *)
Theorem C85_unpicklable_refuted : forall native scalar generic a,
  flatten_lists native scalar generic true a = Exc ENotImplemented.
Proof. reflexivity. Qed.
Print Assumptions C85_unpicklable_refuted.

(** ** Cases: bytes 1..6 as a 2x3 array, its transpose as a view, and an empty array. *)
Definition mem6 : bytes := map Ascii.ascii_of_nat [1; 2; 3; 4; 5; 6].
Definition num (b : bytes) : json := match b with [x] => JInt (Z.of_nat (Ascii.nat_of_ascii x)) | _ => JNull end.
Definition A23 : ndarray := mkArr mem6 0 [2; 3] [3; 1]%Z (mkDtype 1 BBar) true.
Definition A32 : ndarray := mkArr mem6 0 [3; 2] [1; 3]%Z (mkDtype 1 BBar) true.
Definition A02 : ndarray := mkArr [] 0 [0; 2] [2; 1]%Z (mkDtype 1 BBar) true.
Definition none (a : ndarray) : res json := Ret JNull.
Example C85_case :
  flatten_lists BLt num none false A23 = Ret (JList [JList [JInt 1; JInt 2; JInt 3]; JList [JInt 4; JInt 5; JInt 6]]) /\
  flatten_lists BLt num none false A32 = Ret (JList [JList [JInt 1; JInt 4]; JList [JInt 2; JInt 5]; JList [JInt 3; JInt 6]]) /\
  flatten_lists BLt num none false A02 = Ret (JList []).
Proof. vm_compute. repeat split. Qed.
Example C85_case_placed : well_placed A32.
Proof.
  split; [cbn; lia|]. split; [reflexivity|]. intros idx B. inversion B as [|i n ? ? Hi B1]; subst. inversion B1 as [|j k ? ? Hj B2]; subst.
  inversion B2; subst. cbn. lia.
Qed.
