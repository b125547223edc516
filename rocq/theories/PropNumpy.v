(** C52 (numpy): arrays and views of arrays. *)
From Verif Require Import PyStr B64 Base Numpy SpecNumpy NumpyProofs.
From Coq Require Import List ZArith NArith Ascii Lia Bool.
Import ListNotations.
Open Scope nat_scope.

(** An array stored by value comes back with the same shape and items, for every threshold,
    with and without compression, in C and in Fortran order; the byte order is kept in
    binary form and becomes the machine's in text form.  0-d arrays in text form excepted. *)
Theorem C52_by_value :
  forall native threshold compression a,
  native = BLt \/ native = BGt -> lossless compression -> owner a -> (a_shape a <> [] \/ ~ small threshold a) ->
  exists b, restore_value native compression (flatten_value native threshold compression a) = Ret b /\
    same_items native a b /\ owner b /\ a_writeable b = a_writeable a /\
    d_item (a_dtype b) = d_item (a_dtype a) /\
    (~ small threshold a -> get_byteorder native (a_dtype b) = get_byteorder native (a_dtype a)).
Proof.
  intros native threshold compression a Hn Hc O NZ. destruct (small_or_big threshold a) as [SM|BG].
  - destruct NZ as [NZ|NZ]; [|tauto].
    destruct (text_value native threshold compression a O SM NZ) as (b & R & O' & SH & IT & D & W & _).
    exists b. split; [exact R|]. split; [split; [auto|intros; symmetry; auto]|]. split; [exact O'|]. split; [exact W|].
    split; [rewrite D; reflexivity|tauto].
  - destruct (binary_value native threshold compression Hc Hn a O BG) as (b & R & O' & SH & IT & D & G & W & _).
    exists b. split; [exact R|]. split; [split; [auto|intros; symmetry; auto]|]. auto.
Qed.
Print Assumptions C52_by_value.

(** Nested lists are written exactly for arrays of at most the threshold's size. *)
Theorem C52_storage_form :
  forall native threshold compression a,
  (exists v, vd_values (flatten_value native threshold compression a) = VNest v) <-> small threshold a.
Proof.
  intros native threshold compression a.
  assert (E : vd_values (flatten_value native threshold compression a) = vd_values (flatten_binary native threshold compression a))
    by (unfold flatten_value; destruct (c_contiguous a); reflexivity).
  rewrite E. unfold flatten_binary, flatten_text, small. destruct threshold as [t|]; [|cbn; split; eauto].
  destruct (Nat.leb_spec (asize a) t); cbn; split; eauto; try lia. intros (v & D). discriminate.
Qed.
Print Assumptions C52_storage_form.

(** A view stored by reference to its base is, after decoding, the same window on the decoded
    base: whatever is later written to the memory they share, it shows the items the original
    view would show.  The base must be in the machine's byte order, and in C order if it is
    large enough to be stored in binary form. *)
Theorem C52_views :
  forall native threshold compression base v,
  native = BLt \/ native = BGt -> lossless compression -> owner base -> well_placed v -> a_mem v = a_mem base ->
  get_byteorder native (a_dtype base) = native \/
    (get_byteorder native (a_dtype base) = BBar /\ get_byteorder native (a_dtype v) = BBar) ->
  c_contiguous base = true \/ small threshold base ->
  exists rb rv,
    restore_value native compression (flatten_value native threshold compression base) = Ret rb /\
    restore_view native rb (flatten_view native base v) = Ret rv /\
    a_mem rb = a_mem base /\ a_mem rv = a_mem rb /\ same_items native v rv /\
    (forall m, same_items native (with_mem m v) (with_mem m rv)) /\
    a_writeable rv = a_writeable v && a_writeable rb.
Proof.
  intros native threshold compression base v Hn Hc O W M BO CC.
  assert (GB : get_byteorder native (newbyteorder native (a_dtype base) NNative) = get_byteorder native (a_dtype base)).
  { unfold get_byteorder, newbyteorder in *. destruct (a_dtype base) as [k []]; cbn [d_border d_item] in *; auto; destruct BO as [BO|[BO _]]; congruence. }
  assert (RB : exists rb, restore_value native compression (flatten_value native threshold compression base) = Ret rb /\ owner rb /\ a_mem rb = a_mem base).
  { destruct (small_or_big threshold base) as [SM|BG].
    - destruct (a_shape base) as [|n sh] eqn:SH.
      + destruct (text_scalar native threshold compression base O SM SH) as (b & R & O' & _ & _ & _ & _ & MM). eauto.
      + destruct (text_value native threshold compression base O SM) as (b & R & O' & _ & _ & _ & _ & MM); [congruence|]. eauto.
    - destruct (binary_value native threshold compression Hc Hn base O BG) as (b & R & O' & _ & _ & _ & _ & _ & MM & _).
      destruct CC as [CC|CC]; [eauto|]. exfalso. unfold big, small in *. destruct threshold; auto. lia. }
  destruct RB as (rb & R & O' & MM).
  destruct (view_restored native Hn base rb v O W M O' MM) as (rv & R2 & M2 & SH & WR & IT & G & AD).
  { destruct BO as [BO|[_ BO]]; auto. }
  exists rb, rv. split; auto. split; auto. split; auto. split; auto.
  assert (SI : forall m, same_items native (with_mem m v) (with_mem m rv)).
  { intros m. unfold same_items, with_mem, item, raw. cbn [a_shape a_dtype a_mem a_off a_strides]. split; auto. intros idx B.
    rewrite IT, AD by auto. unfold item_of. rewrite G. reflexivity. }
  split; [|auto]. specialize (SI (a_mem v)). unfold same_items, with_mem, item, raw in *. cbn [a_shape a_dtype a_mem a_off a_strides] in SI.
  destruct SI as [SI1 SI2]. split; auto. intros idx B. rewrite M2, MM, <- M. auto.
Qed.
Print Assumptions C52_views.

(** * What does not come back. *)
Lemma corners sh : forall st idx, length st = length sh -> in_bounds idx sh -> (lowest sh st <= dot idx st <= highest sh st)%Z.
Proof.
  unfold lowest, highest. induction sh as [|n sh IH]; intros [|s st] idx L B; try discriminate; inversion B; subst.
  - cbn. lia.
  - specialize (IH st l ltac:(cbn in L; lia) H3). rewrite dot_cons. cbn [combine map fst snd fold_right].
    assert (X : (0 <= Z.of_nat x <= Z.of_nat (n - 1))%Z) by lia.
    destruct (Z.le_ge_cases 0 s) as [S0|S0].
    + rewrite Z.min_l, Z.max_r by nia. nia.
    + rewrite Z.min_r, Z.max_l by nia. nia.
Qed.
Lemma inside_placed a : 1 <= d_item (a_dtype a) -> length (a_strides a) = length (a_shape a) -> inside a = true -> well_placed a.
Proof.
  intros H1 H2 I. split; auto. split; auto. intros idx B. unfold inside in I. rewrite (no_zero _ _ B) in I. cbn [orb] in I.
  apply andb_prop in I. destruct I as [I1 I2]. apply Z.leb_le in I1, I2. pose proof (corners _ _ _ H2 B). lia.
Qed.
Definition byte_list (l : list N) : bytes := map ascii_of_N l.
Definition upto (n : nat) : list N := map N.of_nat (seq 0 n).

(** np.array(5): the decoded array has one axis. *)
Definition A_zero := mkArr (byte_list [5; 0]%N) 0 [] [] (mkDtype 2 BEq) true.
Theorem C52_zero_d_refuted :
  exists a b, owner a /\ restore_value BLt None (flatten_value BLt (Some 16) None a) = Ret b /\ a_shape a = [] /\ a_shape b = [1].
Proof.
  exists A_zero. eexists. split; [|split; [reflexivity|split; reflexivity]].
  split; [apply inside_placed; [cbn; lia|reflexivity|reflexivity]|split; [reflexivity|split; reflexivity]].
Qed.
Print Assumptions C52_zero_d_refuted.

(** Two rows of nine bytes in Fortran order, and the first row as a view of it: the base is
    large enough for binary form and comes back in C order, the view keeps its strides. *)
Definition A_fortran := mkArr (byte_list (upto 18)) 0 [2; 9] [1; 2]%Z (mkDtype 1 BBar) true.
Definition V_fortran := mkArr (byte_list (upto 18)) 0 [9] [2]%Z (mkDtype 1 BBar) true.
Definition B_fortran :=
  mkArr (byte_list (map N.of_nat (map (fun i => if i <? 9 then 2 * i else 2 * (i - 9) + 1) (seq 0 18)))) 0 [2; 9] [9; 1]%Z (mkDtype 1 BBar) true.
Theorem C52_fortran_view_refuted :
  exists base v rb rv, owner base /\ well_placed v /\ a_mem v = a_mem base /\
    restore_value BLt None (flatten_value BLt (Some 16) None base) = Ret rb /\
    restore_view BLt rb (flatten_view BLt base v) = Ret rv /\
    same_items BLt base rb /\ ~ same_items BLt v rv.
Proof.
  assert (O : owner A_fortran) by (split; [apply inside_placed; [cbn; lia|reflexivity|reflexivity]|split; [reflexivity|split; reflexivity]]).
  assert (NC : lossless None) by (intros c d E; discriminate).
  destruct (C52_by_value BLt (Some 16) None A_fortran (or_introl eq_refl) NC O) as (b & R & SI & _); [left; discriminate|].
  assert (E : b = B_fortran).
  { assert (E : Ret b = Ret B_fortran) by (rewrite <- R; vm_compute; reflexivity). now injection E. }
  subst b. exists A_fortran, V_fortran, B_fortran. eexists.
  split; [exact O|]. split; [apply inside_placed; [cbn; lia|reflexivity|reflexivity]|]. split; [reflexivity|]. 
  split; [exact R|]. split; [vm_compute; reflexivity|]. split; [exact SI|].
  intros [_ H]. specialize (H [1] ltac:(constructor; [cbn; lia|constructor])). vm_compute in H. discriminate.
Qed.
Print Assumptions C52_fortran_view_refuted.

(** Seventeen big-endian items on a little-endian machine, and a view of the first two: the
    view comes back as little-endian. *)
Definition A_swapped := mkArr (byte_list (upto 34)) 0 [17] [2]%Z (mkDtype 2 BGt) true.
Definition V_swapped := mkArr (byte_list (upto 34)) 0 [2] [2]%Z (mkDtype 2 BGt) true.
Theorem C52_byteorder_refuted :
  exists base v rb rv, owner base /\ c_contiguous base = true /\ well_placed v /\ a_mem v = a_mem base /\
    restore_value BLt None (flatten_value BLt (Some 16) None base) = Ret rb /\
    restore_view BLt rb (flatten_view BLt base v) = Ret rv /\
    same_items BLt base rb /\ ~ same_items BLt v rv.
Proof.
  assert (O : owner A_swapped) by (split; [apply inside_placed; [cbn; lia|reflexivity|reflexivity]|split; [reflexivity|split; reflexivity]]).
  assert (NC : lossless None) by (intros c d E; discriminate).
  destruct (C52_by_value BLt (Some 16) None A_swapped (or_introl eq_refl) NC O) as (b & R & SI & _); [left; discriminate|].
  assert (E : b = A_swapped).
  { assert (E : Ret b = Ret A_swapped) by (rewrite <- R; vm_compute; reflexivity). now injection E. }
  subst b. exists A_swapped, V_swapped, A_swapped. eexists.
  split; [exact O|]. split; [reflexivity|]. split; [apply inside_placed; [cbn; lia|reflexivity|reflexivity]|]. split; [reflexivity|]. 
  split; [exact R|]. split; [vm_compute; reflexivity|]. split; [exact SI|].
  intros [_ H]. specialize (H [0] ltac:(constructor; [cbn; lia|constructor])). vm_compute in H. discriminate.
Qed.
Print Assumptions C52_byteorder_refuted.

(** Four single bytes, and a view of them as two native 16-bit items: the view is marked as
    swapped because the base has no byte order. *)
Definition A_octets := mkArr (byte_list (upto 4)) 0 [4] [1]%Z (mkDtype 1 BBar) true.
Definition V_octets := mkArr (byte_list (upto 4)) 0 [2] [2]%Z (mkDtype 2 BEq) true.
Theorem C52_single_bytes_refuted :
  exists base v rb rv, owner base /\ c_contiguous base = true /\ well_placed v /\ a_mem v = a_mem base /\
    get_byteorder BLt (a_dtype v) = BLt /\
    restore_value BLt None (flatten_value BLt (Some 16) None base) = Ret rb /\
    restore_view BLt rb (flatten_view BLt base v) = Ret rv /\
    same_items BLt base rb /\ ~ same_items BLt v rv.
Proof.
  assert (O : owner A_octets) by (split; [apply inside_placed; [cbn; lia|reflexivity|reflexivity]|split; [reflexivity|split; reflexivity]]).
  assert (NC : lossless None) by (intros c d E; discriminate).
  destruct (C52_by_value BLt (Some 16) None A_octets (or_introl eq_refl) NC O) as (b & R & SI & _); [left; discriminate|].
  assert (E : b = A_octets).
  { assert (E : Ret b = Ret A_octets) by (rewrite <- R; vm_compute; reflexivity). now injection E. }
  subst b. exists A_octets, V_octets, A_octets. eexists.
  split; [exact O|]. split; [reflexivity|]. split; [apply inside_placed; [cbn; lia|reflexivity|reflexivity]|]. split; [reflexivity|]. split; [reflexivity|]. 
  split; [exact R|]. split; [vm_compute; reflexivity|]. split; [exact SI|].
  intros [_ H]. specialize (H [0] ltac:(constructor; [cbn; lia|constructor])). vm_compute in H. discriminate.
Qed.
Print Assumptions C52_single_bytes_refuted.

(** A case: three rows of six native 16-bit items (binary form), and the middle four columns
    backwards as a view. *)
Definition A_case := mkArr (byte_list (upto 36)) 0 [3; 6] [12; 2]%Z (mkDtype 2 BEq) true.
Definition V_case := mkArr (byte_list (upto 36)) 8 [3; 4] [12; -2]%Z (mkDtype 2 BEq) false.
Example C52_case :
  owner A_case /\ well_placed V_case /\ a_mem V_case = a_mem A_case /\ c_contiguous A_case = true /\
  ~ small (Some 16) A_case /\ get_byteorder BLt (a_dtype A_case) = BLt.
Proof.
  split; [split; [apply inside_placed; [cbn; lia|reflexivity|reflexivity]|split; [reflexivity|split; reflexivity]]|].
  split; [apply inside_placed; [cbn; lia|reflexivity|vm_compute; reflexivity]|]. repeat split. cbn. lia.
Qed.
