(** Restoring documents without tags, with unusable references inside. *)
From Verif Require Import PyStr Tags Json JsonText B64 B85 Base Heap Registry LoadClass Unpickler SpecJson RestoreProofs.
From Coq Require Import ZifyBool ZifyN ZifyNat.
Open Scope nat_scope.
Open Scope monad_scope.

(** Trees in which unusable references may still be placeholders scheduled for replacement in T. *)
Section ptree.
  Variable n : nat.
  Variable h : heap.
  Variable T : list swap.
  Inductive ptree : json -> val -> list loc -> Prop :=
  | pt_null : ptree JNull VNone []
  | pt_bool b : ptree (JBool b) (VBool b) []
  | pt_int z : ptree (JInt z) (VInt z) []
  | pt_float t : ptree (JFloat t) (VFloat t) []
  | pt_str s : ptree (JStr s) (VStr s) []
  | pt_list l vs js ls : hget h l = Some (OList vs) -> ptrees l 0%Z js vs ls -> ptree (JList js) (VLoc l) (l :: ls)
  | pt_obj l d ob ls : hget h l = Some (ODict d) -> NoDup (map fst ob) -> pfields l ob d ls ->
      ptree (JObj ob) (VLoc l) (l :: ls)
  with ptrees : loc -> Z -> list json -> list val -> list loc -> Prop :=
  | pts_nil l i : ptrees l i [] [] []
  | pts_cons l i j v ls1 js vs ls2 : pchild l (VInt i) j v ls1 -> ptrees l (i + 1)%Z js vs ls2 ->
      ptrees l i (j :: js) (v :: vs) (ls1 ++ ls2)
  with pfields : loc -> list (pystr * json) -> list (val * val) -> list loc -> Prop :=
  | pf_nil l : pfields l [] [] []
  | pf_cons l k j v ls1 ob d ls2 : pchild l (VStr k) j v ls1 -> pfields l ob d ls2 ->
      pfields l ((k, j) :: ob) ((VStr k, v) :: d) (ls1 ++ ls2)
  with pchild : loc -> val -> json -> val -> list loc -> Prop :=
  | pc_null l k j : bad_ref n j = true -> pchild l k j VNone []
  | pc_hole l k j z : bad_ref n j = true -> In (mkSwap (VLoc l) k (VIDProxy z) SetValue) T ->
      pchild l k j (VIDProxy z) []
  | pc_val l k j v ls : bad_ref n j = false -> ptree j v ls -> pchild l k j v ls.
End ptree.
Scheme ptree_mind := Minimality for ptree Sort Prop
  with ptrees_mind := Minimality for ptrees Sort Prop
  with pfields_mind := Minimality for pfields Sort Prop
  with pchild_mind := Minimality for pchild Sort Prop.
Combined Scheme ptree_mutind from ptree_mind, ptrees_mind, pfields_mind, pchild_mind.

Lemma ptree_frame n h T h' T' : incl T T' ->
  (forall j v ls, ptree n h T j v ls -> (forall x, In x ls -> hget h' x = hget h x) -> ptree n h' T' j v ls) /\
  (forall l i js vs ls, ptrees n h T l i js vs ls -> (forall x, In x ls -> hget h' x = hget h x) -> ptrees n h' T' l i js vs ls) /\
  (forall l ob d ls, pfields n h T l ob d ls -> (forall x, In x ls -> hget h' x = hget h x) -> pfields n h' T' l ob d ls) /\
  (forall l k j v ls, pchild n h T l k j v ls -> (forall x, In x ls -> hget h' x = hget h x) -> pchild n h' T' l k j v ls).
Proof.
  intros TI. apply ptree_mutind; intros; try (constructor; auto; fail).
  - econstructor; [rewrite H2; [eassumption|left; auto]|]. apply H1. intros. apply H2. right; auto.
  - econstructor; [rewrite H3; [eassumption|left; auto]|auto|]. apply H2. intros. apply H3. right; auto.
  - constructor; [apply H0|apply H2]; intros; apply H3; apply in_or_app; auto.
  - constructor; [apply H0|apply H2]; intros; apply H3; apply in_or_app; auto.
Qed.

Lemma ptree_not_proxy n h T j v ls : ptree n h T j v ls -> is_proxy v = false.
Proof. destruct 1; reflexivity. Qed.
Lemma ptree_none n h T j ls : ptree n h T j VNone ls -> j = JNull /\ ls = [].
Proof. inversion 1; auto. Qed.
Lemma ptree_idproxy n h T j z ls : ~ ptree n h T j (VIDProxy z) ls.
Proof. inversion 1. Qed.

(** ** Running the replacements *)
Definition cell_at (h : heap) (l : loc) (k : val) : option val :=
  match hget h l with
  | Some (OList xs) => match k with VInt z => if (0 <=? z)%Z then nth_error xs (Z.to_nat z) else None | _ => None end
  | Some (ODict d) => match k with VStr s => dget (VStr s) d | _ => None end
  | _ => None
  end.
(** a replacement whose target still holds the placeholder or already None *)
Definition swap_ok (n : nat) (h : heap) (x : swap) : Prop :=
  exists l k z, x = mkSwap (VLoc l) k (VIDProxy z) SetValue /\ index_out n z = true /\
                (cell_at h l k = Some (VIDProxy z) \/ cell_at h l k = Some VNone).

Lemma py_index_out {A} (l : list A) z : index_out (length l) z = true -> py_index l z = None.
Proof.
  unfold index_out, py_index. intros H.
  destruct (0 <=? z)%Z eqn:E.
  - apply nth_error_None. lia.
  - destruct (0 <=? Z.of_nat (length l) + z)%Z eqn:E2; auto. apply nth_error_None. lia.
Qed.
Lemma index_out_mono a b z : a <= b -> index_out b z = true -> index_out a z = true.
Proof. unfold index_out. lia. Qed.

Definition cell_null (h : heap) (l : loc) (k : val) : heap :=
  match hget h l with
  | Some (OList xs) => match k with VInt z => hset h l (OList (list_set xs (Z.to_nat z) VNone)) | _ => h end
  | Some (ODict d) => hset h l (ODict (dset k VNone d))
  | _ => h
  end.

Lemma list_set_nth {A} (l : list A) i x : i < length l -> nth_error (list_set l i x) i = Some x.
Proof. revert i; induction l as [|y l IH]; intros [|i] H; simpl in *; try lia; auto. apply IH. lia. Qed.
Lemma list_set_other {A} (l : list A) i k x : i <> k -> nth_error (list_set l i x) k = nth_error l k.
Proof. revert i k; induction l as [|y l IH]; intros [|i] [|k] H; simpl in *; auto; try lia. Qed.
Lemma list_set_length {A} (l : list A) i x : length (list_set l i x) = length l.
Proof. revert i; induction l as [|y l IH]; intros [|i]; simpl; auto. Qed.
Lemma key_str a b : key_eqb (VStr a) (VStr b) = seqb a b.
Proof. reflexivity. Qed.
Lemma dget_dset_same k v d : dget k (dset k v d) = Some v.
Proof.
  induction d as [|[k' v'] d IH]; simpl; [rewrite key_eqb_refl; auto|].
  destruct (key_eqb k k') eqn:E; simpl; rewrite E; auto.
Qed.
Lemma dget_dset_other k k' v d : key_eqb k k' = false -> dget k (dset k' v d) = dget k d.
Proof.
  intros N. induction d as [|[k2 v2] d IH]; simpl.
  - rewrite N. auto.
  - destruct (key_eqb k' k2) eqn:E; simpl.
    + destruct (key_eqb k k2) eqn:E2; auto.
      exfalso. rewrite key_eqb_sym in E. rewrite (key_eqb_trans k k2 k') in N; auto. discriminate.
    + destruct (key_eqb k k2); auto.
Qed.

Lemma cell_at_lt h l k v : cell_at h l k = Some v -> l < length h.
Proof. unfold cell_at. intros H. apply nth_error_Some. unfold hget in H. destruct (nth_error h l); congruence. Qed.
Lemma run_swap_ok w s x : swap_ok (length (u_objs s)) (u_heap s) x ->
  exists l k, sw_obj x = VLoc l /\ sw_key x = k /\
    run_swap w x s = (Ret tt, us_heap (cell_null (u_heap s) l k) s).
Proof.
  intros (l & k & z & -> & O & C). exists l, k. split; [auto|]. split; [auto|].
  unfold run_swap. cbn [sw_method sw_obj sw_key sw_proxy]. unfold bind at 1, gets. cbn [proxy_get].
  rewrite (py_index_out _ _ O). unfold bind at 1, get_uobj, bind at 1, gets. unfold cell_null, cell_at in *.
  destruct (hget (u_heap s) l) as [[xs| |d| | |]|]; try (destruct C; discriminate).
  - destruct k; try (destruct C; discriminate). cbn [ret].
    assert (L : (0 <=? z0)%Z = true /\ Z.to_nat z0 < length xs).
    { destruct (0 <=? z0)%Z; [|destruct C; discriminate]. split; auto. apply nth_error_Some.
      destruct C as [C|C]; rewrite C; discriminate. }
    unfold bind, ret. cbn. replace ((0 <=? z0)%Z && (z0 <? Z.of_nat (length xs))%Z) with true by lia. reflexivity.
  - reflexivity.
Qed.
Lemma cell_null_at h l k l' k' :
  (exists v, cell_at h l k = Some v) ->
  cell_at (cell_null h l k) l' k' = cell_at h l' k' \/
  (l' = l /\ cell_at (cell_null h l k) l' k' = Some VNone).
Proof.
  intros (v & C). pose proof (cell_at_lt _ _ _ _ C) as L.
  destruct (Nat.eq_dec l' l) as [->|N].
  - unfold cell_null, cell_at in *. destruct (hget h l) as [[xs| |d| | |]|] eqn:G; try discriminate.
    + destruct k; try discriminate. rewrite hget_hset_same by auto.
      destruct k'; auto. destruct (0 <=? z0)%Z eqn:Z0; auto.
      destruct (0 <=? z)%Z eqn:Z1; [|discriminate].
      destruct (Nat.eq_dec (Z.to_nat z) (Z.to_nat z0)) as [E|E].
      * right. split; auto. rewrite <- E. apply list_set_nth. apply nth_error_Some. congruence.
      * left. apply list_set_other; auto.
    + rewrite hget_hset_same by auto. destruct k; try discriminate. destruct k'; auto.
      destruct (key_eqb (VStr s0) (VStr s)) eqn:E.
      * right. split; auto. rewrite key_str in E. apply seqb_eq in E. subst. apply dget_dset_same.
      * left. apply dget_dset_other; auto.
  - left. unfold cell_null, cell_at. 
    assert (G : forall o, hget (hset h l o) l' = hget h l') by (intros; apply hget_hset_other; auto).
    destruct (hget h l) as [[]|]; auto; try rewrite G; auto. destruct k; auto. rewrite G; auto.
Qed.
Lemma swap_ok_null n h l k x : (exists v, cell_at h l k = Some v) -> swap_ok n h x -> swap_ok n (cell_null h l k) x.
Proof.
  intros E (l' & k' & z & -> & O & C). exists l', k', z. split; auto. split; auto.
  destruct (cell_null_at h l k l' k' E) as [->|[_ ->]]; auto.
Qed.

(** children of one container after a replacement *)
Lemma ptree_swap n h l0 k0 z0 T : (cell_at h l0 k0 = Some (VIDProxy z0) \/ cell_at h l0 k0 = Some VNone) ->
  let x := mkSwap (VLoc l0) k0 (VIDProxy z0) SetValue in
  let h' := cell_null h l0 k0 in
  (forall j v ls, ptree n h (x :: T) j v ls -> ptree n h' T j v ls) /\
  (forall l i js vs ls, ptrees n h (x :: T) l i js vs ls ->
     (l <> l0 -> ptrees n h' T l i js vs ls) /\
     (forall z, l = l0 -> k0 = VInt z -> (i <= z)%Z -> (exists v, nth_error vs (Z.to_nat (z - i)) = Some v /\ (v = VNone \/ v = VIDProxy z0)) ->
        ptrees n h' T l i js (list_set vs (Z.to_nat (z - i)) VNone) ls) /\
     (forall z, l = l0 -> k0 = VInt z -> (z < i)%Z -> ptrees n h' T l i js vs ls) /\
     (forall z, l = l0 -> k0 = VInt z -> True)) /\
  (forall l ob d ls, pfields n h (x :: T) l ob d ls ->
     (l <> l0 -> pfields n h' T l ob d ls) /\
     (forall k, l = l0 -> k0 = VStr k -> NoDup (map fst ob) ->
        (exists v, dget (VStr k) d = Some v /\ (v = VNone \/ v = VIDProxy z0)) -> pfields n h' T l ob (dset (VStr k) VNone d) ls) /\
     (forall k, l = l0 -> k0 = VStr k -> ~ In k (map fst ob) -> pfields n h' T l ob d ls)) /\
  (forall l k j v ls, pchild n h (x :: T) l k j v ls ->
     (l <> l0 \/ k <> k0 -> pchild n h' T l k j v ls) /\
     (v = VNone \/ v = VIDProxy z0 -> pchild n h' T l k j VNone ls)).
Proof.
  intros C x h'.
  assert (CE : exists v, cell_at h l0 k0 = Some v) by (destruct C; eauto).
  assert (L0 : l0 < length h) by (destruct CE; eapply cell_at_lt; eauto).
  apply ptree_mutind; intros; try (constructor; fail).
  - (* list *) destruct H1 as (A1 & A2 & _).
    destruct (Nat.eq_dec l l0) as [->|N].
    + unfold cell_at in C. rewrite H in C. destruct k0; try (destruct C; discriminate).
      destruct (0 <=? z)%Z eqn:Z0; [|destruct C; discriminate].
      apply pt_list with (vs := list_set vs (Z.to_nat z) VNone).
      * unfold h', cell_null. rewrite H. apply hget_hset_same; auto.
      * replace (Z.to_nat z) with (Z.to_nat (z - 0)) by lia. apply A2; auto; [lia|].
        rewrite Z.sub_0_r. destruct C as [C|C]; eauto.
    + apply pt_list with (vs := vs); [|auto].
      unfold h', cell_null. destruct (hget h l0) as [[]|]; auto; try (rewrite hget_hset_other; auto).
      destruct k0; auto. rewrite hget_hset_other; auto.
  - (* dict *) destruct H2 as (A1 & A2 & _).
    destruct (Nat.eq_dec l l0) as [->|N].
    + unfold cell_at in C. rewrite H in C. destruct k0; try (destruct C; discriminate).
      apply pt_obj with (d := dset (VStr s) VNone d); auto.
      * unfold h', cell_null. rewrite H. apply hget_hset_same; auto.
      * apply A2; auto. destruct C as [C|C]; eauto.
    + apply pt_obj with (d := d); auto.
      unfold h', cell_null. destruct (hget h l0) as [[]|]; auto; try (rewrite hget_hset_other; auto).
      destruct k0; auto. rewrite hget_hset_other; auto.
  - (* pts_nil *) split; [constructor|]. split; [|split; [constructor|auto]].
    intros z E1 E2 E3 (v & E4 & _). destruct (Z.to_nat (z - i)); discriminate.
  - (* pts_cons *) destruct H0 as (B1 & B2). destruct H2 as (A1 & A2 & A3 & _).
    split; [|split; [|split; [|auto]]].
    + intros N. constructor; auto.
    + intros z E1 E2 E3 (v' & E4 & E5). destruct (Z.eq_dec z i) as [->|Nz].
      * rewrite Z.sub_diag in *. simpl in *. inversion E4; subst v'. constructor; auto.
        apply (A3 i); auto. lia.
      * replace (Z.to_nat (z - i)) with (S (Z.to_nat (z - (i + 1)))) in * by lia. simpl in *.
        constructor.
        -- apply B1. right. congruence.
        -- apply (A2 z); auto; [lia|]. eauto.
    + intros z E1 E2 E3. constructor; [apply B1; right; intros E; rewrite E2 in E; inversion E; lia|].
      apply (A3 z); auto. lia.
  - (* pf_nil *) split; [constructor|]. split; [|constructor].
    intros k E1 E2 _ (v & E4 & _). discriminate.
  - (* pf_cons *) destruct H0 as (B1 & B2). destruct H2 as (A1 & A2 & A3). split; [|split].
    + intros N. constructor; auto.
    + intros k' E1 E2 ND (v' & E4 & E5). simpl in ND. inversion ND; subst. cbn [dget dset] in *. rewrite key_str in *.
      destruct (seqb_spec k' k) as [->|Nk].
      * inversion E4; subst v'. constructor; auto. apply (A3 k); auto.
      * constructor; [apply B1; right; congruence|]. apply (A2 k'); eauto.
    + intros k' E1 E2 NI. simpl in NI. constructor; [apply B1; right; intros E; rewrite E2 in E; inversion E; auto|].
      apply (A3 k'); auto.
  - (* pc_null *) split; intros; apply pc_null; auto.
  - (* pc_hole *) split.
    + intros N. apply pc_hole; auto. destruct H0 as [E|E]; auto.
      exfalso. unfold x in E. inversion E; subst. destruct N; auto.
    + intros _. apply pc_null; auto.
  - (* pc_val *) split; intros E; [apply pc_val; auto|].
    destruct E as [->| ->]; [apply pc_val; auto|].
    exfalso. eapply ptree_idproxy; eauto.
Qed.

Lemma swaps_run n w j v ls : forall T s, ptree n (u_heap s) T j v ls -> length (u_objs s) = n ->
  Forall (swap_ok n (u_heap s)) T ->
  exists h', foldM (fun (_ : unit) x => run_swap w x) T tt s = (Ret tt, us_heap h' s) /\ ptree n h' [] j v ls.
Proof.
  induction T as [|x T IH]; intros s Pt Ln F.
  - exists (u_heap s). split; auto. destruct s; reflexivity.
  - inversion F as [|? ? Fx FT]; subst. pose proof Fx as (l & k & z & -> & O & C).
    destruct (run_swap_ok w s _ Fx) as (l' & k' & E1 & E2 & R). cbn in E1, E2. inversion E1; subst l' k'.
    cbn [foldM]. rewrite (bind_eq _ _ _ _ _ R).
    set (s1 := us_heap (cell_null (u_heap s) l k) s) in *.
    assert (CE : exists v, cell_at (u_heap s) l k = Some v) by (destruct C; eauto).
    destruct (IH s1) as (h' & R2 & P2).
    + unfold s1. cbn. apply (proj1 (ptree_swap _ _ l k z T C)). exact Pt.
    + reflexivity.
    + eapply Forall_impl; [|exact FT]. intros y Hy. apply swap_ok_null; auto.
    + exists h'. split; auto.
Qed.

(** ** Restoring *)
Definition ext (h h' : heap) : Prop := length h <= length h' /\ forall l, l < length h -> hget h' l = hget h l.
Lemma ext_refl h : ext h h.
Proof. split; auto. Qed.
Lemma ext_trans a b c : ext a b -> ext b c -> ext a c.
Proof. intros [L1 H1] [L2 H2]. split; [lia|]. intros l Hl. rewrite H2, H1; auto. lia. Qed.
Lemma ext_alloc h o : ext h (h ++ [o]).
Proof. split; [rewrite app_length; lia|]. intros. apply hget_app_old; auto. Qed.

Definition idx_ok (s : ust) : Prop := forall v m, In (v, m) (u_idx s) -> exists l, v = VLoc l /\ l < length (u_heap s).
Definition swl (ls : list loc) (x : swap) : Prop := exists l, sw_obj x = VLoc l /\ In l ls.
Definition within (a b : nat) (ls : list loc) : Prop := NoDup ls /\ forall l, In l ls -> a <= l < b.

Lemma idx_get_None v t : (forall m, ~ In (v, m) t) -> idx_get v t = None.
Proof.
  induction t as [|[x m] t IH]; simpl; intros H; auto.
  destruct (val_eqb_spec v x) as [->|N]; [exfalso; apply (H m); auto|]. apply IH. intros m' I. apply (H m'); auto.
Qed.

Section run.
  Variable w : world.
  Variable o : uopts.
  Variable N : nat.

  (** effect of restoring a part of the document that allocates the containers ls *)
  Record effect (s s' : ust) (ls : list loc) (sws : list swap) (cnt : nat) : Prop := {
    ef_ext : ext (u_heap s) (u_heap s');
    ef_in : within (length (u_heap s)) (length (u_heap s')) ls;
    ef_objs : length (u_objs s') = length (u_objs s) + cnt;
    ef_prox : u_prox s' = u_prox s;
    ef_cls : u_classes s' = u_classes s;
    ef_log : u_log s' = u_log s;
    ef_swaps : u_swaps s' = u_swaps s ++ sws;
    ef_idx : idx_ok s -> idx_ok s';
    ef_sw : Forall (swap_ok N (u_heap s')) sws /\ Forall (swl ls) sws
  }.

  Lemma effect_none s : effect s s [] [] 0.
  Proof.
    constructor; auto using ext_refl; try (rewrite List.app_nil_r; auto).
    split; [constructor|intros l []].
  Qed.
  Lemma swap_ok_frame h h' ls x : swap_ok N h x -> swl ls x -> (forall l, In l ls -> hget h' l = hget h l) -> swap_ok N h' x.
  Proof.
    intros (l & k & z & -> & O & C) (l' & E & I) F. cbn in E. inversion E; subst l'.
    exists l, k, z. split; auto. split; auto. unfold cell_at in *. rewrite (F l I). exact C.
  Qed.
  Lemma effect_trans s1 s2 s3 la lb sa sb ca cb :
    effect s1 s2 la sa ca -> effect s2 s3 lb sb cb -> effect s1 s3 (la ++ lb) (sa ++ sb) (ca + cb).
  Proof.
    intros A B. destruct A as [A1 [A2 A2'] A3 A4 A5 A6 A7 A8 [A9 A10]], B as [B1 [B2 B2'] B3 B4 B5 B6 B7 B8 [B9 B10]].
    pose proof (proj1 A1). pose proof (proj1 B1).
    constructor; try congruence; auto.
    - eapply ext_trans; eauto.
    - split.
      + clear -A2 B2 A2' B2'. revert A2 A2'. induction la as [|x la IH]; simpl; intros A2 A2'; auto. inversion A2; subst.
        constructor; [|apply IH; auto].
        intros I. apply in_app_iff in I. destruct I as [I|I]; auto.
        specialize (A2' x (or_introl eq_refl)). specialize (B2' x I). lia.
      + intros l I. apply in_app_iff in I. destruct I as [I|I]; [specialize (A2' l I)|specialize (B2' l I)]; lia.
    - lia.
    - rewrite B7, A7, List.app_assoc. reflexivity.
    - split; apply Forall_app; split; auto.
      + apply Forall_forall. intros x I. rewrite Forall_forall in A9, A10.
        apply (swap_ok_frame _ _ la _ (A9 x I) (A10 x I)). intros l Il. apply (proj2 B1). apply A2'; auto.
      + eapply Forall_impl; [|exact A10]. intros x (l & E & I). exists l. split; auto. apply in_or_app; auto.
      + eapply Forall_impl; [|exact B10]. intros x (l & E & I). exists l. split; auto. apply in_or_app; auto.
  Qed.

  (** children of a list, before the placeholders are scheduled *)
  Inductive kids (h : heap) (T : list swap) : list json -> list val -> list loc -> Prop :=
  | kd_nil : kids h T [] [] []
  | kd_bad j js v vs ls : bad_ref N j = true -> (v = VNone \/ exists z, v = VIDProxy z /\ index_out N z = true) ->
      kids h T js vs ls -> kids h T (j :: js) (v :: vs) ls
  | kd_val j js v vs la lb : bad_ref N j = false -> ptree N h T j v la -> kids h T js vs lb ->
      kids h T (j :: js) (v :: vs) (la ++ lb).
  Lemma kids_frame h T h' T' js vs ls : kids h T js vs ls -> incl T T' -> (forall l, In l ls -> hget h' l = hget h l) ->
    kids h' T' js vs ls.
  Proof.
    intros K I. induction K; intros F.
    - constructor.
    - constructor; auto.
    - constructor; auto; [|apply IHK; intros; apply F; apply in_or_app; auto].
      eapply (proj1 (ptree_frame N h T h' T' I)); eauto. intros. apply F. apply in_or_app; auto.
  Qed.
  Fixpoint lsw (p : val) (i : Z) (vs : list val) : list swap :=
    match vs with
    | [] => []
    | v :: r => (if is_proxy v then [mkSwap p (VInt i) v SetValue] else []) ++ lsw p (i + 1)%Z r
    end.
  Lemma list_swaps_lsw p vs : list_swaps p vs = lsw p 0%Z vs.
  Proof.
    unfold list_swaps. generalize 0%Z. induction vs as [|v vs IH]; intros i; simpl; auto. rewrite IH. reflexivity.
  Qed.
  Lemma kids_ptrees h T p js vs ls : kids h T js vs ls -> forall i T', incl T T' -> incl (lsw (VLoc p) i vs) T' ->
    ptrees N h T' p i js vs ls.
  Proof.
    intros K. induction K as [|j js v vs ls Bd Hv K IH|j js v vs la lb Bd Pt K IH]; intros i T' I1 I2; simpl in I2.
    - constructor.
    - replace ls with ([] ++ ls) by reflexivity. constructor.
      + destruct Hv as [->|(z & -> & O)]; [apply pc_null; auto|]. apply pc_hole; auto. apply I2. left; auto.
      + apply IH; auto. intros x Hx. apply I2. apply in_or_app; auto.
    - constructor.
      + apply pc_val; auto. eapply (proj1 (ptree_frame N h T h T' I1)); eauto.
      + apply IH; auto. intros x Hx. apply I2. apply in_or_app; auto.
  Qed.
  Lemma kids_swaps h p all js vs ls T : kids h T js vs ls -> forall pre i, all = pre ++ vs -> Z.of_nat (length pre) = i ->
    hget h p = Some (OList all) ->
    Forall (swap_ok N h) (lsw (VLoc p) i vs) /\ Forall (swl [p]) (lsw (VLoc p) i vs).
  Proof.
    intros K. induction K as [|j js v vs ls Bd Hv K IH|j js v vs la lb Bd Pt K IH]; intros pre i E Li G; simpl.
    - auto.
    - destruct (IH (pre ++ [v]) (i + 1)%Z) as [F1 F2]; auto.
      { rewrite <- List.app_assoc. exact E. }
      { rewrite app_length. simpl. lia. }
      destruct Hv as [->|(z & -> & O)]; simpl; auto.
      split; constructor; auto.
      + exists p, (VInt i), z. split; auto. split; auto. left. unfold cell_at. rewrite G.
        replace (0 <=? i)%Z with true by lia. rewrite <- Li, Nat2Z.id. subst all.
        rewrite nth_error_app2, Nat.sub_diag; auto.
      + exists p. split; auto. left; auto.
    - rewrite (ptree_not_proxy _ _ _ _ _ _ Pt). simpl. apply (IH (pre ++ [v]) (i + 1)%Z); auto.
      { rewrite <- List.app_assoc. exact E. }
      { rewrite app_length. simpl. lia. }
  Qed.

  Lemma untagged_false ob t : untagged ob = true -> In t dispatch_tags -> shas t ob = false.
  Proof.
    unfold untagged. rewrite forallb_forall. intros H I. specialize (H t I). destruct (shas t ob); auto; discriminate.
  Qed.
  Lemma restore_untagged k ob : untagged ob = true -> restore w o (S k) (JObj ob) = restore_dict w o (restore w o k) ob.
  Proof.
    intros U. cbn [restore restore_step].
    assert (F : forall t, In t dispatch_tags -> shas t ob = false) by (intros; apply untagged_false; auto).
    rewrite (F TUPLE), (F SET_), (F B64), (F B85), (F BYTEARRAY), (F ID), (F ITERATOR), (F OBJECT), (F TYPE_),
      (F REDUCE), (F FUNCTION), (F MODULE), (F REPR); try reflexivity; vm_compute; auto 20.
  Qed.
  Lemma numbered_ge c ob : c = (if shas (u "py/id") ob then 0
               else (if uo_v1 o then 0 else 1) + list_sum (map (fun kv : pystr * json => match kv with (_, x) => numbered (uo_v1 o) x end) ob)) -> True.
  Proof. auto. Qed.

  Lemma bad_ref_run k j s : bad_ref N j = true -> length (u_objs s) <= N ->
    numbered (uo_v1 o) j = 0 /\
    exists v, restore w o (S k) j s = (Ret v, s) /\ (v = VNone \/ exists z, v = VIDProxy z /\ index_out N z = true).
  Proof.
    intros B L. destruct j as [| | | | | |ob]; try discriminate. cbn [bad_ref] in B. unfold ref_field in B.
    destruct (forallb _ _) eqn:Ft; [|discriminate].
    destruct (sget (u "py/id") ob) as [f|] eqn:G; [|discriminate].
    assert (HI : shas ID ob = true) by (unfold shas, ID; rewrite G; auto).
    split. { cbn [numbered]. unfold ID in HI. rewrite HI. reflexivity. }
    assert (F : forall t, In t (firstn 5 dispatch_tags) -> shas t ob = false).
    { intros t I. rewrite forallb_forall in Ft. specialize (Ft t I). destruct (shas t ob); auto; discriminate. }
    cbn [restore restore_step]. rewrite (F TUPLE), (F SET_), (F B64), (F B85), (F BYTEARRAY), HI; try (vm_compute; auto 20; fail).
    unfold restore_id, bind, gets, ret. cbv zeta. unfold ID. rewrite G.
    destruct f; try (exists VNone; split; auto; fail).
    - rewrite py_index_out by (eapply index_out_mono; [|exact B]; auto). exists (VIDProxy (if b then 1 else 0)%Z). eauto.
    - rewrite py_index_out by (eapply index_out_mono; [|exact B]; auto). exists (VIDProxy z). eauto.
  Qed.

  (** container creation *)
  Lemma alloc_ref ob0 s : idx_ok s ->
    exists s1, (p <- alloc ob0 ;; umkref p) s = (Ret (VLoc (length (u_heap s))), s1) /\
    u_heap s1 = u_heap s ++ [ob0] /\ length (u_objs s1) = S (length (u_objs s)) /\ u_prox s1 = u_prox s /\
    u_classes s1 = u_classes s /\ u_log s1 = u_log s /\ u_swaps s1 = u_swaps s /\ idx_ok s1.
  Proof.
    intros IO. unfold bind, alloc, umkref. simpl.
    rewrite idx_get_None.
    - eexists. split; [reflexivity|]. simpl. rewrite app_length. simpl. repeat split; auto; try lia.
      intros v m [E|I]; simpl; rewrite app_length; simpl.
      + inversion E; subst. exists (length (u_heap s)). split; auto. lia.
      + destruct (IO v m I) as (l & -> & Hl). exists l. split; auto. lia.
    - intros m I. destruct (IO _ m I) as (l & E & Hl). inversion E. lia.
  Qed.

  Definition doc_ok (j : json) : Prop :=
    forall k s, plain_doc (uo_keys o) N j = true -> idx_ok s -> jw j <= k ->
      length (u_objs s) + numbered (uo_v1 o) j <= N ->
      exists v ls sws s', restore w o k j s = (Ret v, s') /\ ptree N (u_heap s') sws j v ls /\
        effect s s' ls sws (numbered (uo_v1 o) j).

  Lemma kids_run k : forall js s, Forall doc_ok js -> forallb (fun x => bad_ref N x || plain_doc (uo_keys o) N x) js = true ->
    idx_ok s -> list_sum (map jw js) <= k ->
    length (u_objs s) + list_sum (map (numbered (uo_v1 o)) js) <= N ->
    exists vs ls sws s', mapM (restore w o k) js s = (Ret vs, s') /\ kids (u_heap s') sws js vs ls /\
      effect s s' ls sws (list_sum (map (numbered (uo_v1 o)) js)).
  Proof.
    induction js as [|j js IH]; intros s D P IO K L.
    - exists [], [], [], s. split; [reflexivity|]. split; [constructor|apply effect_none].
    - cbn [forallb] in P. apply andb_true_iff in P. destruct P as [P1 P2].
      inversion D as [|? ? Dj Djs]; subst. simpl in K, L.
      destruct (bad_ref N j) eqn:Bd.
      + destruct k as [|k]; [pose proof (jw_pos j); lia|].
        destruct (bad_ref_run k j s Bd ltac:(lia)) as (N0 & v & R & Hv).
        destruct (IH s Djs P2 IO ltac:(lia) ltac:(lia)) as (vs & ls & sws & s' & R2 & Kd & Ef).
        exists (v :: vs), ls, sws, s'. split; [|split].
        * cbn [mapM]. rewrite (bind_eq _ _ _ _ _ R), (bind_eq _ _ _ _ _ R2). reflexivity.
        * apply kd_bad; auto.
        * simpl. rewrite N0. exact Ef.
      + simpl in P1. destruct (Dj k s P1 IO ltac:(lia) ltac:(lia)) as (v & la & sa & s1 & R & Pt & Ef1).
        assert (IO1 : idx_ok s1) by (apply (ef_idx _ _ _ _ _ Ef1); auto).
        pose proof (ef_objs _ _ _ _ _ Ef1) as Lo.
        destruct (IH s1 Djs P2 IO1 ltac:(lia) ltac:(lia)) as (vs & lb & sb & s' & R2 & Kd & Ef2).
        exists (v :: vs), (la ++ lb), (sa ++ sb), s'. split; [|split].
        * cbn [mapM]. rewrite (bind_eq _ _ _ _ _ R), (bind_eq _ _ _ _ _ R2). reflexivity.
        * apply kd_val; auto.
          -- eapply (proj1 (ptree_frame N (u_heap s1) sa (u_heap s') (sa ++ sb) ltac:(apply incl_appl, incl_refl))); eauto.
             intros l I. apply (proj2 (ef_ext _ _ _ _ _ Ef2)). apply (proj2 (ef_in _ _ _ _ _ Ef1)); auto.
          -- eapply kids_frame; eauto. apply incl_appr, incl_refl.
        * simpl. apply effect_trans with (s2 := s1); auto.
  Qed.

  (** closing a container at location p, allocated at the start, after the effect of its children *)
  Lemma effect_close s s1 s2 s' p ls sws own cnt c0 ob' :
    p = length (u_heap s) -> (exists ob0, u_heap s1 = u_heap s ++ [ob0]) ->
    length (u_objs s1) = length (u_objs s) + c0 -> u_prox s1 = u_prox s -> u_classes s1 = u_classes s ->
    u_log s1 = u_log s -> u_swaps s1 = u_swaps s -> (idx_ok s -> idx_ok s1) ->
    effect s1 s2 ls sws cnt ->
    u_heap s' = hset (u_heap s2) p ob' -> u_objs s' = u_objs s2 -> u_prox s' = u_prox s2 -> u_classes s' = u_classes s2 ->
    u_log s' = u_log s2 -> u_idx s' = u_idx s2 -> u_swaps s' = u_swaps s2 ++ own ->
    Forall (swap_ok N (u_heap s')) own -> Forall (swl [p]) own ->
    effect s s' (p :: ls) (sws ++ own) (c0 + cnt).
  Proof.
    intros -> (ob0 & H1) O1 X1 C1 G1 W1 I1 E H2 O2 X2 C2 G2 I2 W2 S1 S2.
    destruct E as [A1 [A2 A2'] A3 A4 A5 A6 A7 A8 [A9 A10]].
    assert (L1 : length (u_heap s1) = S (length (u_heap s))) by (rewrite H1, app_length; simpl; lia).
    assert (L2 : length (u_heap s') = length (u_heap s2)) by (rewrite H2; apply hset_length).
    pose proof (proj1 A1) as L3.
    constructor; try congruence.
    - split; [lia|]. intros l Hl. rewrite H2. rewrite hget_hset_other by lia.
      rewrite (proj2 A1) by lia. rewrite H1. apply hget_app_old; auto.
    - split.
      + constructor; auto. intros I. specialize (A2' _ I). lia.
      + intros l [<-|I]; [lia|]. specialize (A2' _ I). lia.
    - rewrite O2. lia.
    - rewrite W2, A7, W1, List.app_assoc. reflexivity.
    - intros H v m Im. rewrite I2 in Im. rewrite L2. apply (A8 (I1 H) v m Im).
    - split; apply Forall_app; split; auto.
      + apply Forall_forall. intros x I. rewrite Forall_forall in A9, A10.
        apply (swap_ok_frame _ _ ls _ (A9 x I) (A10 x I)). intros l Il. rewrite H2.
        apply hget_hset_other. specialize (A2' _ Il). lia.
      + eapply Forall_impl; [|exact A10]. intros x (l & E & I). exists l. split; auto. right; auto.
      + eapply Forall_impl; [|exact S2]. intros x (l & E & [<-|[]]). eexists. split; eauto. left; auto.
  Qed.

  Lemma doc_list js : Forall doc_ok js -> doc_ok (JList js).
  Proof.
    intros D k s P IO K L. destruct k as [|k]; [simpl in K; lia|].
    cbn [plain_doc] in P. cbn [jw] in K. cbn [numbered] in L.
    destruct (alloc_ref (OList []) s IO) as (s1 & R1 & H1 & O1 & X1 & C1 & G1 & W1 & I1).
    destruct (kids_run k js s1 D P I1 ltac:(lia) ltac:(lia)) as (vs & ls & sws & s2 & R2 & Kd & Ef).
    set (p := length (u_heap s)) in *.
    set (own := lsw (VLoc p) 0%Z vs).
    set (s' := us_swaps (u_swaps s2 ++ own) (us_heap (hset (u_heap s2) p (OList vs)) s2)).
    assert (Lp : p < length (u_heap s2)).
    { pose proof (proj1 (ef_ext _ _ _ _ _ Ef)). rewrite H1, app_length in H. simpl in H. lia. }
    assert (Gp : hget (u_heap s') p = Some (OList vs)) by (apply hget_hset_same; auto).
    assert (Fr : forall l, In l ls -> hget (u_heap s') l = hget (u_heap s2) l).
    { intros l I. unfold s'. simpl. apply hget_hset_other.
      apply (proj2 (ef_in _ _ _ _ _ Ef)) in I. rewrite H1, app_length in I. simpl in I. lia. }
    assert (Kd' : kids (u_heap s') sws js vs ls) by (eapply kids_frame; [exact Kd|apply incl_refl|exact Fr]).
    exists (VLoc p), (p :: ls), (sws ++ own), s'. split; [|split].
    - cbn [restore restore_step]. unfold restore_list.
      assert (E : forall (f : val -> MU val), (parent <- alloc (OList []) ;; umkref parent ;;; f parent) s = f (VLoc p) s1).
      { intros f. revert R1. unfold bind at 1 2 3. unfold alloc. unfold umkref, bind. simpl.
        destruct (idx_get _ _); intros R; inversion R; reflexivity. }
      rewrite (E (fun parent => l <- lift (jiter (JList js)) ;; children <- mapM (restore w o k) l ;; _)).
      cbn [jiter]. unfold bind at 1, lift. rewrite (bind_eq _ _ _ _ _ R2). unfold bind, set_obj, modify, ret. simpl.
      rewrite list_swaps_lsw. reflexivity.
    - apply pt_list with (vs := vs); auto. eapply kids_ptrees; [exact Kd'|apply incl_appl, incl_refl|apply incl_appr, incl_refl].
    - destruct (kids_swaps (u_heap s') p vs js vs ls sws Kd' [] 0%Z eq_refl eq_refl Gp) as [F1 F2].
      cbn [numbered]. replace (S (list_sum (map (numbered (uo_v1 o)) js))) with (1 + list_sum (map (numbered (uo_v1 o)) js)) by lia.
      eapply effect_close with (s1 := s1) (s2 := s2); eauto; try lia. reflexivity.
  Qed.

  Lemma dset_new k v (d : list (val * val)) : ~ In k (map fst d) -> (forall x, In x (map fst d) -> exists y, x = VStr y) ->
    (exists y, k = VStr y) -> dset k v d = d ++ [(k, v)].
  Proof.
    intros NI S (y & ->). induction d as [|[k' v'] d IH]; simpl; auto.
    destruct (S k' (or_introl eq_refl)) as (y' & ->). rewrite key_str.
    destruct (seqb_spec y y') as [->|Ny]; [exfalso; apply NI; left; auto|].
    rewrite IH; auto.
    - intros I. apply NI. right; auto.
    - intros x I. apply S. right; auto.
  Qed.
  Lemma pfields_snoc h T p k j v ls2 : forall ob d ls, pfields N h T p ob d ls -> pchild N h T p (VStr k) j v ls2 ->
    pfields N h T p (ob ++ [(k, j)]) (d ++ [(VStr k, v)]) (ls ++ ls2).
  Proof.
    intros ob d ls H C. induction H; simpl.
    - replace ls2 with (ls2 ++ []) by apply List.app_nil_r. constructor; auto. constructor.
    - rewrite <- List.app_assoc. constructor; auto.
  Qed.
  Lemma pfields_keys h T p ob d ls : pfields N h T p ob d ls -> map fst d = map VStr (map fst ob).
  Proof. induction 1; simpl; f_equal; auto. Qed.
  Lemma dget_snoc k v d : ~ In (VStr k) (map fst d) -> (forall x, In x (map fst d) -> exists y, x = VStr y) ->
    dget (VStr k) (d ++ [(VStr k, v)]) = Some v.
  Proof.
    intros NI S. induction d as [|[k' v'] d IH]; simpl; [rewrite key_str, seqb_refl; auto|].
    destruct (S k' (or_introl eq_refl)) as (y' & ->). rewrite key_str.
    destruct (seqb_spec k y') as [->|Ny]; [exfalso; apply NI; left; auto|]. apply IH.
    - intros I. apply NI. right; auto.
    - intros x I. apply S. right; auto.
  Qed.
  Lemma dget_app_old k x v d : ~ In (VStr x) (map VStr k) -> forall v', dget (VStr x) d = Some v' -> dget (VStr x) (d ++ v) = Some v'.
  Proof.
    intros _ v'. induction d as [|[k' v2] d IH]; simpl; [discriminate|]. destruct (key_eqb (VStr x) k'); auto.
  Qed.

  (** one entry of a dict: the loop body of restore_dict *)
  Definition entry_body (rec : json -> MU val) (p : loc) (kv : pystr * json) : MU unit :=
    if uo_keys o then v <- rec (snd kv) ;; dict_assign w p (VStr (fst kv)) v
    else v <- rec (snd kv) ;; dict_assign w p (VStr (fst kv)) v ;;; swap_if_proxy (VLoc p) (VStr (fst kv)) v SetValue.

  (** state of the dict under construction: [s1] is the state after its allocation *)
  Record building (s1 s : ust) (p : loc) (ob : jobj) (d : list (val * val)) (ls : list loc) (sws : list swap) (cnt : nat) : Prop := {
    bd_p : p < length (u_heap s1);
    bd_get : hget (u_heap s) p = Some (ODict d);
    bd_fields : pfields N (u_heap s) sws p ob d ls;
    bd_ext : length (u_heap s1) <= length (u_heap s) /\ forall l, l < length (u_heap s1) -> l <> p -> hget (u_heap s) l = hget (u_heap s1) l;
    bd_in : within (length (u_heap s1)) (length (u_heap s)) ls;
    bd_objs : length (u_objs s) = length (u_objs s1) + cnt;
    bd_prox : u_prox s = u_prox s1;
    bd_cls : u_classes s = u_classes s1;
    bd_log : u_log s = u_log s1;
    bd_swaps : u_swaps s = u_swaps s1 ++ sws;
    bd_idx : idx_ok s;
    bd_sw : Forall (swap_ok N (u_heap s)) sws /\ Forall (swl (p :: ls)) sws
  }.
  Lemma str_keys ob x : In x (map VStr ob) -> exists y : pystr, x = VStr y.
  Proof. intros H. apply in_map_iff in H. destruct H as (y & <- & _). eauto. Qed.

  Lemma swap_ok_snoc h p d k v x : hget h p = Some (ODict d) -> p < length h ->
    swap_ok N h x -> swap_ok N (hset h p (ODict (d ++ [(k, v)]))) x.
  Proof.
    intros G L (l & k' & z & -> & O & C). exists l, k', z. split; auto. split; auto.
    unfold cell_at in *. destruct (Nat.eq_dec l p) as [->|Nl].
    - rewrite hget_hset_same by auto. rewrite G in C. destruct k'; try (destruct C; discriminate).
      destruct C as [C|C]; [left|right]; eapply (dget_app_old []); eauto.
    - rewrite hget_hset_other by auto. exact C.
  Qed.

  Lemma entry_run k s1 s p ob d ls sws cnt kj j : 
    building s1 s p ob d ls sws cnt -> ~ In kj (map fst ob) -> doc_ok j -> jw j <= k ->
    (if uo_keys o then false else bad_ref N j) || plain_doc (uo_keys o) N j = true ->
    length (u_objs s) + numbered (uo_v1 o) j <= N ->
    exists d' ls' sws' s', entry_body (restore w o k) p (kj, j) s = (Ret tt, s') /\
      building s1 s' p (ob ++ [(kj, j)]) d' ls' sws' (cnt + numbered (uo_v1 o) j).
  Proof.
    intros B NI D K P L. destruct B as [B1 B2 B3 [B4 B4'] [B5 B5'] B6 B7 B8 B9 B10 B11 [B12 B13]].
    assert (KD : map fst d = map VStr (map fst ob)) by (eapply pfields_keys; eauto).
    assert (SK : forall x, In x (map fst d) -> exists y, x = VStr y) by (intros x I; rewrite KD in I; apply str_keys in I; auto).
    assert (NK : ~ In (VStr kj) (map fst d)).
    { rewrite KD. intros I. apply in_map_iff in I. destruct I as (y & E & I). inversion E; subst. auto. }
    assert (DN : forall v, dset (VStr kj) v d = d ++ [(VStr kj, v)]) by (intros v; apply dset_new; eauto).
    assert (DA : forall v s0, hget (u_heap s0) p = Some (ODict d) ->
      dict_assign w p (VStr kj) v s0 = (Ret tt, us_heap (hset (u_heap s0) p (ODict (d ++ [(VStr kj, v)]))) s0)).
    { intros v s0 G. unfold dict_assign, get_uobj, bind, gets. rewrite G. cbn. rewrite DN. reflexivity. }
    assert (Pls : forall l, In l ls -> l <> p) by (intros l I; specialize (B5' _ I); lia).
    destruct (bad_ref N j) eqn:Bd.
    - (* placeholder *)
      assert (KF : uo_keys o = false).
      { destruct (uo_keys o); auto. simpl in P. destruct j as [| | | | | |ob0]; try discriminate. exfalso.
        cbn [plain_doc] in P. rewrite !andb_true_iff in P. destruct P as [[P _] _].
        cbn [bad_ref] in Bd. unfold ref_field in Bd. destruct (forallb _ _); [|discriminate].
        pose proof (untagged_false _ (u "py/id") P ltac:(vm_compute; auto 20)) as U.
        unfold shas in U. destruct (sget (u "py/id") ob0); discriminate. }
      destruct k as [|k]; [pose proof (jw_pos j); lia|].
      destruct (bad_ref_run k j s Bd ltac:(lia)) as (N0 & v & R & Hv).
      set (own := if is_proxy v then [mkSwap (VLoc p) (VStr kj) v SetValue] else []).
      set (h' := hset (u_heap s) p (ODict (d ++ [(VStr kj, v)]))).
      set (s' := us_swaps (u_swaps s ++ own) (us_heap h' s)).
      assert (Gp : hget h' p = Some (ODict (d ++ [(VStr kj, v)]))) by (apply hget_hset_same; lia).
      exists (d ++ [(VStr kj, v)]), (ls ++ []), (sws ++ own), s'. split.
      + unfold entry_body. rewrite KF. cbn [fst snd]. rewrite (bind_eq _ _ _ _ _ R).
        rewrite (bind_eq _ _ _ _ _ (DA v s B2)). unfold swap_if_proxy, own, s'.
        destruct (is_proxy v); [reflexivity|]. rewrite List.app_nil_r. reflexivity.
      + rewrite N0, Nat.add_0_r. constructor; auto; cbn.
        * apply pfields_snoc.
          -- eapply (proj1 (proj2 (proj2 (ptree_frame N (u_heap s) sws h' (sws ++ own) ltac:(apply incl_appl, incl_refl))))); eauto.
             intros x I. apply hget_hset_other. specialize (Pls _ I). auto.
          -- destruct Hv as [->|(z & -> & O)]; [apply pc_null; auto|]. apply pc_hole; auto.
             apply in_or_app. right. left. reflexivity.
        * unfold h'. rewrite hset_length. split; auto. intros l Hl Np. rewrite hget_hset_other by auto. auto.
        * unfold h'. rewrite hset_length, List.app_nil_r. split; auto.
        * rewrite B10, List.app_assoc. reflexivity.
        * intros x m I. unfold s' in *. simpl. unfold h'. rewrite hset_length. apply (B11 x m I).
        * rewrite List.app_nil_r. split; apply Forall_app; split; auto.
          -- eapply Forall_impl; [|exact B12]. intros x. apply swap_ok_snoc; auto. lia.
          -- destruct Hv as [->|(z & -> & O)]; [constructor|]. constructor; [|constructor].
             exists p, (VStr kj), z. split; auto. split; auto. left. unfold cell_at. rewrite Gp. apply dget_snoc; auto.
          -- destruct Hv as [->|(z & -> & O)]; [constructor|]. constructor; [|constructor]. exists p. split; auto. left; auto.
    - (* ordinary value *)
      assert (P' : plain_doc (uo_keys o) N j = true) by (destruct (uo_keys o); exact P).
      destruct (D k s P' B11 K L) as (v & la & sa & s2 & R & Pt & Ef).
      destruct Ef as [[E1 E1'] [E2 E2'] E3 E4 E5 E6 E7 E8 [E9 E10]].
      assert (G2 : hget (u_heap s2) p = Some (ODict d)) by (rewrite E1' by lia; auto).
      set (h' := hset (u_heap s2) p (ODict (d ++ [(VStr kj, v)]))).
      set (s' := us_heap h' s2).
      assert (Gp : hget h' p = Some (ODict (d ++ [(VStr kj, v)]))) by (apply hget_hset_same; lia).
      exists (d ++ [(VStr kj, v)]), (ls ++ la), (sws ++ sa), s'. split.
      + unfold entry_body. cbn [fst snd]. destruct (uo_keys o); rewrite (bind_eq _ _ _ _ _ R).
        * rewrite (DA v s2 G2). reflexivity.
        * rewrite (bind_eq _ _ _ _ _ (DA v s2 G2)). unfold swap_if_proxy.
          rewrite (ptree_not_proxy _ _ _ _ _ _ Pt). reflexivity.
      + constructor; auto; cbn.
        * apply pfields_snoc.
          -- eapply (proj1 (proj2 (proj2 (ptree_frame N (u_heap s) sws h' (sws ++ sa) ltac:(apply incl_appl, incl_refl))))); eauto.
             intros x I. unfold h'. rewrite hget_hset_other by (specialize (Pls _ I); auto). apply E1'. specialize (B5' _ I). lia.
          -- apply pc_val; auto.
             eapply (proj1 (ptree_frame N (u_heap s2) sa h' (sws ++ sa) ltac:(apply incl_appr, incl_refl))); eauto.
             intros x I. unfold h'. apply hget_hset_other. specialize (E2' _ I). lia.
        * unfold h'. rewrite hset_length. split; [lia|]. intros l Hl Np. rewrite hget_hset_other by auto.
          rewrite E1' by lia. auto.
        * unfold h'. rewrite hset_length. split.
          -- clear -B5 E2 B5' E2'. revert B5 B5'. induction ls as [|x ls IH]; simpl; intros B5 B5'; auto. inversion B5; subst.
             constructor; [|apply IH; auto]. intros I. apply in_app_iff in I. destruct I as [I|I]; auto.
             specialize (B5' x (or_introl eq_refl)). specialize (E2' x I). lia.
          -- intros l I. apply in_app_iff in I. destruct I as [I|I]; [specialize (B5' l I)|specialize (E2' l I)]; lia.
        * lia.
        * congruence.
        * congruence.
        * congruence.
        * rewrite E7, B10, List.app_assoc. reflexivity.
        * intros x m I. unfold s' in *. simpl. unfold h'. rewrite hset_length. apply (E8 B11 x m I).
        * split; apply Forall_app; split.
          -- apply Forall_forall. intros x I. rewrite Forall_forall in B12, B13. apply swap_ok_snoc; auto; [lia|].
             apply (swap_ok_frame _ _ (p :: ls) _ (B12 x I) (B13 x I)). intros l [<-|Il]; apply E1'; [lia|].
             specialize (B5' l Il). lia.
          -- eapply Forall_impl; [|exact E9]. intros x. apply swap_ok_snoc; auto. lia.
          -- eapply Forall_impl; [|exact B13]. intros x (l & E & [I|I]); exists l; split; auto; [left; auto|right; apply in_or_app; auto].
          -- eapply Forall_impl; [|exact E10]. intros x (l & E & I); exists l; split; auto. right. apply in_or_app; auto.
  Qed.

  Lemma entries_run k : forall ob2 s1 s p ob d ls sws cnt,
    building s1 s p ob d ls sws cnt -> NoDup (map fst (ob ++ ob2)) -> Forall (fun kv => doc_ok (snd kv)) ob2 ->
    (forall kv, In kv ob2 -> jw (snd kv) <= k) ->
    forallb (fun kv => match kv with (_, x) => (if uo_keys o then false else bad_ref N x) || plain_doc (uo_keys o) N x end) ob2 = true ->
    length (u_objs s) + list_sum (map (fun kv => match kv with (_, x) => numbered (uo_v1 o) x end) ob2) <= N ->
    exists d' ls' sws' s', foldM (fun _ kv => entry_body (restore w o k) p kv) ob2 tt s = (Ret tt, s') /\
      building s1 s' p (ob ++ ob2) d' ls' sws' (cnt + list_sum (map (fun kv => match kv with (_, x) => numbered (uo_v1 o) x end) ob2)).
  Proof.
    induction ob2 as [|[kj j] ob2 IH]; intros s1 s p ob d ls sws cnt B ND D K P L.
    - exists d, ls, sws, s. split; [reflexivity|]. rewrite List.app_nil_r. simpl. rewrite Nat.add_0_r. exact B.
    - inversion D as [|? ? Dj D2]; subst. cbn [forallb] in P. apply andb_true_iff in P. destruct P as [P1 P2]. simpl in L.
      assert (NI : ~ In kj (map fst ob)).
      { rewrite map_app in ND. simpl in ND. apply NoDup_remove_2 in ND. intros I. apply ND. apply in_or_app; auto. }
      destruct (entry_run k s1 s p ob d ls sws cnt kj j B NI Dj (K _ (or_introl eq_refl)) P1 ltac:(lia))
        as (d1 & ls1 & sw1 & s2 & R & B').
      pose proof (bd_objs _ _ _ _ _ _ _ _ B) as O1. pose proof (bd_objs _ _ _ _ _ _ _ _ B') as O2.
      destruct (IH s1 s2 p (ob ++ [(kj, j)]) d1 ls1 sw1 _ B') as (d' & ls' & sws' & s' & R2 & B2); auto.
      + rewrite <- List.app_assoc. exact ND.
      + intros. apply K. right; auto.
      + lia.
      + exists d', ls', sws', s'. split.
        * cbn [foldM]. rewrite (bind_eq _ _ _ _ _ R). exact R2.
        * rewrite <- List.app_assoc in B2. simpl in B2. simpl. rewrite Nat.add_assoc. exact B2.
  Qed.
  Lemma distinct_NoDup l : distinct l = true -> NoDup l.
  Proof.
    induction l as [|x l IH]; simpl; intros H; constructor; apply andb_true_iff in H; destruct H as [H1 H2]; auto.
    intros I. apply smem_In in I. rewrite I in H1. discriminate.
  Qed.
  Lemma alloc_noref ob0 s : idx_ok s -> idx_ok (us_heap (u_heap s ++ [ob0]) s).
  Proof. intros IO v m I. destruct (IO v m I) as (l & -> & Hl). exists l. split; auto. simpl. rewrite app_length. lia. Qed.

  Lemma seq_then {S A B C} (m : M S A) (g : A -> M S B) (f : A -> M S C) s a s1 :
    (x <- m ;; g x ;;; ret x) s = (Ret a, s1) -> (x <- m ;; g x ;;; f x) s = f a s1.
  Proof.
    unfold bind, ret. destruct (m s) as [[x|e|] s2]; try discriminate. destruct (g x s2) as [[y|e|] s3]; try discriminate.
    intros H; inversion H; reflexivity.
  Qed.

  Lemma doc_obj ob : Forall (fun kv => doc_ok (snd kv)) ob -> doc_ok (JObj ob).
  Proof.
    intros D k s P IO K L. destruct k as [|k]; [simpl in K; lia|].
    cbn [plain_doc] in P. rewrite !andb_true_iff in P. destruct P as [[PU PD] PF].
    cbn [jw] in K. cbn [numbered] in L |- *.
    rewrite (untagged_false ob (u "py/id") PU ltac:(vm_compute; auto 20)) in L |- *.
    set (p := length (u_heap s)).
    assert (A : exists s1, (data <- alloc (ODict []) ;; (if uo_v1 o then ret tt else umkref data ;;; ret tt) ;;; ret data) s = (Ret (VLoc p), s1) /\
      u_heap s1 = u_heap s ++ [ODict []] /\ length (u_objs s1) = length (u_objs s) + (if uo_v1 o then 0 else 1) /\
      u_prox s1 = u_prox s /\ u_classes s1 = u_classes s /\ u_log s1 = u_log s /\ u_swaps s1 = u_swaps s /\ idx_ok s1).
    { destruct (uo_v1 o).
      - exists (us_heap (u_heap s ++ [ODict []]) s). split; [reflexivity|]. repeat split; auto using alloc_noref; simpl; lia.
      - destruct (alloc_ref (ODict []) s IO) as (s1 & R1 & H1 & O1 & X1 & C1 & G1 & W1 & I1).
        exists s1. split; [|repeat split; auto; lia]. revert R1. unfold bind, alloc. fold p.
        destruct (umkref (VLoc p) _) as [[a|e|] s2]; intros R; inversion R; reflexivity. }
    destruct A as (s1 & R1 & H1 & O1 & X1 & C1 & G1 & W1 & I1).
    assert (L1 : length (u_heap s1) = S p) by (rewrite H1, app_length; simpl; unfold p; lia).
    assert (B0 : building s1 s1 p [] [] [] [] 0).
    { constructor; auto; try lia.
      - rewrite H1. apply hget_app_new.
      - constructor.
      - split; [constructor|intros l []].
      - rewrite List.app_nil_r. auto. }
    destruct (entries_run k ob s1 s1 p [] [] [] [] 0 B0) as (d' & ls & sws & s' & R2 & B).
    - simpl. apply distinct_NoDup; auto.
    - exact D.
    - intros [kj j] I. apply jow_In in I. unfold jow in I. simpl in *. lia.
    - rewrite forallb_forall in PF |- *. intros [kj j] I. specialize (PF _ I). cbn in PF. apply andb_true_iff in PF.
      destruct PF as [PF _]. destruct (uo_keys o); exact PF.
    - lia.
    - simpl in B. destruct B as [B1 B2 B3 [B4 B4'] [B5 B5'] B6 B7 B8 B9 B10 B11 [B12 B13]].
      exists (VLoc p), (p :: ls), sws, s'. split; [|split].
      + rewrite (restore_untagged k ob PU). unfold restore_dict.
        assert (E : forall (f : val -> MU val), (data <- alloc (ODict []) ;; (if uo_v1 o then ret tt else umkref data ;;; ret tt) ;;; f data) s
          = f (VLoc p) s1).
        { intros f. exact (seq_then _ _ f s _ _ R1). }
        erewrite E. cbv beta iota.
        assert (L' : forall (m : MU unit), m s1 = (Ret tt, s') -> (m ;;; ret (VLoc p)) s1 = (Ret (VLoc p), s')).
        { intros m Hm. rewrite (bind_eq _ _ _ _ _ Hm). reflexivity. }
        apply L'. unfold entry_body in R2. destruct (uo_keys o) eqn:KO; [|exact R2].
        assert (NP : forall kv, In kv ob -> prefixb JSON_KEY (fst kv) = false).
        { intros [kj j] I. rewrite forallb_forall in PF. specialize (PF _ I). cbv beta iota in PF. apply andb_true_iff in PF.
          destruct PF as [_ PF]. change (negb (prefixb JSON_KEY kj) = true) in PF. cbn [fst].
          destruct (prefixb JSON_KEY kj); auto; discriminate. }
        clear - R2 NP. 
        assert (Q1 : forall ob0 s0, (forall kv, In kv ob0 -> prefixb JSON_KEY (fst kv) = false) ->
          foldM (fun (_ : unit) kv => if prefixb JSON_KEY (fst kv) then ret tt else v <- restore w o k (snd kv) ;; dict_assign w p (VStr (fst kv)) v) ob0 tt s0
          = foldM (fun (_ : unit) kv => v <- restore w o k (snd kv) ;; dict_assign w p (VStr (fst kv)) v) ob0 tt s0).
        { induction ob0 as [|kv ob0 IH]; intros s0 H; auto. cbn [foldM]. rewrite (H kv (or_introl eq_refl)).
          apply bind_ext; auto. intros [] s2 _. apply IH. intros. apply H. right; auto. }
        assert (Q2 : forall (ob0 : jobj) (s0 : ust) (f : pystr * json -> MU unit), (forall kv, In kv ob0 -> prefixb JSON_KEY (fst kv) = false) ->
          foldM (fun (_ : unit) (kv : pystr * json) => if negb (prefixb JSON_KEY (fst kv)) then ret tt else f kv) ob0 tt s0 = (Ret tt, s0)).
        { induction ob0 as [|kv ob0 IH]; intros s0 f H; auto. cbn [foldM]. rewrite (H kv (or_introl eq_refl)). simpl.
          unfold bind, ret. apply IH. intros. apply H. right; auto. }
        unfold bind at 1. rewrite (Q1 ob s1 NP), R2. apply Q2. exact NP.
      + apply pt_obj with (d := d'); auto. apply distinct_NoDup; auto.
      + replace sws with (sws ++ []) by apply List.app_nil_r. 
        rewrite L1 in *. constructor; try congruence.
        * split; [unfold p in *; lia|]. intros l Hl. rewrite B4' by (unfold p in *; lia). rewrite H1. apply hget_app_old; auto.
        * split; [constructor; auto; intros I; specialize (B5' _ I); lia|].
          intros l [<-|I]; [unfold p in *; lia|]. specialize (B5' _ I). unfold p in *. lia.
        * lia.
        * rewrite List.app_nil_r. congruence.
        * auto.
        * rewrite List.app_nil_r. auto.
  Qed.

  Lemma doc_all j : doc_ok j.
  Proof.
    induction j as [|b|z|t|s0|l IH|ob IH] using json_ind'; try (
      intros k s P IO K L; destruct k as [|k]; [simpl in K; lia|];
      do 4 eexists; split; [reflexivity|]; split; [constructor|apply effect_none]).
    - apply doc_list; auto.
    - apply doc_obj; auto.
  Qed.
End run.

Lemma ptree_tree n h :
  (forall j v ls, ptree n h [] j v ls -> tree h (nullify n j) v ls) /\
  (forall l i js vs ls, ptrees n h [] l i js vs ls -> trees h (map (fun x => if bad_ref n x then JNull else nullify n x) js) vs ls) /\
  (forall l ob d ls, pfields n h [] l ob d ls ->
     fields h (map (fun kv => match kv with (k, x) => (k, if bad_ref n x then JNull else nullify n x) end) ob) d ls) /\
  (forall l k j v ls, pchild n h [] l k j v ls -> tree h (if bad_ref n j then JNull else nullify n j) v ls).
Proof.
  apply ptree_mutind; intros; try (simpl; constructor; auto; fail).
  - simpl. econstructor; eauto.
  - simpl. econstructor; eauto.
  - rewrite H. constructor.
  - destruct H0.
  - rewrite H. auto.
Qed.

(** The whole call. *)
Lemma unpickle_plain w o k cl j s :
  plain_doc (uo_keys o) (numbered (uo_v1 o) j) j = true -> jw j <= k ->
  exists v ls s', unpickle w o k true cl j s = (Ret v, s') /\
    tree (u_heap s') (nullify (numbered (uo_v1 o) j) j) v ls /\ NoDup ls /\
    (forall l, In l ls -> length (u_heap s) <= l) /\
    length (u_heap s) <= length (u_heap s') /\
    (forall l, l < length (u_heap s) -> hget (u_heap s') l = hget (u_heap s) l) /\
    u_log s' = u_log s.
Proof.
  intros P K. unfold unpickle.
  set (N := numbered (uo_v1 o) j) in *.
  set (s0 := mkUst (u_heap s) [] [] (u_prox s) [] [] (u_log s)).
  rewrite (bind_eq _ _ s tt s0) by reflexivity.
  set (s1 := match cl with Some c => us_classes (register_classes w c (u_classes s0)) s0 | None => s0 end).
  rewrite (bind_eq _ _ s0 tt s1) by (unfold s1; destruct cl; reflexivity).
  assert (IO : idx_ok s1) by (intros v m; unfold s1; destruct cl; intros []).
  assert (H1 : u_heap s1 = u_heap s) by (unfold s1; destruct cl; reflexivity).
  assert (O1 : u_objs s1 = []) by (unfold s1; destruct cl; reflexivity).
  assert (W1 : u_swaps s1 = []) by (unfold s1; destruct cl; reflexivity).
  assert (G1 : u_log s1 = u_log s) by (unfold s1; destruct cl; reflexivity).
  destruct (doc_all w o N j k s1 P IO K ltac:(rewrite O1; simpl; lia)) as (v & ls & sws & s2 & R & Pt & Ef).
  rewrite (bind_eq _ _ _ _ _ R).
  destruct Ef as [[E1 E1'] [E2 E2'] E3 E4 E5 E6 E7 E8 [E9 E10]].
  rewrite O1 in E3. simpl in E3. rewrite W1 in E7. simpl in E7.
  destruct (swaps_run N w j v ls sws s2 Pt E3 E9) as (h' & R2 & P2).
  assert (SP : swap_proxies w s2 = (Ret tt, us_swaps [] (us_heap h' s2))).
  { unfold swap_proxies. unfold bind at 1, gets. rewrite E7. rewrite (bind_eq _ _ _ _ _ R2). reflexivity. }
  rewrite (bind_eq _ _ _ _ _ SP).
  exists v, ls, (us_swaps [] (us_heap h' s2)). split; [reflexivity|]. cbn.
  (* replacements only touch the containers of the document *)
  assert (FR : length h' = length (u_heap s2) /\ forall l, l < length (u_heap s) -> hget h' l = hget (u_heap s2) l).
  { clear R Pt P2 SP E7. revert R2 E9 E10. rewrite H1 in E2'.
    assert (G : forall T st st', foldM (fun (_ : unit) x => run_swap w x) T tt st = (Ret tt, st') -> length (u_objs st) = N ->
      Forall (swap_ok N (u_heap st)) T -> Forall (swl ls) T ->
      length (u_heap st') = length (u_heap st) /\ forall l, l < length (u_heap s) -> hget (u_heap st') l = hget (u_heap st) l).
    { induction T as [|x T IH]; intros st st' F Ln SO SL.
      - inversion F; subst. auto.
      - inversion SO as [|? ? S1 S2]; subst. inversion SL as [|? ? L1 L2]; subst.
        rewrite <- Ln in S1. destruct (run_swap_ok w st x S1) as (l0 & k0 & X1 & X2 & X3).
        cbn [foldM] in F. rewrite (bind_eq _ _ _ _ _ X3) in F.
        destruct L1 as (l1 & Y1 & Y2). rewrite X1 in Y1. inversion Y1; subst l1.
        assert (CE : exists v, cell_at (u_heap st) l0 k0 = Some v).
        { destruct S1 as (a & b & c & -> & _ & C). cbn in X1, X2. inversion X1; subst. destruct C; eauto. }
        assert (CL : length (cell_null (u_heap st) l0 k0) = length (u_heap st)).
        { unfold cell_null. destruct (hget (u_heap st) l0) as [[]|]; auto; try apply hset_length. destruct k0; auto. apply hset_length. }
        apply IH in F; cbn; auto.
        + cbn in F. destruct F as [F1 F2]. split; [congruence|]. intros l Hl. rewrite F2 by auto.
          assert (l0 <> l) by (specialize (E2' _ Y2); lia).
          unfold cell_null. destruct (hget (u_heap st) l0) as [[]|]; auto; try (apply hget_hset_other; auto).
          destruct k0; auto. apply hget_hset_other; auto.
        + eapply Forall_impl; [|exact S2]. intros y Hy. apply swap_ok_null; auto. }
    intros R2 E9 E10. apply G in R2; auto. }
  destruct FR as [FL FR]. rewrite H1 in *.
  repeat split; auto.
  - apply (proj1 (ptree_tree N h')). exact P2.
  - intros l I. apply E2' in I. lia.
  - lia.
  - intros l Hl. rewrite FR by auto. apply E1'; auto.
  - congruence.
Qed.

Lemma plain_tag_free keys n j : tag_free j = true -> (keys = true -> no_json_keys j = true) ->
  plain_doc keys n j = true /\ bad_ref n j = false /\ nullify n j = j.
Proof.
  induction j as [|b|z|t|s0|l IH|ob IH] using json_ind'; intros TF NJ; try (simpl; auto; fail).
  - cbn [tag_free no_json_keys plain_doc nullify bad_ref] in *. rewrite Forall_forall in IH. rewrite forallb_forall in TF.
    assert (A : forall x, In x l -> plain_doc keys n x = true /\ bad_ref n x = false /\ nullify n x = x).
    { intros x I. apply IH; auto. intros K. specialize (NJ K). rewrite forallb_forall in NJ. auto. }
    split; [|split; auto].
    + apply forallb_forall. intros x I. destruct (A x I) as (-> & _). apply orb_true_r.
    + f_equal. rewrite <- (map_id l) at 2. apply map_ext_in. intros x I. destruct (A x I) as (_ & -> & ->). reflexivity.
  - cbn [tag_free no_json_keys plain_doc nullify] in *. rewrite !andb_true_iff in TF. destruct TF as [[T1 T2] T3].
    rewrite Forall_forall in IH. rewrite forallb_forall in T3.
    assert (A : forall kv, In kv ob -> plain_doc keys n (snd kv) = true /\ bad_ref n (snd kv) = false /\ nullify n (snd kv) = snd kv).
    { intros [kj x] I. apply (IH _ I). { apply (T3 _ I). }
      intros K. specialize (NJ K). rewrite forallb_forall in NJ. specialize (NJ _ I). cbn in NJ.
      apply andb_true_iff in NJ. apply NJ. }
    split; [|split].
    + rewrite T1, T2. simpl. apply forallb_forall. intros [kj x] I. destruct (A _ I) as (E & _). cbn in E. rewrite E.
      rewrite orb_true_r. simpl. destruct keys; auto. specialize (NJ eq_refl). rewrite forallb_forall in NJ.
      specialize (NJ _ I). cbn in NJ. apply andb_true_iff in NJ. simpl. apply NJ.
    + cbn [bad_ref]. unfold ref_field.
      pose proof (untagged_false ob (u "py/id") T1 ltac:(vm_compute; auto 20)) as U. unfold shas in U.
      destruct (sget (u "py/id") ob); [discriminate|]. destruct (forallb _ (firstn 5 _)); reflexivity.
    + f_equal. rewrite <- (map_id ob) at 2. apply map_ext_in. intros [kj x] I. destruct (A _ I) as (_ & E1 & E2). cbn in *.
      rewrite E1, E2. reflexivity.
Qed.
Lemma unpickle_tag_free w o k cl j s :
  tag_free j = true -> (uo_keys o = true -> no_json_keys j = true) -> jw j <= k ->
  exists v ls s', unpickle w o k true cl j s = (Ret v, s') /\ tree (u_heap s') j v ls /\ NoDup ls /\
    (forall l, In l ls -> length (u_heap s) <= l) /\
    length (u_heap s) <= length (u_heap s') /\
    (forall l, l < length (u_heap s) -> hget (u_heap s') l = hget (u_heap s) l) /\ u_log s' = u_log s.
Proof.
  intros TF NJ K. destruct (plain_tag_free (uo_keys o) (numbered (uo_v1 o) j) j TF NJ) as (P & _ & E).
  destruct (unpickle_plain w o k cl j s P K) as (v & ls & s' & R). rewrite E in R. eauto.
Qed.
