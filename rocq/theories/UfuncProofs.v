(** Encoding and decoding lists of ufuncs. *)
From Verif Require Import PyStr Tags Json JsonText JsonTextProofs Base Heap Registry LoadClass LoadClassProofs Pickler Unpickler PGen PStep SpecHoles PlainEncode RTBase RTStep RTPure RTCont RTKinds RTInst RTObj PlainProofs LackProofs HolesProofs Ufunc SpecUfunc.
From Coq Require Import List Lia. Import ListNotations.
Open Scope nat_scope.
Local Open Scope monad_scope.

Lemma Forall2_at {A B} (R : A -> B -> Prop) xs ys i x : Forall2 R xs ys -> nth_error xs i = Some x -> exists y, nth_error ys i = Some y /\ R x y.
Proof.
  intros F. revert i. induction F as [|a b xs ys H F IH]; intros [|i] E; cbn in E |- *; try discriminate; [|eauto].
  injection E as <-. eauto.
Qed.

Lemma nowhere_none w module qualname : nowhere w module qualname ->
  loadclass w [] (JStr (translate_module_name module ++ DOT :: qualname)) = Ret VNone.
Proof.
  intros (N & A). cbn [loadclass]. unfold loadclass_str. cbn [from_classes sget].
  set (names := split_on DOT _) in *.
  assert (X : forall n, n <= length names - 1 -> load_splits w names n = Ret None).
  { induction n as [|n IH]; intros L; [reflexivity|]. cbn [load_splits]. destruct (try_absent w names (S n)) as (e & -> & ->); [apply A; lia|apply IH; lia]. }
  unfold from_classes. cbn [sget]. rewrite X by lia. destruct (seqb_spec (translate_module_name module ++ DOT :: qualname) (u "builtins.NoneType")); [contradiction|reflexivity].
Qed.

Section ufuncs.
  Variables (w : world) (k : hooks) (o : popts) (h : heap) (fi : loc -> finfo) (c hd : nat).
  Hypothesis Ou : po_unpicklable o = true.
  Hypothesis Om : po_make_refs o = true.
  Hypothesis Od : po_max_depth o = None.
  Hypothesis Ui : ufunc_installed w fi c hd.
  Notation cn := (importable_name (w_cls w c)).
  Definition udoc (l : loc) : json := JObj [(OBJECT, JStr cn); (IMPORTABLE_NAME, JStr (importable_fname (fi l)))].
  Notation ufunc_at := (ufunc_at h c).

  Lemma ufunc_go tab l : ~ In l tab -> ufunc_at l -> goes w k o h tab (VLoc l) (udoc l) (tab ++ [l]).
  Proof.
    intros NI (i & G & Ci). destruct Ui as (L0 & Hf & _). exists 1. intros [|n] s L St; [lia|]. pose proof St as (Hh & D & Hob).
    pose proof (not_numbered h _ _ _ St NI) as NN. rewrite <- Hh in G.
    assert (B : flatten_obj_instance w k o n (flatten w k o n) l (PStep.numbered (VLoc l) (deeper s)) = (Ret (udoc l), PStep.numbered (VLoc l) (deeper s))).
    { unfold flatten_obj_instance. rewrite (bind_eq _ _ _ _ _ (get_obj_eq l (OInst i) (PStep.numbered (VLoc l) (deeper s)) G)). cbv beta iota zeta.
      rewrite Ci, L0. unfold call_handler. rewrite Ou, Hf. reflexivity. }
    pose proof (by_instance w k o Ou n l i s _ _ NN G B) as B1. cbv beta iota in B1.
    rewrite (lev w k o Ou Om Od n (VLoc l) s _ _ ltac:(split; [reflexivity|]; split; [discriminate|]; intros l0 b0 [= <-]; rewrite G; discriminate) B1).
    exists (popped (PStep.numbered (VLoc l) (deeper s))). split; [reflexivity|].
    pose proof (starts_numbered o h tab l s St) as (S1 & S2 & S3). apply popped_ends; auto.
  Qed.
  Lemma again_go tab l i : NoDup tab -> nth_error tab i = Some l -> ufunc_at l -> goes w k o h tab (VLoc l) (JObj [(ID, JInt (Z.of_nat i))]) tab.
  Proof.
    intros ND E (i0 & G & _). exists 1. intros [|n] s L St; [lia|]. pose proof St as (A & B & C). rewrite <- A in G.
    assert (X : index_of (VLoc l) (p_objs (deeper s)) = Some i) by (cbn; rewrite C; apply index_of_map; auto).
    assert (MK : mkref o (VLoc l) (deeper s) = (Ret false, deeper s)).
    { unfold mkref, bind, log_ref. rewrite X, Ou, Om. reflexivity. }
    assert (GR : getref (VLoc l) (deeper s) = (Ret (JObj [(ID, JInt (Z.of_nat i))]), deeper s)).
    { unfold getref, bind, gets, ret. rewrite X. reflexivity. }
    exists (popped (deeper s)). split; [|apply popped_ends; auto].
    rewrite (lev w k o Ou Om Od n (VLoc l) s (deeper s) (Ret (Some (JObj [(ID, JInt (Z.of_nat i))])))); [reflexivity| |].
    - split; [reflexivity|]. split; [discriminate|]. intros l0 b0 [= <-]. rewrite G. discriminate.
    - unfold get_flattener. rewrite (bind_eq _ _ _ _ _ (get_obj_eq l _ (deeper s) G)). cbv beta iota.
      unfold ref_obj_instance. rewrite Ou, bind_assoc, (bind_eq _ _ _ _ _ MK). cbv beta iota. rewrite (bind_eq _ _ _ _ _ GR). reflexivity.
  Qed.

  (** The documents of the elements. *)
  Inductive udocs : list loc -> list loc -> list json -> list loc -> Prop :=
  | ud_nil tab : udocs tab [] [] tab
  | ud_new tab l ls js tab' : ~ In l tab -> udocs (tab ++ [l]) ls js tab' -> udocs tab (l :: ls) (udoc l :: js) tab'
  | ud_again tab l i ls js tab' : nth_error tab i = Some l -> udocs tab ls js tab' -> udocs tab (l :: ls) (JObj [(ID, JInt (Z.of_nat i))] :: js) tab'.
  Lemma udocs_ex ls : forall tab, exists js tab', udocs tab ls js tab'.
  Proof.
    induction ls as [|l ls IH]; intros tab; [exists [], tab; constructor|].
    destruct (in_dec Nat.eq_dec l tab) as [I|N].
    - destruct (In_nth_error _ _ I) as (i & E). destruct (IH tab) as (js & tab' & U). do 2 eexists. eapply ud_again; eauto.
    - destruct (IH (tab ++ [l])) as (js & tab' & U). do 2 eexists. eapply ud_new; eauto.
  Qed.
  Lemma udocs_go tab ls js tab' : udocs tab ls js tab' -> NoDup tab -> Forall ufunc_at ls -> goes_list w k o h tab (map VLoc ls) js tab'.
  Proof.
    induction 1 as [tab|tab l ls js tab' N U IH|tab l i ls js tab' E U IH]; intros ND F; [apply nil_golist| |]; inversion F as [|? ? A Fs]; subst; cbn [map].
    - eapply cons_golist; [apply ufunc_go; auto|]. apply IH; auto. apply NoDup_app_snoc; auto.
    - eapply cons_golist; [apply again_go; eauto|]. apply IH; auto.
  Qed.
  Lemma ulist_go l0 ls js tab' : hget h l0 = Some (OList (map VLoc ls)) -> Forall ufunc_at ls -> udocs [l0] ls js tab' ->
    goes w k o h [] (VLoc l0) (JList js) tab'.
  Proof.
    intros G F U. destruct (udocs_go _ _ _ _ U ltac:(repeat constructor; intros []) F) as (N & Go). exists (S N). intros [|n] s L St; [lia|].
    pose proof St as (A & B & C). destruct (Go n (PStep.numbered (VLoc l0) (deeper s))) as (s1 & H1 & E1); [lia|apply (starts_numbered o h [] l0 s St)|cbn; lia|].
    rewrite <- A in G. pose proof (not_numbered h [] l0 _ St ltac:(intros [])) as NN. exists (popped s1). split; [|eapply ends_numbered; eauto].
    rewrite (lev w k o Ou Om Od n (VLoc l0) s s1 (Ret (Some (JList js)))); [reflexivity| |].
    - split; [reflexivity|]. split; [discriminate|]. intros l1 b0 [= <-]. rewrite G. discriminate.
    - eapply get_flattener_list; eauto.
  Qed.

  (** Decoding *)
  Variables (uo : uopts) (cl : list (pystr * val)).
  Hypothesis Lc : loadclass w cl (JStr cn) = Ret (VType c).
  (** the state in which the numbered objects are [os] *)
  Record Ust (t : ust) (os : list val) : Prop := {
    us_o : u_objs t = os;
    us_c : u_classes t = cl;
    us_i : forall n q, ~ In (VProxy n, q) (u_idx t);
    us_s : u_swaps t = []
  }.
  Lemma found_load l v : comes_back w (fi l) l v -> loadclass w [] (JStr (importable_fname (fi l))) = Ret v.
  Proof.
    intros [I|N].
    - unfold importable_fname. cbn [loadclass]. apply importable_resolves; auto.
    - apply nowhere_none; auto.
  Qed.
  Lemma udoc_back m t os l v : Ust t os -> comes_back w (fi l) l v ->
    exists t', restore w uo (S m) (udoc l) t = (Ret v, t') /\ Ust t' (os ++ [v]) /\ u_heap t' = u_heap t.
  Proof.
    intros [Uo Uc Uidx Usw] CB. destruct Ui as (L0 & _ & Hr).
    destruct (loadclass_run w cl t _ _ Uc Lc) as (lg & EL).
    set (pp := length (u_prox t)). set (t1 := us_prox (u_prox t ++ [None]) (us_log lg t)). set (t2 := uref (VProxy pp) t1).
    assert (Hi : forall n, idx_get (VProxy n) (u_idx t) = None) by (intros n; apply idx_get_None; intros q; apply Uidx).
    set (cx := match uo_ctx uo with Some x => if w_hctx_rest w hd then Some x else None | None => None end).
    set (t3 := us_log (u_log t2 ++ [EvHandler hd cx]) t2).
    set (t3' := us_prox (list_set (u_prox t3) pp (Some v)) t3).
    set (t4 := us_objs (list_set (u_objs t3') (length (u_objs t)) v)
                 (us_idx (idx_del (VProxy pp) ((v, length (u_objs t)) :: idx_del v (u_idx t3'))) t3')).
    exists t4. split; [|split; [|reflexivity]].
    - change (restore w uo (S m) (udoc l) t) with (restore_step w uo (restore w uo m) (udoc l) t). unfold udoc. rewrite dispatch_object.
      2: reflexivity.
      2:{ intros a [<-|[<-|[]]]; [left; vm_compute; auto|]. right. right. right. vm_compute. auto. }
      unfold restore_object. change (jfield OBJECT _) with (JStr cn). rewrite (bind_eq _ _ _ _ _ EL). rewrite L0.
      rewrite (bind_eq _ _ (us_log lg t) (VProxy pp) t1) by reflexivity.
      rewrite (bind_eq _ _ t1 (VProxy pp) t2).
      2:{ unfold umkref. cbn [t1 u_idx us_prox us_log]. rewrite (Hi pp). reflexivity. }
      fold cx. rewrite (bind_eq _ _ t2 tt t3) by reflexivity.
      rewrite (bind_eq _ _ t3 v t3).
      2:{ rewrite Hr. unfold ufunc_rest. change (sget IMPORTABLE_NAME _) with (Some (JStr (importable_fname (fi l)))). cbv iota. rewrite (found_load l v CB). reflexivity. }
      rewrite (bind_eq _ _ t3 tt t3') by reflexivity.
      rewrite (bind_eq _ _ t3' tt t4); [reflexivity|].
      unfold swapref. assert (X : idx_get (VProxy pp) (u_idx t3') = Some (length (u_objs t))).
      { cbn [t3' t3 t2 uref u_idx us_prox us_log us_heap us_objs us_idx idx_get]. destruct (val_eqb_spec (VProxy pp) (VProxy pp)); [reflexivity|congruence]. }
      rewrite X. reflexivity.
    - constructor; auto.
      + change (u_objs t4) with (list_set (u_objs t ++ [VProxy pp]) (length (u_objs t)) v). rewrite (list_set_app (u_objs t) []). rewrite Uo. reflexivity.
      + intros n q I. change (u_idx t4) with (idx_del (VProxy pp) ((v, length (u_objs t)) :: idx_del v ((VProxy pp, length (u_objs t)) :: u_idx t))) in I.
        apply idx_del_In in I as ([I|I] & Nv); [injection I as -> _; inversion CB|].
        apply idx_del_In in I as ([I|I] & _); [injection I as <- _; contradiction|]. eapply Uidx; eauto.
  Qed.
  Lemma again_back m t os i v : Ust t os -> nth_error os i = Some v -> restore w uo (S m) (JObj [(ID, JInt (Z.of_nat i))]) t = (Ret v, t).
  Proof.
    intros [Uo _ _ _] E. rewrite <- Uo in E. change (restore_id [(ID, JInt (Z.of_nat i))] t = (Ret v, t)).
    unfold restore_id, bind, gets. change (sget ID [(ID, JInt (Z.of_nat i))]) with (Some (JInt (Z.of_nat i))).
    unfold py_index. destruct (Z.leb_spec 0 (Z.of_nat i)); [|lia]. rewrite Nat2Z.id, E. reflexivity.
  Qed.
  Lemma udocs_back m b l0 tab ls js tab' : udocs tab ls js tab' -> forall t r vs bs, tab = l0 :: r -> ~ In l0 ls ->
    Forall2 (fun l v => comes_back w (fi l) l v) ls bs -> Ust t (VLoc b :: vs) -> Forall2 (fun l v => comes_back w (fi l) l v) r vs ->
    exists t', mapM (restore w uo (S m)) js t = (Ret bs, t') /\ u_heap t' = u_heap t /\ u_swaps t' = [].
  Proof.
    induction 1 as [tab|tab l ls js tab' N U IH|tab l i ls js tab' E U IH]; intros t r vs bs Et NI F St Fr; inversion F as [|? v ? bs2 CB F2]; subst.
    - exists t. split; [reflexivity|]. split; auto. apply St.
    - destruct (udoc_back m t (VLoc b :: vs) l v St CB) as (t1 & R1 & S1 & H1).
      destruct (IH t1 (r ++ [l]) (vs ++ [v]) bs2) as (t2 & R2 & H2 & W2); auto.
      + intros I. apply NI. right; auto.
      + apply Forall2_app; auto.
      + exists t2. split; [|split; auto; congruence]. cbn [mapM]. rewrite (bind_eq _ _ _ _ _ R1), (bind_eq _ _ _ _ _ R2). reflexivity.
    - destruct i as [|i]; cbn in E; [injection E as ->; destruct NI; left; reflexivity|].
      assert (X : nth_error vs i = Some v).
      { destruct (Forall2_at _ _ _ _ _ Fr E) as (v1 & E1 & C1). apply found_load in C1. apply found_load in CB. congruence. }
      destruct (IH t r vs bs2) as (t2 & R2 & H2 & W2); auto.
      + intros I. apply NI. right; auto.
      + exists t2. split; [|auto]. cbn [mapM]. rewrite (bind_eq _ _ _ _ _ (again_back m t (VLoc b :: vs) (S i) v St X)), (bind_eq _ _ _ _ _ R2). reflexivity.
  Qed.
End ufuncs.
