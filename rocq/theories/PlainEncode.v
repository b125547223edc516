(** Encoding a tree of lists and dicts with string keys. *)
From Verif Require Import PyStr Tags Json JsonText Base Heap Registry Pickler PGen PStep SpecJson SpecPlain SpecDepth.
From Coq Require Import List. Import ListNotations.
Open Scope nat_scope.
Local Open Scope monad_scope.

Lemma wire_reserved s : smem s wire_names = is_reserved s.
Proof. reflexivity. Qed.
Lemma list_max_le l n : In n l -> n <= list_max l.
Proof. intros H. pose proof (proj1 (list_max_le l (list_max l)) (Nat.le_refl _)) as F. rewrite Forall_forall in F. auto. Qed.
Lemma lmax_cons a l : list_max (a :: l) = Nat.max a (list_max l).
Proof. reflexivity. Qed.
Lemma smem_In s l : smem s l = true <-> In s l.
Proof.
  unfold smem. rewrite existsb_exists. split.
  - intros (x & I & E). apply seqb_eq in E. congruence.
  - intros I. exists s. split; auto. apply seqb_eq. auto.
Qed.
Lemma sset_new key (j : json) ob : ~ In key (map fst ob) -> sset key j ob = ob ++ [(key, j)].
Proof.
  induction ob as [|[k' x] ob IH]; simpl; auto. intros N. destruct (seqb key k') eqn:E.
  - apply seqb_eq in E. subst. tauto.
  - rewrite IH; auto.
Qed.

Lemma items_nil d : items [] d = d.
Proof. unfold items. induction d as [|[kk v] d IH]; simpl; auto. unfold excluded at 1. destruct kk; simpl; congruence. Qed.
Lemma fields_str h ob d ls : fields h ob d ls -> Forall (fun kv => exists s, fst kv = VStr s) d.
Proof. induction 1; constructor; simpl; eauto. Qed.
Lemma second_pass w o rec d : Forall (fun kv => exists s, fst kv = VStr s) d -> forall acc s,
  foldM (fun dt kv => flatten_non_string_key_value_pair w o rec (fst kv) (snd kv) dt) d acc s = (Ret acc, s).
Proof.
  induction 1 as [|[kk v] d (s0 & E) F IH]; intros acc s; [reflexivity|]. cbn [foldM fst snd] in *. subst kk.
  rewrite (bind_eq _ _ _ acc s); [apply IH|]. unfold flatten_non_string_key_value_pair, bind, gets. destruct (is_picklable _ _ _ _); reflexivity.
Qed.

Section plain.
  Variables (w : world) (k : hooks) (o : popts).
  Hypothesis Or : po_readonly o = false.

  (** what the document cache may hold *)
  Definition cache_ok (s : pst) : Prop :=
    forall v j, cache_get v (p_cache s) = Some j -> prim_json v = Some j \/ exists l, v = VLoc l /\ In (VLoc l) (p_objs s).
  Definition room (s : pst) (d : nat) : Prop := forall m, po_max_depth o = Some m -> (p_depth s + Z.of_nat d < m)%Z.
  Definition went (ls : list loc) (s s' : pst) : Prop :=
    p_heap s' = p_heap s /\ p_depth s' = p_depth s /\ p_objs s' = p_objs s ++ map VLoc ls /\ cache_ok s'.
  Definition unseen (ls : list loc) (s : pst) : Prop := forall l, In l ls -> ~ In (VLoc l) (p_objs s).

  Lemma went_trans l1 l2 s1 s2 s3 : went l1 s1 s2 -> went l2 s2 s3 -> went (l1 ++ l2) s1 s3.
  Proof.
    intros (A1 & A2 & A3 & A4) (B1 & B2 & B3 & B4). split; [congruence|]. split; [congruence|]. split; auto.
    rewrite B3, A3, map_app, app_assoc. reflexivity.
  Qed.
  Lemma cache_prim s v j : cache_ok s -> prim_json v = Some j ->
    cache_ok (set_cache ((v, j) :: p_cache s) s).
  Proof.
    intros C P x jx. simpl. destruct (val_eqb_spec x v) as [->|N]; [intros [= <-]; auto|]. apply C.
  Qed.
  Lemma prim_step n v j s : prim_json v = Some j -> cache_ok s -> exists s', flatten w k o (S n) v s = (Ret j, s') /\ went [] s s'.
  Proof.
    intros P C. cbn [flatten]. unfold flatten_step.
    assert (I : flatten_impl w k o n (flatten w k o n) v s = (Ret j, s)).
    { unfold flatten_impl, bind at 1, gets. destruct v; try discriminate; cbn in P |- *; injection P as <-; reflexivity. }
    assert (W0 : went [] s s) by (split; [auto|]; split; [auto|]; split; [simpl; symmetry; apply app_nil_r|auto]).
    destruct (po_unpicklable o && po_make_refs o).
    - exists s. auto.
    - unfold bind at 1, gets. destruct (cache_get v (p_cache s)) as [j0|] eqn:G.
      + exists s. split; auto. destruct (C _ _ G) as [E|(l & -> & _)]; [|discriminate]. unfold ret. congruence.
      + rewrite (bind_eq _ _ _ _ _ I). unfold bind, modify, ret. eexists. split; [reflexivity|].
        split; [auto|]; split; [auto|]; split; [simpl; symmetry; apply app_nil_r|]. apply cache_prim; auto.
  Qed.

  (** one container, once its contents have been written *)
  Definition popped (s : pst) : pst :=
    let s' := set_depth (p_depth s - 1)%Z s in if Z.eqb (p_depth s') (-1) then p_reset_st s' else s'.
  Definition cached (v : val) (j : json) (s : pst) : pst :=
    if po_unpicklable o && po_make_refs o then s else set_cache ((v, j) :: p_cache s) s.
  Lemma level_go n l ob j s s1 : ~ In (VLoc l) (p_objs s) -> cache_ok s -> room s 1 -> hget (p_heap s) l = Some ob ->
    (forall b, ob <> OByteArray b) ->
    get_flattener w k o n (flatten w k o n) (VLoc l) (deeper s) = (Ret (Some j), s1) ->
    flatten w k o (S n) (VLoc l) s = (Ret j, cached (VLoc l) j (popped s1)).
  Proof.
    intros N C R G NB H.
    assert (I : flatten_impl w k o n (flatten w k o n) (VLoc l) s = (Ret j, popped s1)).
    { unfold flatten_impl, bind at 1, gets. cbn [prim_json]. rewrite G.
      assert (X : (push;;; j0 <- flatten_obj w k o n (flatten w k o n) (VLoc l);; pop j0) s = (Ret j, popped s1)).
      { unfold push. unfold bind at 1, modify. change (set_depth (p_depth s + 1)%Z s) with (deeper s).
        rewrite (bind_eq _ _ _ j s1); [reflexivity|]. unfold flatten_obj, max_reached. unfold bind at 1 2, gets, ret at 1.
        replace (match po_max_depth o with Some m => (p_depth (deeper s) =? m)%Z | None => false end) with false.
        2: { destruct (po_max_depth o) as [m|] eqn:Md; auto. symmetry. apply Z.eqb_neq. specialize (R m Md). cbn in R |- *. lia. }
        unfold catch. unfold in_cycle. unfold bind at 1 2, get, ret at 1. change (p_objs (deeper s)) with (p_objs s).
        rewrite (index_of_none _ _ N), andb_false_r. cbn [orb andb].
        rewrite (bind_eq _ _ _ _ _ H). reflexivity. }
      destruct ob; auto. destruct (NB b); auto. }
    cbn [flatten]. unfold flatten_step, cached. destruct (po_unpicklable o && po_make_refs o); auto.
    unfold bind at 1, gets. destruct (cache_get (VLoc l) (p_cache s)) as [j0|] eqn:G1.
    { destruct (C _ _ G1) as [E|(l1 & E & I1)]; [discriminate|]. injection E as <-. tauto. }
    rewrite (bind_eq _ _ _ _ _ I). reflexivity.
  Qed.
  Lemma level_went l j ls s s1 : (0 <= p_depth s)%Z ->
    went ls (PStep.numbered (VLoc l) (deeper s)) s1 -> went (l :: ls) s (cached (VLoc l) j (popped s1)).
  Proof.
    intros D (A1 & A2 & A3 & A4). cbn in A1, A2, A3.
    assert (P : popped s1 = set_depth (p_depth s) s1).
    { unfold popped. cbv zeta. replace (p_depth s1 - 1)%Z with (p_depth s) by lia. cbn [set_depth p_depth].
      destruct (Z.eqb_spec (p_depth s) (-1)); [lia|reflexivity]. }
    rewrite P. assert (O : p_objs s1 = p_objs s ++ map VLoc (l :: ls)) by (rewrite A3, <- app_assoc; reflexivity).
    unfold cached. destruct (po_unpicklable o && po_make_refs o); (split; [exact A1|]; split; [reflexivity|]; split; [exact O|]).
    - exact A4.
    - intros v j0. simpl. destruct (val_eqb_spec v (VLoc l)) as [->|NE].
      + intros [= <-]. right. exists l. split; auto. rewrite O, in_app_iff. simpl. auto.
      + apply A4.
  Qed.
  Lemma get_flattener_list n l xs js s s1 : ~ In (VLoc l) (p_objs s) -> hget (p_heap s) l = Some (OList xs) ->
    mapM (flatten w k o n) xs (PStep.numbered (VLoc l) (deeper s)) = (Ret js, s1) ->
    get_flattener w k o n (flatten w k o n) (VLoc l) (deeper s) = (Ret (Some (JList js)), s1).
  Proof.
    intros N G H. unfold get_flattener.
    assert (G1 : get_obj l (deeper s) = (Ret (OList xs), deeper s)) by (unfold get_obj, bind, gets; cbn [deeper set_depth p_heap]; rewrite G; reflexivity).
    rewrite (bind_eq _ _ _ _ _ G1). cbv beta iota. rewrite (bind_eq _ _ _ _ _ (mkref_fresh o (VLoc l) (deeper s) N)).
    cbv beta iota. unfold list_recurse. rewrite bind_assoc. rewrite (bind_eq _ _ _ _ _ H). reflexivity.
  Qed.
  Lemma get_flattener_dict n l d ob s s1 : ~ In (VLoc l) (p_objs s) -> hget (p_heap s) l = Some (ODict d) ->
    flatten_items w k o (flatten w k o n) d [] [] (PStep.numbered (VLoc l) (deeper s)) = (Ret ob, s1) ->
    get_flattener w k o n (flatten w k o n) (VLoc l) (deeper s) = (Ret (Some (JObj ob)), s1).
  Proof.
    intros N G H. unfold get_flattener.
    assert (G1 : get_obj l (deeper s) = (Ret (ODict d), deeper s)) by (unfold get_obj, bind, gets; cbn [deeper set_depth p_heap]; rewrite G; reflexivity).
    rewrite (bind_eq _ _ _ _ _ G1). cbv beta iota. rewrite (bind_eq _ _ _ _ _ (mkref_fresh o (VLoc l) (deeper s) N)).
    cbv beta iota. unfold flatten_plain_dict. rewrite bind_assoc.
    assert (G2 : get_obj l (PStep.numbered (VLoc l) (deeper s)) = (Ret (ODict d), PStep.numbered (VLoc l) (deeper s))) by
      (unfold get_obj, bind, gets; cbn [PStep.numbered set_objs deeper set_depth p_heap]; rewrite G; reflexivity).
    rewrite (bind_eq _ _ _ _ _ G2). cbv beta iota. rewrite (bind_eq _ _ _ _ _ H). reflexivity.
  Qed.

  Variable h : heap.
  (** a function on the heap is not met: the values of a tree are no functions *)
  Lemma tree_value j v ls s name : p_heap s = h -> tree h j v ls -> is_reserved name = false -> is_picklable w (p_heap s) (VStr name) v = true.
  Proof.
    intros E T R. unfold is_picklable. rewrite R. cbn [negb andb]. apply orb_true_iff. right. unfold is_function. rewrite E.
    inversion T; subst; auto; match goal with G : hget _ _ = _ |- _ => rewrite G end; reflexivity.
  Qed.

  Definition goes (j : json) (v : val) (ls : list loc) : Prop :=
    exists N, forall n s, N <= n -> p_heap s = h -> unseen ls s -> NoDup ls -> cache_ok s -> (0 <= p_depth s)%Z -> room s (jdepth j) ->
      plain_keys (po_keys o) j = true ->
      exists s', flatten w k o n v s = (Ret j, s') /\ went ls s s'.
  Definition goes_list (js : list json) (vs : list val) (ls : list loc) : Prop :=
    exists N, forall n s, N <= n -> p_heap s = h -> unseen ls s -> NoDup ls -> cache_ok s -> (0 <= p_depth s)%Z ->
      room s (list_max (map jdepth js)) -> forallb (plain_keys (po_keys o)) js = true ->
      exists s', mapM (flatten w k o n) vs s = (Ret js, s') /\ went ls s s'.
  Definition goes_fields (ob : jobj) (d : list (val * val)) (ls : list loc) : Prop :=
    exists N, forall n s acc, N <= n -> p_heap s = h -> unseen ls s -> NoDup ls -> cache_ok s -> (0 <= p_depth s)%Z ->
      room s (list_max (map (fun kv => jdepth (snd kv)) ob)) ->
      forallb (fun kv => match kv with (k, x) =>
                 negb (smem k wire_names) && (negb (po_keys o) || negb (prefixb (u "json://") k)) && plain_keys (po_keys o) x end) ob = true ->
      NoDup (map fst acc ++ map fst ob) ->
      exists s', (if po_keys o then foldM (fun dt kv => flatten_string_key_value_pair w k o (flatten w k o n) (fst kv) (snd kv) dt) d acc s
                  else foldM (fun dt kv => flatten_key_value_pair w k o (flatten w k o n) (fst kv) (snd kv) dt) d acc s) = (Ret (acc ++ ob), s')
        /\ went ls s s'.

  Lemma unseen_app1 l1 l2 s : unseen (l1 ++ l2) s -> unseen l1 s.
  Proof. intros U l I. apply U. apply in_app_iff. auto. Qed.
  Lemma unseen_app2 l1 l2 s s' : NoDup (l1 ++ l2) -> unseen (l1 ++ l2) s -> went l1 s s' -> unseen l2 s'.
  Proof.
    intros ND U (_ & _ & E & _) l I. rewrite E, in_app_iff. intros [X|X].
    - apply (U l); auto. apply in_app_iff. auto.
    - apply in_map_iff in X. destruct X as (y & [= ->] & Iy). revert ND Iy I. clear. induction l1 as [|a l1 IH]; simpl; [tauto|].
      intros ND [->|J] I; inversion ND; subst; auto. apply H1. apply in_app_iff. auto.
  Qed.
  Lemma room_le s d d' : d <= d' -> room s d' -> room s d.
  Proof. intros L R m E. specialize (R m E). lia. Qed.
  Lemma room_eq s s' d : p_depth s' = p_depth s -> room s d -> room s' d.
  Proof. intros E R m M. rewrite E. auto. Qed.
  Lemma NoDup_app1 {A} (l1 l2 : list A) : NoDup (l1 ++ l2) -> NoDup l1.
  Proof. induction l1; simpl; intros N; [constructor|]. inversion N; subst. constructor; auto. intros I. apply H1. apply in_app_iff. auto. Qed.
  Lemma NoDup_app2 {A} (l1 l2 : list A) : NoDup (l1 ++ l2) -> NoDup l2.
  Proof. induction l1; simpl; auto. intros N. inversion N; auto. Qed.

  Lemma distinct_NoDup l : distinct l = true -> NoDup l.
  Proof.
    induction l as [|x l IH]; simpl; [constructor|]. intros D. apply andb_true_iff in D as [A B]. constructor; auto.
    intros I. apply smem_In in I. rewrite I in A. discriminate.
  Qed.

  Lemma plain_all : (forall j v ls, tree h j v ls -> goes j v ls) /\ (forall js vs ls, trees h js vs ls -> goes_list js vs ls) /\
    (forall ob d ls, fields h ob d ls -> goes_fields ob d ls).
  Proof.
    assert (PR : forall j v, prim_json v = Some j -> goes j v []).
    { intros j v P. exists 1. intros [|n] s L E U ND C D R K; [lia|]. apply prim_step; auto. }
    assert (BOTH : (forall j v ls, tree h j v ls -> tree h j v ls /\ goes j v ls) /\ (forall js vs ls, trees h js vs ls -> goes_list js vs ls) /\
      (forall ob d ls, fields h ob d ls -> goes_fields ob d ls)).
    { apply (tree_mutind h (fun j v ls => tree h j v ls /\ goes j v ls) goes_list goes_fields).
      - split; [constructor|]. apply PR; reflexivity.
      - intros b. split; [constructor|]. apply PR; reflexivity.
      - intros z. split; [constructor|]. apply PR; reflexivity.
      - intros t. split; [constructor|]. apply PR; reflexivity.
      - intros t. split; [constructor|]. apply PR; reflexivity.
      - intros l vs js ls G T (N & IH). split; [econstructor; eauto|]. exists (S N). intros [|n] s L E U ND C D R K; [lia|].
        assert (NI : ~ In (VLoc l) (p_objs s)) by (apply U; left; auto).
        assert (G' : hget (p_heap s) l = Some (OList vs)) by (rewrite E; auto). inversion ND as [|? ? NL ND']; subst.
        destruct (IH n (PStep.numbered (VLoc l) (deeper s))) as (s1 & H1 & W1); auto.
        + lia.
        + intros x I. cbn. rewrite in_app_iff. intros [X|[[= ->]|[]]]; [|tauto]. revert X. apply U. right. auto.
        + intros v j0 Hc. destruct (C v j0 Hc) as [?|(l0 & -> & I)]; auto. right. exists l0. split; auto. cbn. apply in_app_iff. auto.
        + cbn. lia.
        + intros m M. specialize (R m M). cbn [jdepth] in R. cbn [PStep.numbered deeper set_objs set_depth p_depth]. lia.
        + exists (cached (VLoc l) (JList js) (popped s1)). split.
          * eapply level_go; eauto; [eapply room_le; [|exact R]; cbn [jdepth]; lia|intros b; discriminate|].
            eapply get_flattener_list; eauto.
          * apply level_went; auto.
      - intros l d ob ls G T (N & IH). split; [econstructor; eauto|]. exists (S N). intros [|n] s L E U ND C D R K; [lia|].
        assert (NI : ~ In (VLoc l) (p_objs s)) by (apply U; left; auto).
        assert (G' : hget (p_heap s) l = Some (ODict d)) by (rewrite E; auto). inversion ND as [|? ? NL ND']; subst.
        cbn [plain_keys] in K. apply andb_true_iff in K as [KD KF].
        destruct (IH n (PStep.numbered (VLoc l) (deeper s)) []) as (s1 & H1 & W1); auto.
        + lia.
        + intros x I. cbn. rewrite in_app_iff. intros [X|[[= ->]|[]]]; [|tauto]. revert X. apply U. right. auto.
        + intros v j0 Hc. destruct (C v j0 Hc) as [?|(l0 & -> & I)]; auto. right. exists l0. split; auto. cbn. apply in_app_iff. auto.
        + cbn. lia.
        + intros m M. specialize (R m M). cbn [jdepth] in R. cbn [PStep.numbered deeper set_objs set_depth p_depth]. lia.
        + apply distinct_NoDup. auto.
        + exists (cached (VLoc l) (JObj ob) (popped s1)). split.
          * eapply level_go; eauto; [eapply room_le; [|exact R]; cbn [jdepth]; lia|intros b; discriminate|].
            eapply get_flattener_dict; eauto. unfold flatten_items. rewrite items_nil. destruct (po_keys o) eqn:Ok; [|exact H1].
            rewrite (bind_eq _ _ _ _ _ H1). apply second_pass. eapply fields_str; exact T.
          * apply level_went; auto.
      - exists 0. intros n s L E U ND C D R K. exists s. split; [reflexivity|]. split; [auto|]; split; [auto|]; split; [simpl; symmetry; apply app_nil_r|auto].
      - intros j v ls1 js vs ls2 _ (T1 & N1 & IH1) T2 (N2 & IH2). exists (Nat.max N1 N2). intros n s L E U ND C D R K.
        cbn [forallb] in K. apply andb_true_iff in K as [K1 K2]. cbn [map] in R.
        destruct (IH1 n s) as (s1 & H1 & W1); auto; [lia|eapply unseen_app1; eauto|eapply NoDup_app1; eauto|eapply room_le; [|exact R]; rewrite lmax_cons; lia|].
        pose proof W1 as (A1 & A2 & A3 & A4).
        destruct (IH2 n s1) as (s2 & H2 & W2); auto; [lia|congruence|eapply unseen_app2; eauto|eapply NoDup_app2; eauto|lia| |].
        { eapply room_eq; [exact A2|]. eapply room_le; [|exact R]. rewrite lmax_cons. lia. }
        exists s2. split; [|eapply went_trans; eauto]. cbn [mapM]. rewrite (bind_eq _ _ _ _ _ H1), (bind_eq _ _ _ _ _ H2). reflexivity.
      - exists 0. intros n s acc L E U ND C D R K ND2. exists s. rewrite app_nil_r. split; [destruct (po_keys o); reflexivity|].
        split; [auto|]; split; [auto|]; split; [simpl; symmetry; apply app_nil_r|auto].
      - intros key j v ls1 ob d ls2 _ (T1 & N1 & IH1) T2 (N2 & IH2). exists (Nat.max N1 N2). intros n s acc L E U ND C D R K ND2.
        cbn [forallb] in K. apply andb_true_iff in K as [K1 K2]. apply andb_true_iff in K1 as [K1 K3]. apply andb_true_iff in K1 as [K0 K1].
        rewrite wire_reserved in K0. apply negb_true_iff in K0. cbn [map fst snd] in R, ND2.
        destruct (IH1 n s) as (s1 & H1 & W1); auto; [lia|eapply unseen_app1; eauto|eapply NoDup_app1; eauto|eapply room_le; [|exact R]; rewrite lmax_cons; lia|].
        pose proof W1 as (A1 & A2 & A3 & A4).
        assert (NK : ~ In key (map fst acc)).
        { intros I. revert ND2 I. clear. induction (map fst acc) as [|a l IH]; simpl; [tauto|]. intros ND2 [->|I]; inversion ND2; subst; auto.
          apply H1. apply in_app_iff. right. left. auto. }
        destruct (IH2 n s1 (acc ++ [(key, j)])) as (s2 & H2 & W2); auto; [lia|congruence|eapply unseen_app2; eauto|eapply NoDup_app2; eauto|lia| | |].
        { eapply room_eq; [exact A2|]. eapply room_le; [|exact R]. rewrite lmax_cons. lia. }
        { rewrite map_app, <- app_assoc. exact ND2. }
        exists s2. split; [|eapply went_trans; eauto]. rewrite <- app_assoc in H2. cbn [app] in H2.
        assert (PK : is_picklable w (p_heap s) (VStr key) v = true) by (eapply tree_value; eauto).
        destruct (po_keys o) eqn:Ok; cbn [foldM fst snd].
        + rewrite (bind_eq _ _ _ (acc ++ [(key, j)]) s1); [exact H2|]. unfold flatten_string_key_value_pair. unfold bind at 1, gets.
          rewrite Ok, K0, PK. cbn [negb orb] in K1. apply negb_true_iff in K1. change (u "json://") with JSON_KEY in K1. rewrite K1. cbn [orb andb negb].
          rewrite (bind_eq _ _ _ _ _ H1). rewrite sset_new by auto. reflexivity.
        + rewrite (bind_eq _ _ _ (acc ++ [(key, j)]) s1); [exact H2|]. unfold flatten_key_value_pair. unfold bind at 1, gets.
          rewrite PK. cbn [negb]. unfold readonly_skip. rewrite Or. rewrite (bind_eq _ _ s false s) by reflexivity. rewrite (bind_eq _ _ s key s) by reflexivity.
          rewrite (bind_eq _ _ _ _ _ H1). rewrite sset_new by auto. reflexivity. }
    destruct BOTH as (B1 & B2 & B3). split; [|split]; auto. intros j v ls T. apply B1. auto.
  Qed.
End plain.

Lemma sort_plain w o h j v ls s : p_heap s = h -> tree h j v ls -> sort_attrs w o v s = (Ret tt, s).
Proof.
  intros E T. unfold sort_attrs. unfold bind at 1, gets. rewrite E.
  inversion T; subst; auto; match goal with G : hget _ _ = _ |- _ => rewrite G end; reflexivity.
Qed.
Lemma popped_heap s : p_heap (popped s) = p_heap s.
Proof. unfold popped. cbv zeta. destruct (_ =? _)%Z; reflexivity. Qed.
Lemma cached_heap o v j s : p_heap (cached o v j s) = p_heap s.
Proof. unfold cached. destruct (_ && _); reflexivity. Qed.

Section top.
  Variables (w : world) (k : hooks) (o : popts) (h : heap).
  Hypothesis Or : po_readonly o = false.
  Lemma plain_pickle j v ls : tree h j v ls -> NoDup ls -> plain_keys (po_keys o) j = true ->
    (forall m, po_max_depth o = Some m -> (Z.of_nat (jdepth j) <= m)%Z) ->
    exists N, forall n s, N <= n -> p_heap s = h -> exists s', pickle w k o n true v s = (Ret j, s') /\ p_heap s' = h.
  Proof.
    intros T ND K MD.
    assert (F : exists N, forall n s, N <= n -> p_heap s = h -> exists s', flatten w k o n v (p_reset_st s) = (Ret j, s') /\ p_heap s' = h).
    { destruct (plain_all w k o Or h) as (_ & PL & PF).
      assert (PR : prim_json v = Some j -> exists N, forall n s, N <= n -> p_heap s = h -> exists s', flatten w k o n v (p_reset_st s) = (Ret j, s') /\ p_heap s' = h).
      { intros P. exists 1. intros [|n] s L E; [lia|]. destruct (prim_step w k o n v j (p_reset_st s)) as (s' & H1 & (A & _)); auto.
        - intros x jx. discriminate.
        - exists s'. split; auto. rewrite A. auto. }
      inversion T as [|b|z|t|t|l vs js ls' G TS|l d ob ls' G TF]; subst; try (apply PR; reflexivity).
      - destruct (PL _ _ _ TS) as (N & IH). exists (S N). intros [|n] s L E; [lia|]. inversion ND as [|? ? NL ND']; subst.
        destruct (IH n (PStep.numbered (VLoc l) (deeper (p_reset_st s)))) as (s1 & H1 & (A & _)); auto.
        + lia.
        + intros x I [[= <-]|[]]. tauto.
        + intros x jx. discriminate.
        + cbn. lia.
        + intros m M. specialize (MD m M). cbn [jdepth] in MD. cbn [PStep.numbered deeper set_objs set_depth p_depth p_reset_st]. lia.
        + eexists. split.
          * eapply level_go; [intros []|intros x jx; discriminate| |exact G|intros b; discriminate|].
            { intros m M. specialize (MD m M). cbn [jdepth] in MD. cbn [p_reset_st p_depth]. lia. }
            eapply get_flattener_list; eauto.
          * rewrite cached_heap, popped_heap, A. reflexivity.
      - destruct (PF _ _ _ TF) as (N & IH). exists (S N). intros [|n] s L E; [lia|]. inversion ND as [|? ? NL ND']; subst.
        cbn [plain_keys] in K. apply andb_true_iff in K as [KD KF].
        destruct (IH n (PStep.numbered (VLoc l) (deeper (p_reset_st s))) []) as (s1 & H1 & (A & _)); auto.
        + lia.
        + intros x I [[= <-]|[]]. tauto.
        + intros x jx. discriminate.
        + cbn. lia.
        + intros m M. specialize (MD m M). cbn [jdepth] in MD. cbn [PStep.numbered deeper set_objs set_depth p_depth p_reset_st]. lia.
        + apply distinct_NoDup. auto.
        + eexists. split.
          * eapply level_go; [intros []|intros x jx; discriminate| |exact G|intros b; discriminate|].
            { intros m M. specialize (MD m M). cbn [jdepth] in MD. cbn [p_reset_st p_depth]. lia. }
            eapply get_flattener_dict; eauto. unfold flatten_items. rewrite items_nil. destruct (po_keys o) eqn:Ok; [|exact H1].
            rewrite (bind_eq _ _ _ _ _ H1). apply second_pass. eapply fields_str; exact TF.
          * rewrite cached_heap, popped_heap, A. reflexivity. }
    destruct F as (N & F). exists N. intros n s L E. destruct (F n s L E) as (s' & H1 & H2). exists s'. split; auto.
    unfold pickle, pflatten. unfold p_reset. unfold bind at 1, modify.
    assert (S1 : (if po_sort o then sort_attrs w o v else ret tt) (p_reset_st s) = (Ret tt, p_reset_st s)).
    { destruct (po_sort o); [|reflexivity]. eapply sort_plain; [|exact T]. exact E. }
    rewrite (bind_eq _ _ _ _ _ S1). exact H1.
  Qed.
  Lemma plain_top j v ls : tree h j v ls -> NoDup ls -> plain_keys (po_keys o) j = true ->
    (forall m, po_max_depth o = Some m -> (Z.of_nat (jdepth j) <= m)%Z) ->
    exists N, forall n s, N <= n -> p_heap s = h -> exists s', encode w k o n v s = (Ret (dumps j), s') /\ p_heap s' = h.
  Proof.
    intros T ND K MD. destruct (plain_pickle j v ls T ND K MD) as (N & H). exists N. intros n s L E. destruct (H n s L E) as (s' & H1 & H2).
    exists s'. split; auto. unfold encode. rewrite (bind_eq _ _ _ _ _ H1). reflexivity.
  Qed.
End top.
