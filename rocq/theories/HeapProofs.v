(** What a run of the encoder leaves of the heap. *)
From Verif Require Import PyStr Tags Json JsonText B64 B85 Base Heap Registry Pickler PGen PDoc PStep SpecRun.
Open Scope nat_scope.
Local Open Scope monad_scope.

Section ev.
  Variables (w : world) (k : hooks) (o : popts).
  Hypothesis Or : po_readonly o = false.
  Hypothesis Os : po_sort o = false.
  Hypothesis HK : handlers_keep w.
  Notation TV := (fun (_ : heap) (_ : val) => True).

  Lemma no_reset_doc sc : no_reset sc -> script_doc (fun _ => True) (fun _ => True) sc.
  Proof. induction sc as [[j|]|e|r v kk IH]; simpl; auto. intros (-> & H). split; auto. Qed.
  Lemma doc_any h0 : doc_closed w k o h0 TV (fun _ => True) (fun _ => True) (fun _ => True) (fun _ _ => True).
  Proof. constructor; auto. intros. apply no_reset_doc, HK. Qed.

  Notation CkL Lk := (mkEvp (fun _ => True) Lk (fun _ => True) (fun _ => True)).
  Lemma flatten_ev Lk n v s : locked_ok w (CkL Lk) s -> (0 <= p_depth s)%Z ->
    match flatten w k o n v s with
    | (Ret _, s') | (Exc _, s') => EvW w (CkL Lk) s s'
    | (OOF, _) => True
    end.
  Proof.
    intros L D. pose proof (d_all w k o (p_heap s) TV (fun _ => True) (fun _ => True) (fun _ => True) (fun _ _ => True)
      Or Os (val_closed_any w k o _) (doc_any _) n Lk v s) as X.
    assert (C : Forall (fun kv : val * json => True) (p_cache s)) by (apply Forall_forall; auto).
    specialize (X L (hev_refl _ _) D C I). unfold twp in X. destruct (flatten w k o n v s) as [[j|e|] s']; auto.
    - apply X.
    - apply X.
  Qed.
  Lemma flatten_hev n v s j s' : (0 <= p_depth s)%Z -> flatten w k o n v s = (Ret j, s') ->
    hev (w_cls w) (p_heap s) (p_heap s') /\ (0 <= p_depth s')%Z.
  Proof.
    intros D E. pose proof (flatten_ev (fun _ => False) n v s ltac:(intros ? []) D) as X. rewrite E in X.
    destruct X as (H & _ & D' & _). split; auto. lia.
  Qed.
  (** the whole call *)
  Lemma encode_hev n v s r s' : encode w k o n v s = (r, s') -> r <> OOF -> hev (w_cls w) (p_heap s) (p_heap s').
  Proof.
    intros E N. pose proof (pickle_all w k o (p_heap s) TV (fun _ => True) (fun _ => True) (fun _ => True) (fun _ _ => True)
      Or Os (val_closed_any w k o _) (doc_any _) n v s eq_refl Logic.I) as X.
    unfold encode, bind, ret in E. destruct (pickle w k o n true v s) as [[j|e|] s1].
    - inversion E; subst. apply X.
    - inversion E; subst. apply X.
    - inversion E; subst. destruct N; auto.
  Qed.

  (** Dicts. *)
  Lemma key_string_coerces key ks : key_string k o key = Ret ks <-> coerces (po_numeric o) k key ks.
  Proof.
    clear. assert (O : spelled_by_repr (po_numeric o) key -> (match k_repr k key with Exc e => if is_Exception e then k_str k key else Exc e | r => r end = Ret ks
                                        <-> coerces (po_numeric o) k key ks)).
    { intros Sp. split.
      - destruct (k_repr k key) as [x|e|] eqn:R; [|destruct (is_Exception e) eqn:X|]; intros H; try discriminate H.
        + inversion H; subst. apply co_repr; auto.
        + eapply co_str_of; eauto.
      - intros C. inversion C; subst; try contradiction.
        + cbn [spelled_by_repr] in Sp. congruence.
        + rewrite H0. reflexivity.
        + rewrite H0, H1. auto. }
    destruct key; try (apply O; exact Logic.I);
      try (cbn [key_string]; destruct (po_numeric o) eqn:NK; [clear O; split; intros H; inversion H; subst; try (apply co_num_float; reflexivity); try reflexivity; cbn [spelled_by_repr] in *; discriminate|rewrite <- NK in *; apply O; exact NK]);
      clear O; try (cbn [key_string]; destruct (po_numeric o) eqn:NK, b; (split; [intros H; inversion H; subst; constructor; reflexivity|intros H; inversion H; subst; try reflexivity; try discriminate; contradiction]));
      (split; [intros H; inversion H; subst|intros H; inversion H; subst]);
      try reflexivity; try contradiction; try (apply co_none); try (apply co_int); try (apply co_str).
  Qed.

  Lemma anonymous_ev h h' v : hev (w_cls w) h h' -> (forall l, v = VLoc l -> hget h l <> None) -> anonymous w h' v = anonymous w h v.
  Proof.
    intros H N. destruct v; auto. cbn [anonymous]. destruct (hget h l) as [ob|] eqn:G; [|destruct (N l); auto].
    destruct H as [_ H]. destruct (H l ob G) as [->|(i & p & -> & _ & _ & ->)]; auto.
  Qed.
  Lemma is_picklable_kept h key v : is_picklable w h key v = entry_kept w h (key, v).
  Proof.
    unfold is_picklable, entry_kept, anonymous, is_module_function, is_function. cbn [fst snd].
    assert (X : forall b, (match v with VFun f => f_modfun (w_fun w f) | _ => false end
        || negb match v with
                | VFun _ => true
                | VLoc l => match hget h l with Some (OInst i) => c_isfun (w_cls w (i_cls i)) | _ => false end
                | _ => false
                end) && b = negb match v with
                | VFun f => negb (f_modfun (w_fun w f))
                | VLoc l => match hget h l with Some (OInst i) => c_isfun (w_cls w (i_cls i)) | _ => false end
                | _ => false
                end && b).
    { intros b. destruct v; cbn [negb orb]; auto. rewrite negb_involutive, orb_false_r. auto. }
    destruct key; try (rewrite <- (andb_true_r (_ || _)), X, andb_true_r; reflexivity).
  Qed.

  Lemma sset_new n j (ob : jobj) : ~ In n (map fst ob) -> sset n j ob = ob ++ [(n, j)].
  Proof.
    induction ob as [|[a b] ob IH]; intros N; cbn [sset]; auto. destruct (seqb n a) eqn:S.
    - apply seqb_eq in S. subst. destruct N. left. auto.
    - cbn [app]. rewrite IH; auto. intros I. apply N. right. auto.
  Qed.
  Lemma items_run h0 n (d : list (val * val)) : po_keys o = false ->
    forall s ob ob' s' ks, hev (w_cls w) h0 (p_heap s) -> (0 <= p_depth s)%Z ->
    (forall kv l, In kv d -> snd kv = VLoc l -> hget h0 l <> None) ->
    Forall2 (coerces (po_numeric o) k) (map fst (kept_entries w h0 d)) ks -> NoDup (map fst ob ++ ks) ->
    foldM (fun dt kv => flatten_key_value_pair w k o (flatten w k o n) (fst kv) (snd kv) dt) d ob s = (Ret ob', s') ->
    exists js, runs (flatten w k o n) (map snd (kept_entries w h0 d)) js s s' /\ ob' = ob ++ combine ks js.
  Proof.
    intros Ok. induction d as [|[key v] d IH]; intros s ob ob' s' ks Hv D Al F ND H; cbn [foldM] in H.
    - inversion F; subst. inversion H; subst. exists []. split; [constructor|]. rewrite app_nil_r. auto.
    - apply bind_ret_inv in H. destruct H as (ob1 & s1 & H1 & H2). cbn [fst snd] in H1.
      unfold flatten_key_value_pair in H1. unfold bind at 1, gets in H1. rewrite is_picklable_kept in H1.
      assert (EK : entry_kept w (p_heap s) (key, v) = entry_kept w h0 (key, v)).
      { unfold entry_kept. cbn [fst snd]. rewrite (anonymous_ev h0 (p_heap s)); auto. intros l E. apply (Al (key, v)); [left; auto|auto]. }
      rewrite EK in H1. unfold kept_entries in *. cbn [filter] in *. destruct (entry_kept w h0 (key, v)) eqn:K.
      + cbn [negb] in H1. unfold readonly_skip in H1. rewrite Or in H1. unfold bind at 1, ret at 1 in H1.
        cbn [map fst] in F. inversion F as [|? ks0 ? ks1 C F1]; subst.
        apply (key_string_coerces key ks0) in C. rewrite C in H1. unfold bind at 1, lift in H1.
        apply bind_ret_inv in H1. destruct H1 as (j & s2 & H1 & H3). inversion H3; subst s1 ob1. clear H3.
        destruct (flatten_hev n v s j s2 D H1) as [Hv2 D2].
        assert (Nk : ~ In ks0 (map fst ob)).
        { intros I. apply NoDup_remove_2 in ND. apply ND. apply in_or_app. auto. }
        rewrite (sset_new ks0 j ob Nk) in H2.
        destruct (IH s2 (ob ++ [(ks0, j)]) ob' s' ks1) as (js & R & ->); auto.
        * eapply hev_trans; eauto.
        * intros kv l I E. apply (Al kv); auto. right; auto.
        * rewrite map_app. cbn [map fst]. rewrite <- app_assoc. exact ND.
        * exists (j :: js). split; [econstructor; eauto|]. cbn [combine]. rewrite <- app_assoc. reflexivity.
      + cbn [negb] in H1. inversion H1; subst ob1 s1. apply (IH s ob); auto. intros kv l I E. apply (Al kv); auto. right; auto.
  Qed.
  Lemma mapM_runs (f : val -> MP json) xs : forall s js s', mapM f xs s = (Ret js, s') -> runs f xs js s s'.
  Proof.
    induction xs as [|x xs IH]; intros s js s' H; cbn [mapM] in H; [inversion H; constructor|].
    apply bind_ret_inv in H. destruct H as (j & s1 & H1 & H2). apply bind_ret_inv in H2. destruct H2 as (js1 & s2 & H2 & H3).
    inversion H3; subst. econstructor; eauto.
  Qed.

  Hypothesis Of : po_fail_safe o = None.
  Hypothesis Od : po_max_depth o <> Some 0%Z.
  Lemma items_nil d : items [] d = d.
  Proof. unfold items, excluded. induction d as [|[a b] d IH]; auto. cbn [filter fst]. rewrite IH. destruct a; reflexivity. Qed.
  Theorem encode_dict n l d s text s' ks : po_keys o = false -> hget (p_heap s) l = Some (ODict d) ->
    (forall kv l, In kv d -> snd kv = VLoc l -> hget (p_heap s) l <> None) ->
    Forall2 (coerces (po_numeric o) k) (map fst (kept_entries w (p_heap s) d)) ks -> NoDup ks ->
    encode w k o (S n) (VLoc l) s = (Ret text, s') ->
    exists js s1 s2, runs (flatten w k o n) (map snd (kept_entries w (p_heap s) d)) js s1 s2 /\ p_heap s1 = p_heap s /\
      text = dumps (JObj (combine ks js)).
  Proof.
    intros Ok G Al F ND H. apply encode_ret in H; auto. destruct H as (j & H & ->).
    destruct (dict_ret w k o Of n l d (p_reset_st s) j s' (fresh_start o (VLoc l) s Od) G H) as (ob & s1 & H1 & -> & _).
    unfold flatten_items in H1. rewrite Ok, items_nil in H1.
    destruct (items_run (p_heap s) n d Ok (numbered (VLoc l) (deeper (p_reset_st s))) [] ob s1 ks) as (js & R & ->); auto.
    - apply hev_refl.
    - discriminate.
    - exists js, (numbered (VLoc l) (deeper (p_reset_st s))), s1. auto.
  Qed.
  Theorem encode_list n l xs s text s' : hget (p_heap s) l = Some (OList xs) ->
    encode w k o (S n) (VLoc l) s = (Ret text, s') ->
    exists js s1 s2, runs (flatten w k o n) xs js s1 s2 /\ p_heap s1 = p_heap s /\ text = dumps (JList js).
  Proof.
    intros G H. apply encode_ret in H; auto. destruct H as (j & H & ->).
    destruct (list_ret w k o Of n l xs (p_reset_st s) j s' (fresh_start o (VLoc l) s Od) G H) as (js & s1 & H1 & -> & _).
    apply mapM_runs in H1. eauto 10.
  Qed.
  Lemma items_included ex d : items ex d = filter (included ex) d.
  Proof.
    unfold items. apply filter_ext. intros [a b]. unfold excluded, included. cbn [fst]. destruct a; auto. f_equal.
    destruct (in_dec (list_eq_dec N.eq_dec) s ex) as [I|I].
    - apply smem_In. auto.
    - destruct (smem s ex) eqn:E; auto. apply smem_In in E. contradiction.
  Qed.
  (** ordinary instances *)
  Theorem encode_instance n l i a d s text s' ks : po_keys o = false -> po_props o = false ->
    hget (p_heap s) l = Some (OInst i) -> ordinary w (i_cls i) -> i_dict i = Some a -> hget (p_heap s) a = Some (ODict d) ->
    (forall kv l, In kv d -> snd kv = VLoc l -> hget (p_heap s) l <> None) ->
    let es := kept_entries w (p_heap s) (filter (included (c_exclude (w_cls w (i_cls i)))) d) in
    Forall2 (coerces (po_numeric o) k) (map fst es) ks -> NoDup ks -> (po_unpicklable o = true -> ~ In OBJECT ks) ->
    encode w k o (S n) (VLoc l) s = (Ret text, s') ->
    exists js s1 s2, runs (flatten w k o n) (map snd es) js s1 s2 /\ p_heap s1 = p_heap s /\
      text = dumps (JObj ((if po_unpicklable o then [(OBJECT, JStr (importable_name (w_cls w (i_cls i))))] else []) ++ combine ks js)).
  Proof.
    intros Ok Op G [R1 R2 R3 R4 R5 R6 R7] Da Ga Al es F ND NO H. apply encode_ret in H; auto. destruct H as (j & H & ->).
    destruct (inst_ret w k o Of n l i (p_reset_st s) j s' (fresh_start o (VLoc l) s Od) G H) as (s1 & Hh & H1). clear H.
    set (s0 := numbered (VLoc l) (deeper (p_reset_st s))) in *.
    assert (G0 : get_obj l s0 = (Ret (OInst i), s0)).
    { unfold get_obj, bind, gets. change (p_heap s0) with (p_heap s). rewrite G. reflexivity. }
    unfold flatten_obj_instance in H1. rewrite (bind_eq _ _ _ _ _ G0) in H1. cbv beta iota zeta in H1.
    rewrite R2, Op in H1. rewrite (bind_eq _ _ _ _ _ (eq_refl : ret [] s0 = (Ret _, s0))) in H1. cbv beta in H1.
    match type of H1 with bind ?m _ s0 = _ => assert (R : m s0 = (Ret None, s0)) by (unfold reduce_of; rewrite R3; destruct (po_unpicklable o); reflexivity) end.
    rewrite (bind_eq _ _ _ _ _ R) in H1. cbv beta iota in H1. clear R.
    unfold flatten_inst_rest in H1. cbv zeta in H1. rewrite R1, R4, R5, R6, R7, Da in H1. cbn [andb] in H1.
    rewrite (bind_eq _ _ _ _ _ (eq_refl : ret _ s0 = (Ret _, s0))) in H1. cbv beta in H1.
    rewrite (bind_eq _ _ _ _ _ (eq_refl : ret _ s0 = (Ret _, s0))) in H1. cbv beta in H1.
    rewrite (bind_eq _ _ _ _ _ (eq_refl : ret _ s0 = (Ret _, s0))) in H1. cbv beta in H1.
    rewrite (bind_eq _ _ _ _ _ (eq_refl : ret _ s0 = (Ret _, s0))) in H1. cbv beta iota in H1.
    rewrite (bind_eq _ _ _ _ _ (eq_refl : gets p_heap s0 = (Ret _, s0))) in H1. cbv beta in H1.
    match type of H1 with bind ?m _ s0 = _ => assert (R : m s0 = (Ret VNone, s0)) by (destruct (c_exclude _); reflexivity) end.
    rewrite (bind_eq _ _ _ _ _ R) in H1. clear R.
    rewrite (bind_eq _ _ _ _ _ (eq_refl : truthy_p w VNone s0 = (Ret false, s0))) in H1. cbn [andb] in H1.
    apply bind_ret_inv in H1. destruct H1 as (ob & s2 & H1 & H2). inversion H2; subst j s2. clear H2.
    unfold flatten_plain_dict in H1.
    assert (G2 : get_obj a s0 = (Ret (ODict d), s0)).
    { unfold get_obj, bind, gets. change (p_heap s0) with (p_heap s). rewrite Ga. reflexivity. }
    rewrite (bind_eq _ _ _ _ _ G2) in H1. cbv beta iota in H1.
    unfold flatten_items in H1. rewrite Ok, items_included in H1.
    destruct (items_run (p_heap s) n (filter (included (c_exclude (w_cls w (i_cls i)))) d) Ok s0
      (if po_unpicklable o then [(OBJECT, JStr (importable_name (w_cls w (i_cls i))))] else []) ob s1 ks) as (js & R & ->); auto.
    - apply hev_refl.
    - discriminate.
    - intros kv l1 I. apply filter_In in I. apply Al. apply I.
    - destruct (po_unpicklable o); [|exact ND]. constructor; auto.
    - exists js, s0, s1. auto.
  Qed.
End ev.
