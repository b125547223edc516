(** One level of the encoder: what a call that returns has done. *)
From Verif Require Import PyStr Tags Json JsonText B64 B85 Base Heap Registry Pickler PGen.
Open Scope nat_scope.
Local Open Scope monad_scope.

(** An object met for the first time, above the depth limit. *)
Record fresh (o : popts) (v : val) (s : pst) : Prop := {
  fr_objs : ~ In v (p_objs s);
  fr_cache : cache_get v (p_cache s) = None;
  fr_depth : po_max_depth o <> Some (p_depth s + 1)%Z
}.
Definition deeper (s : pst) : pst := set_depth (p_depth s + 1)%Z s.
Definition numbered (v : val) (s : pst) : pst := set_objs (p_objs s ++ [v]) s.

Lemma index_of_none v l : ~ In v l -> index_of v l = None.
Proof.
  induction l as [|x l IH]; simpl; auto. intros N. destruct (val_eqb_spec v x) as [->|]; [exfalso; auto|].
  rewrite IH; auto.
Qed.

Section step.
  Variables (w : world) (k : hooks) (o : popts).
  Hypothesis Of : po_fail_safe o = None.

  Lemma level_ret n v s j s' : fresh o v s -> prim_json v = None -> (forall b, v <> VBytes b) ->
    (forall l b, v = VLoc l -> hget (p_heap s) l <> Some (OByteArray b)) ->
    flatten w k o (S n) v s = (Ret j, s') ->
    exists s1, p_heap s' = p_heap s1 /\
      (get_flattener w k o n (flatten w k o n) v (deeper s) = (Ret (Some j), s1) \/
       (j = JNull /\ exists s0, get_flattener w k o n (flatten w k o n) v (deeper s) = (Ret None, s0) /\ p_heap s0 = p_heap s1)).
  Proof.
    intros [F1 F2 F3] Hp Nb Nba H.
    assert (X : exists s0, flatten_impl w k o n (flatten w k o n) v s = (Ret j, s0) /\ p_heap s' = p_heap s0).
    { cbn [flatten] in H. unfold flatten_step in H. destruct (po_unpicklable o && po_make_refs o); [eauto|].
      unfold bind at 1, gets in H. rewrite F2 in H. apply bind_ret_inv in H. destruct H as (j1 & s1 & H1 & H2).
      apply bind_ret_inv in H2. destruct H2 as (u1 & s2 & H2 & H3). inversion H2; subst. inversion H3; subst. eauto. }
    destruct X as (s0 & X & Hh). clear H.
    assert (Y : exists s1, flatten_obj w k o n (flatten w k o n) v (deeper s) = (Ret j, s1) /\ p_heap s0 = p_heap s1).
    { assert (Z : (push;;; j <- flatten_obj w k o n (flatten w k o n) v;; pop j) s = (Ret j, s0)).
      { unfold flatten_impl, bind at 1, gets in X. destruct v; cbn [prim_json] in *; try discriminate; auto.
        - destruct (Nb b). reflexivity.
        - destruct (hget (p_heap s) l) as [[]|] eqn:G; auto. destruct (Nba l b); auto. }
      unfold push in Z. unfold bind at 1, modify in Z. apply bind_ret_inv in Z. destruct Z as (j1 & s1 & Z1 & Z2).
      unfold pop, bind, modify, ret in Z2. inversion Z2; subst. exists s1. split; auto. destruct (_ =? _)%Z; reflexivity. }
    destruct Y as (s1 & Y & Hh1). unfold flatten_obj, max_reached in Y. unfold bind at 1 2, gets, ret at 1 in Y.
    replace (match po_max_depth o with Some m => (p_depth (deeper s) =? m)%Z | None => false end) with false in Y.
    2: { destruct (po_max_depth o) as [m|]; auto. symmetry. apply Z.eqb_neq. intros E. apply F3. cbn in E. congruence. }
    unfold catch in Y.
    match type of Y with context [match ?m (deeper s) with _ => _ end] => destruct (m (deeper s)) as [[j1|e|] s2] eqn:B end.
    2: { destruct (is_Exception e); rewrite ?Of in Y; discriminate. }
    2: discriminate.
    inversion Y; subst j1 s2. clear Y. unfold in_cycle in B. unfold bind at 1 2, get, ret at 1 in B.
    change (p_objs (deeper s)) with (p_objs s) in B. rewrite (index_of_none _ _ F1), andb_false_r in B. cbn [orb andb] in B.
    apply bind_ret_inv in B. destruct B as (r & s2 & B1 & B2). exists s1. rewrite Hh, Hh1. split; auto.
    destruct r as [j1|]; [left; inversion B2; subst; auto|].
    right. apply bind_ret_inv in B2. destruct B2 as (x & s3 & B2 & B3). inversion B3; subst. split; auto. exists s2. split; auto.
    unfold pickle_warning in B2. destruct (po_warn o); inversion B2; subst; reflexivity.
  Qed.
  Lemma mkref_fresh v s : ~ In v (p_objs s) -> mkref o v s = (Ret true, numbered v s).
  Proof.
    intros N. unfold mkref, bind, log_ref. rewrite (index_of_none _ _ N). unfold ret. rewrite orb_true_r. reflexivity.
  Qed.
  Lemma list_ret n l xs s j s' : fresh o (VLoc l) s -> hget (p_heap s) l = Some (OList xs) ->
    flatten w k o (S n) (VLoc l) s = (Ret j, s') ->
    exists js s1, mapM (flatten w k o n) xs (numbered (VLoc l) (deeper s)) = (Ret js, s1) /\ j = JList js /\ p_heap s' = p_heap s1.
  Proof.
    intros F G H. apply level_ret in H; auto; [|discriminate|intros l1 b E; inversion E; subst; congruence].
    destruct H as (s1 & Hh & H). unfold get_flattener in H.
    assert (G1 : get_obj l (deeper s) = (Ret (OList xs), deeper s)).
    { unfold get_obj, bind, gets. cbn [deeper set_depth p_heap]. rewrite G. reflexivity. }
    rewrite (bind_eq _ _ _ _ _ G1) in H. cbv beta iota in H. rewrite (bind_eq _ _ _ _ _ (mkref_fresh (VLoc l) (deeper s) (fr_objs _ _ _ F))) in H.
    cbv beta iota in H. unfold list_recurse in H. rewrite bind_assoc in H.
    destruct H as [H|(_ & s0 & H & _)]; apply bind_ret_inv in H; destruct H as (js & s2 & H1 & H2); inversion H2; subst; eauto.
  Qed.
  Lemma dict_ret n l d s j s' : fresh o (VLoc l) s -> hget (p_heap s) l = Some (ODict d) ->
    flatten w k o (S n) (VLoc l) s = (Ret j, s') ->
    exists ob s1, flatten_items w k o (flatten w k o n) d [] [] (numbered (VLoc l) (deeper s)) = (Ret ob, s1) /\ j = JObj ob /\ p_heap s' = p_heap s1.
  Proof.
    intros F G H. apply level_ret in H; auto; [|discriminate|intros l1 b E; inversion E; subst; congruence].
    destruct H as (s1 & Hh & H). unfold get_flattener in H.
    assert (G1 : get_obj l (deeper s) = (Ret (ODict d), deeper s)).
    { unfold get_obj, bind, gets. cbn [deeper set_depth p_heap]. rewrite G. reflexivity. }
    rewrite (bind_eq _ _ _ _ _ G1) in H. cbv beta iota in H. rewrite (bind_eq _ _ _ _ _ (mkref_fresh (VLoc l) (deeper s) (fr_objs _ _ _ F))) in H.
    cbv beta iota in H. unfold flatten_plain_dict in H. rewrite bind_assoc in H.
    assert (G2 : get_obj l (numbered (VLoc l) (deeper s)) = (Ret (ODict d), numbered (VLoc l) (deeper s))).
    { unfold get_obj, bind, gets. cbn [numbered set_objs deeper set_depth p_heap]. rewrite G. reflexivity. }
    rewrite (bind_eq _ _ _ _ _ G2) in H. cbv beta iota in H.
    destruct H as [H|(_ & s0 & H & _)]; apply bind_ret_inv in H; destruct H as (js & s2 & H1 & H2); inversion H2; subst; eauto.
  Qed.
  (** instances, up to the point where their contents are looked at *)
  Lemma inst_ret n l i s j s' : fresh o (VLoc l) s -> hget (p_heap s) l = Some (OInst i) ->
    flatten w k o (S n) (VLoc l) s = (Ret j, s') ->
    exists s1, p_heap s' = p_heap s1 /\
    flatten_obj_instance w k o n (flatten w k o n) l (numbered (VLoc l) (deeper s)) = (Ret j, s1).
  Proof.
    intros F G H. apply level_ret in H; auto; [|discriminate|intros l1 b E; inversion E; subst; congruence].
    destruct H as (s1 & Hh & H). unfold get_flattener in H.
    assert (G1 : get_obj l (deeper s) = (Ret (OInst i), deeper s)).
    { unfold get_obj, bind, gets. cbn [deeper set_depth p_heap]. rewrite G. reflexivity. }
    rewrite (bind_eq _ _ _ _ _ G1) in H. cbv beta iota in H.
    assert (H0 : exists j1, ref_obj_instance w k o n (flatten w k o n) (VLoc l) (deeper s) = (Ret j1, s1) /\ j1 = j).
    { destruct H as [H|(_ & s0 & H & _)]; apply bind_ret_inv in H; destruct H as (j1 & s2 & H1 & H2); inversion H2; subst; eauto. }
    clear H. destruct H0 as (j1 & H1 & ->).
    unfold ref_obj_instance in H1. destruct (po_unpicklable o) eqn:Ou.
    - rewrite (bind_eq _ _ _ _ _ (mkref_fresh (VLoc l) (deeper s) (fr_objs _ _ _ F))) in H1. eauto.
    - unfold max_reached in H1. unfold bind at 1 2, gets, ret at 1 in H1.
      replace (match po_max_depth o with Some m => (p_depth (deeper s) =? m)%Z | None => false end) with false in H1.
      2: { destruct (po_max_depth o) as [m|] eqn:Md; auto. symmetry. apply Z.eqb_neq. intros E. apply (fr_depth _ _ _ F). cbn in E. congruence. }
      unfold in_cycle in H1. unfold bind at 1 2, get, ret at 1 in H1. change (p_objs (deeper s)) with (p_objs s) in H1.
      rewrite (index_of_none _ _ (fr_objs _ _ _ F)) in H1. cbn [orb andb negb] in H1.
      rewrite (bind_eq _ _ _ _ _ (mkref_fresh (VLoc l) (deeper s) (fr_objs _ _ _ F))) in H1. eauto.
  Qed.
End step.

(** Encode starts with nothing numbered. *)
Lemma fresh_start o v s : po_max_depth o <> Some 0%Z -> fresh o v (p_reset_st s).
Proof. intros D. constructor; [intros []|reflexivity|exact D]. Qed.
Lemma encode_ret w k o n v s text s' : po_sort o = false -> encode w k o n v s = (Ret text, s') ->
  exists j, flatten w k o n v (p_reset_st s) = (Ret j, s') /\ text = dumps j.
Proof.
  intros Os H. unfold encode in H. apply bind_ret_inv in H. destruct H as (j & s1 & H1 & H2). inversion H2; subst.
  exists j. split; auto. unfold pickle, pflatten, bind, p_reset, modify in H1. rewrite Os in H1. exact H1.
Qed.
