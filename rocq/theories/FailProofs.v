(** fail_safe: exceptions become documents. *)
From Verif Require Import PyStr Tags Json JsonText B64 B85 Base Heap Registry Pickler PGen PStep SpecRun.
Open Scope nat_scope.
Local Open Scope monad_scope.

Section fail.
  Variables (w : world) (k : hooks) (o : popts) (f : exn -> res json).
  Hypothesis Of : po_fail_safe o = Some f.
  Hypothesis Os : po_sort o = false.
  Hypothesis Hf : forall e, is_Exception e = true -> exists j, f e = Ret j.

  Lemma flatten_obj_contained n rec v s e s' : flatten_obj w k o n rec v s = (Exc e, s') -> is_Exception e = false.
  Proof.
    unfold flatten_obj, max_reached. unfold bind at 1, bind at 1, gets, ret at 1. unfold catch at 1.
    match goal with |- (let (_, _) := ?m s in _) = _ -> _ => destruct (m s) as [[j|e1|] s1] end; try discriminate.
    destruct (is_Exception e1) eqn:X.
    - rewrite Of. unfold lift. destruct (Hf e1 X) as (j & ->). discriminate.
    - intros H. inversion H; subst. auto.
  Qed.
  Lemma flatten_contained n v s e s' : flatten w k o n v s = (Exc e, s') -> is_Exception e = false.
  Proof.
    destruct n as [|n]; [discriminate|]. cbn [flatten]. unfold flatten_step.
    assert (X : forall s e s', flatten_impl w k o n (flatten w k o n) v s = (Exc e, s') -> is_Exception e = false).
    { clear s e s'. intros s e s'. assert (L : (push;;; j <- flatten_obj w k o n (flatten w k o n) v;; pop j) s = (Exc e, s') -> is_Exception e = false).
      { unfold push. unfold bind at 1, modify. unfold bind at 1.
        destruct (flatten_obj w k o n (flatten w k o n) v (set_depth (p_depth s + 1)%Z s)) as [[j|e1|] s1] eqn:E; try discriminate.
        intros H. inversion H; subst. eapply flatten_obj_contained; eauto. }
      unfold flatten_impl. unfold bind at 1, gets. destruct v; cbn [prim_json]; try discriminate; auto.
      destruct (hget (p_heap s) l) as [[]|]; auto. discriminate. }
    destruct (po_unpicklable o && po_make_refs o); [apply X|].
    unfold bind at 1, gets. destruct (cache_get v (p_cache s)); [discriminate|]. unfold bind at 1.
    destruct (flatten_impl w k o n (flatten w k o n) v s) as [[j|e1|] s1] eqn:E; try discriminate.
    intros H. inversion H; subst. eauto.
  Qed.
  Theorem encode_contained n v s e s' : encode w k o n v s = (Exc e, s') -> is_Exception e = false.
  Proof.
    unfold encode, bind, pickle, pflatten. rewrite Os. unfold bind, p_reset, modify, ret.
    destruct (flatten w k o n v (p_reset_st s)) as [[j|e1|] s1] eqn:E; try discriminate. intros H. inversion H; subst.
    eapply flatten_contained; eauto.
  Qed.

  (** A list of objects some of which fail. *)
  Hypothesis Ou : po_unpicklable o = true.
  Hypothesis Om : po_make_refs o = true.
  Hypothesis Op : po_props o = false.
  Hypothesis Od : po_max_depth o = None.
  Lemma step_on n v : flatten w k o (S n) v = flatten_impl w k o n (flatten w k o n) v.
  Proof. cbn [flatten]. unfold flatten_step. rewrite Ou, Om. reflexivity. Qed.

  Definition state_doc (l : loc) (i : inst) : res json :=
    match k_getstate k l with
    | Ret st => match prim_json st with
                | Some j => Ret (JObj [(OBJECT, JStr (importable_name (w_cls w (i_cls i)))); (STATE, j)])
                | None => OOF
                end
    | Exc e => Exc e
    | OOF => OOF
    end.
  Lemma prim_flat n v j s : prim_json v = Some j -> flatten w k o (S n) v s = (Ret j, s).
  Proof.
    intros P. rewrite step_on. unfold flatten_impl, bind, gets.
    destruct v; cbn [prim_json] in *; try discriminate; inversion P; subst; reflexivity.
  Qed.
  Lemma inst_body n l i s : hget (p_heap s) l = Some (OInst i) -> stateful w (i_cls i) ->
    match k_getstate k l with
    | Ret st => prim_json st <> None /\ truthy (w_cls w) (p_heap s) st = true
    | Exc e => is_TypeError e = false
    | OOF => False
    end ->
    flatten_obj_instance w k o (S n) (flatten w k o (S n)) l s = (state_doc l i, s).
  Proof.
    intros G [S1 S2 S3 S4 S5 S6 S7] K.
    assert (G0 : get_obj l s = (Ret (OInst i), s)) by (unfold get_obj, bind, gets; rewrite G; reflexivity).
    unfold flatten_obj_instance. rewrite (bind_eq _ _ _ _ _ G0). cbv beta iota zeta.
    rewrite S1, Op, Ou. rewrite (bind_eq _ _ _ _ _ (eq_refl : ret [] s = (Ret _, s))). cbv beta.
    match goal with |- bind ?m _ s = _ => assert (R : m s = (Ret None, s)) by (unfold reduce_of; rewrite S2; reflexivity) end.
    rewrite (bind_eq _ _ _ _ _ R). cbv beta iota. clear R.
    unfold flatten_inst_rest. cbv zeta. rewrite S3, S4, S5, S6, S7, Ou. cbn [andb].
    rewrite (bind_eq _ _ _ _ _ (eq_refl : ret _ s = (Ret _, s))). cbv beta.
    rewrite (bind_eq _ _ _ _ _ (eq_refl : ret _ s = (Ret _, s))). cbv beta.
    rewrite (bind_eq _ _ _ _ _ (eq_refl : ret _ s = (Ret _, s))). cbv beta.
    unfold state_doc. unfold catch. unfold lift. unfold bind at 1. unfold bind at 1.
    destruct (k_getstate k l) as [st|e|]; [| rewrite K; reflexivity | contradiction].
    destruct K as (K1 & K2). unfold ret at 1. cbv beta iota.
    rewrite (bind_eq _ _ _ _ _ (eq_refl : gets p_heap s = (Ret _, s))). cbv beta.
    rewrite (bind_eq _ _ _ _ _ (eq_refl : ret _ s = (Ret _, s))). cbv beta.
    assert (T : truthy_p w st s = (Ret true, s)) by (unfold truthy_p, gets; rewrite K2; reflexivity).
    rewrite (bind_eq _ _ _ _ _ T). cbn [andb]. destruct (prim_json st) as [j|] eqn:P; [|contradiction].
    rewrite (bind_eq _ _ _ _ _ (prim_flat n st j s P)). reflexivity.
  Qed.
  Lemma level_eval n l i s r : hget (p_heap s) l = Some (OInst i) -> ~ In (VLoc l) (p_objs s) -> (0 <= p_depth s)%Z ->
    flatten_obj_instance w k o n (flatten w k o n) l (numbered (VLoc l) (deeper s)) = (r, numbered (VLoc l) (deeper s)) ->
    r <> OOF ->
    match r with
    | Ret j => flatten w k o (S n) (VLoc l) s = (Ret j, numbered (VLoc l) s)
    | Exc e => if is_Exception e then exists j, f e = Ret j /\ flatten w k o (S n) (VLoc l) s = (Ret j, numbered (VLoc l) s)
               else exists s', flatten w k o (S n) (VLoc l) s = (Exc e, s')
    | OOF => True
    end.
  Proof.
    intros G N D B NO.
    assert (E : flatten w k o (S n) (VLoc l) s =
      (push ;;; j <- flatten_obj w k o n (flatten w k o n) (VLoc l);; pop j) s).
    { rewrite step_on. unfold flatten_impl. unfold bind at 1, gets. cbn [prim_json]. rewrite G. reflexivity. }
    rewrite E. clear E.
    assert (P : forall j : json, pop j (numbered (VLoc l) (deeper s)) = (Ret j, numbered (VLoc l) s)).
    { intros j. unfold pop, bind, modify, ret. cbn [numbered deeper set_objs set_depth p_depth].
      replace (p_depth s + 1 - 1)%Z with (p_depth s) by lia. replace (p_depth s =? -1)%Z with false by (symmetry; apply Z.eqb_neq; lia).
      destruct s; reflexivity. }
    assert (Fo : flatten_obj w k o n (flatten w k o n) (VLoc l) (deeper s) =
      match r with
      | Ret j => (Ret j, numbered (VLoc l) (deeper s))
      | Exc e => if is_Exception e then lift (f e) (numbered (VLoc l) (deeper s)) else (Exc e, numbered (VLoc l) (deeper s))
      | OOF => (OOF, numbered (VLoc l) (deeper s))
      end).
    { unfold flatten_obj, max_reached. rewrite Od. unfold bind at 1, bind at 1, gets, ret at 1. unfold catch at 1.
      unfold in_cycle. unfold bind at 1. unfold bind at 1, get, ret at 1. rewrite Om. cbn [orb negb andb].
      unfold get_flattener. rewrite bind_assoc.
      assert (G1 : get_obj l (deeper s) = (Ret (OInst i), deeper s)) by (unfold get_obj, bind, gets; cbn [deeper set_depth p_heap]; rewrite G; reflexivity).
      rewrite (bind_eq _ _ _ _ _ G1). cbv beta iota. rewrite bind_assoc. unfold ref_obj_instance. rewrite Ou, bind_assoc.
      rewrite (bind_eq _ _ _ _ _ (mkref_fresh o (VLoc l) (deeper s) N)). cbv beta iota. unfold flatten_object.
      unfold bind at 1. rewrite B. destruct r as [j|e|]; [reflexivity| |reflexivity]. rewrite Of.
      destruct (is_Exception e); reflexivity. }
    assert (E : (push ;;; j <- flatten_obj w k o n (flatten w k o n) (VLoc l);; pop j) s =
      (j <- (fun _ => flatten_obj w k o n (flatten w k o n) (VLoc l) (deeper s));; pop j) s) by reflexivity.
    rewrite E. clear E. unfold bind. rewrite Fo. destruct r as [j|e|]; auto.
    destruct (is_Exception e) eqn:X; [|eauto]. destruct (Hf e X) as (j & Ej). exists j. split; auto. rewrite Ej. unfold lift. apply P.
  Qed.
  Lemma saved_eval n x r s : saved w k (p_heap s) f x r -> ~ In x (p_objs s) -> (0 <= p_depth s)%Z ->
    (exists j, r = Ret j /\ exists s', flatten w k o (S (S n)) x s = (Ret j, s') /\ p_heap s' = p_heap s /\ p_depth s' = p_depth s /\
       (forall y, In y (p_objs s') -> In y (p_objs s) \/ (y = x /\ exists l, x = VLoc l))) \/
    (exists e, r = Exc e /\ exists s', flatten w k o (S (S n)) x s = (Exc e, s')).
  Proof.
    intros Sv N D. inversion Sv; subst.
    - left. exists j. split; auto. exists s. rewrite (prim_flat _ _ _ _ H). auto.
    - left. eexists; split; [reflexivity|]. exists (numbered (VLoc l) s).
      pose proof (level_eval (S n) l i s _ H N D (inst_body n l i (numbered (VLoc l) (deeper s)) H H0 ltac:(rewrite H1; split; [congruence|exact H3]))) as L.
      unfold state_doc in L. rewrite H1, H2 in L. rewrite (L ltac:(discriminate)). repeat split; auto.
      intros y I. cbn [numbered set_objs p_objs] in I. apply in_app_or in I. destruct I as [I|[I|[]]]; eauto.
    - left. exists j. split; auto. exists (numbered (VLoc l) s).
      pose proof (level_eval (S n) l i s _ H N D (inst_body n l i (numbered (VLoc l) (deeper s)) H H0 ltac:(rewrite H1; auto))) as L.
      unfold state_doc in L. rewrite H1, H2 in L. destruct (L ltac:(discriminate)) as (j1 & L1 & L2).
      assert (j1 = j) by congruence. subst j1. rewrite L2. repeat split; auto.
      intros y I. cbn [numbered set_objs p_objs] in I. apply in_app_or in I. destruct I as [I|[I|[]]]; eauto.
    - right. exists e. split; auto.
      pose proof (level_eval (S n) l i s _ H N D (inst_body n l i (numbered (VLoc l) (deeper s)) H H0 ltac:(rewrite H1; auto))) as L.
      unfold state_doc in L. rewrite H1, H2 in L. apply L. discriminate.
  Qed.
  Lemma saved_all n xs : forall rs s, Forall2 (saved w k (p_heap s) f) xs rs ->
    (forall x, In x xs -> ~ In x (p_objs s)) ->
    NoDup (filter (fun x => match x with VLoc _ => true | _ => false end) xs) -> (0 <= p_depth s)%Z ->
    exists s', mapM (flatten w k o (S (S n))) xs s = (all_of rs, s') /\
      (forall js, all_of rs = Ret js -> p_heap s' = p_heap s /\ p_depth s' = p_depth s).
  Proof.
    induction xs as [|x xs IH]; intros rs s F N U D; inversion F; subst; cbn [mapM all_of].
    - exists s. split; auto.
    - destruct (saved_eval n x y s H1 (N x (or_introl eq_refl)) D) as [(j & -> & s1 & E & Hh & Hd & Ho)|(e & -> & s1 & E)].
      + rewrite (bind_eq _ _ _ _ _ E). destruct (IH l' s1) as (s2 & E2 & Hs).
        * rewrite Hh. auto.
        * intros z I J. destruct (Ho z J) as [J1|(-> & lx & ->)]; [exact (N z (or_intror I) J1)|].
          cbn [filter] in U. apply NoDup_cons_iff in U. apply (proj1 U). apply filter_In. auto.
        * cbn [filter] in U. destruct x; auto. inversion U; auto.
        * lia.
        * unfold bind. rewrite E2. destruct (all_of l') as [js|e|]; eexists; split; try reflexivity.
          -- intros js' _. destruct (Hs js eq_refl). split; congruence.
          -- discriminate.
          -- discriminate.
      + unfold bind. rewrite E. exists s1. split; auto. discriminate.
  Qed.
  Theorem encode_saved n l xs rs s : hget (p_heap s) l = Some (OList xs) -> ~ In (VLoc l) xs ->
    NoDup (filter (fun x => match x with VLoc _ => true | _ => false end) xs) ->
    Forall2 (saved w k (p_heap s) f) xs rs ->
    exists s', encode w k o (S (S (S n))) (VLoc l) s =
      (match all_of rs with Ret js => Ret (dumps (JList js)) | Exc e => Exc e | OOF => OOF end, s').
  Proof.
    intros G Nl U F. unfold encode, bind, pickle, pflatten. rewrite Os. unfold bind, p_reset, modify, ret.
    rewrite step_on. unfold flatten_impl. unfold bind at 1, gets. cbn [prim_json]. change (p_heap (p_reset_st s)) with (p_heap s). rewrite G.
    set (t := deeper (p_reset_st s)).
    assert (E : (push ;;; j <- flatten_obj w k o (S (S n)) (flatten w k o (S (S n))) (VLoc l);; pop j) (p_reset_st s) =
      (j <- (fun _ => flatten_obj w k o (S (S n)) (flatten w k o (S (S n))) (VLoc l) t);; pop j) (p_reset_st s)) by reflexivity.
    rewrite E. clear E. unfold bind at 1.
    destruct (saved_all n xs rs (numbered (VLoc l) t)) as (s2 & E2 & Hs); auto.
    { intros x I [J|[]]. subst. auto. }
    { cbn. lia. }
    assert (Fo : exists s3, p_depth s3 = p_depth s2 /\ flatten_obj w k o (S (S n)) (flatten w k o (S (S n))) (VLoc l) t =
      (match all_of rs with Ret js => Ret (JList js) | Exc e => Exc e | OOF => OOF end, s3)).
    { assert (Ex : forall e, all_of rs = Exc e -> is_Exception e = false).
      { clear - F. induction F as [|x r xs rs Sv F IH]; cbn [all_of]; [discriminate|]. intros e.
        inversion Sv; subst; try (destruct (all_of rs); try discriminate; intros X; inversion X; subst; auto). }
      unfold flatten_obj, max_reached. rewrite Od. unfold bind at 1, bind at 1, gets, ret at 1. unfold catch at 1.
      unfold in_cycle. unfold bind at 1. unfold bind at 1, get, ret at 1. rewrite Om. cbn [orb negb andb].
      unfold get_flattener. rewrite bind_assoc.
      assert (G1 : get_obj l t = (Ret (OList xs), t)) by (unfold get_obj, bind, gets; cbn [t deeper set_depth p_heap p_reset_st]; rewrite G; reflexivity).
      rewrite (bind_eq _ _ _ _ _ G1). cbv beta iota. rewrite bind_assoc.
      rewrite (bind_eq _ _ _ _ _ (mkref_fresh o (VLoc l) t ltac:(intros []))). cbv beta iota. rewrite bind_assoc.
      unfold list_recurse. rewrite bind_assoc. unfold bind at 1. rewrite E2. destruct (all_of rs) as [js|e|] eqn:A.
      - exists s2. split; auto.
      - rewrite (Ex e eq_refl). eauto.
      - eauto. }
    destruct Fo as (s3 & Hd & Fo). rewrite Fo. destruct (all_of rs) as [js|e|]; eauto.
    unfold pop, bind, modify, ret. eauto.
  Qed.
End fail.
