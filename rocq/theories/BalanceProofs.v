(** fail_safe: every level that is entered is left again. *)
From Verif Require Import PyStr Tags Json JsonText B64 B85 Base Heap Registry Pickler PGen PDoc PStep SpecRun SpecFail FailProofs.
Open Scope nat_scope.
Local Open Scope monad_scope.

Section balance.
  Variables (w : world) (k : hooks) (o : popts) (f : exn -> res json) (h0 : heap).
  Hypothesis Of : po_fail_safe o = Some f.
  Hypothesis Os : po_sort o = false.
  Hypothesis Or : po_readonly o = false.
  Hypothesis Hf : forall e, is_Exception e = true -> exists j, f e = Ret j.
  Hypothesis HK : handlers_keep w.
  Notation cls := (w_cls w).
  Notation Tr := (fun _ : json => True).
  Notation Tr2 := (fun (_ : pystr) (_ : json) => True).
  Notation Ck := (plain (fun _ => True)).
  Notation tw := (twp w True is_Exception Ck False).
  Notation EvR := (EvR w True Ck).

  Lemma keep_ok sc : no_reset sc -> script_ok Ck (fun _ => True) Tr Tr sc.
  Proof. induction sc as [[j|]|e|r v kk IH]; simpl; auto. intros (-> & H). split; auto. Qed.

  Definition B (n : nat) : Prop := forall v s, hev cls h0 (p_heap s) -> (0 <= p_depth s)%Z ->
    tw (flatten w k o n v) s (fun _ _ => True).

  Ltac side := try (intros; exact Logic.I); try (intros []; fail); try exact Or; try exact Os;
    try exact (hooks_raise_any w k o); try (intros; apply keep_ok, HK);
    try (intros e; destruct e; simpl; auto; discriminate); auto.
  Lemma b_obj n s v : B n -> hev cls h0 (p_heap s) -> (0 <= p_depth s)%Z -> prim_json v = None ->
    tw (flatten_obj w k o n (flatten w k o n) v) s (fun _ _ => True).
  Proof.
    intros IH Hv D0 Hp.
    assert (RO : RecOK w True is_Exception Ck False h0 (fun _ _ => True) Tr (flatten w k o n) s).
    { split; auto. intros x s1 R1 _. pose proof R1 as [(Hv1 & _ & D1 & _) _]. apply IH; [eapply hev_trans; eauto|lia]. }
    apply (g_flatten_obj w k o True is_Exception Ck False h0) with
      (V := fun _ _ => True) (Vq := fun _ => True) (Vc := fun _ => True) (D := Tr) (D' := Tr) (E1 := Tr2) (E := Tr2); side;
      try (intros; apply Forall_forall; intros; exact Logic.I).
    intros Cy.
    apply (g_get_flattener w k o True is_Exception Ck False h0) with
      (V := fun _ _ => True) (Vq := fun _ => True) (Vc := fun _ => True) (D := Tr) (D' := Tr) (E1 := Tr2) (E := Tr2); side;
      try (intros; apply Forall_forall; intros; exact Logic.I).
    intros l [].
  Qed.
  Lemma b_step n : B n -> B (S n).
  Proof.
    intros IH v s Hv D0. cbn [flatten]. unfold flatten_step.
    assert (Im : tw (flatten_impl w k o n (flatten w k o n) v) s (fun _ _ => True)).
    { assert (L : prim_json v = None -> tw (push;;; j <- flatten_obj w k o n (flatten w k o n) v;; pop j) s (fun _ _ => True)).
      { intros Hp. apply tw_level with (Q := Tr); auto.
        - apply b_obj; auto. simpl; lia.
        - intros _ e s1 X _. eapply flatten_obj_contained; eauto. }
      unfold flatten_impl. eapply tw_bind with (Q1 := fun x s1 => x = p_heap s /\ s1 = s); [apply tw_gets; auto|].
      intros x s1 _ [-> ->].
      destruct v; cbn [prim_json] in *; try (apply tw_ret; exact Logic.I); try (apply L; auto; fail).
      destruct (hget (p_heap s) l) as [[]|]; try (apply L; auto; fail). apply tw_ret. exact Logic.I. }
    destruct (po_unpicklable o && po_make_refs o); auto.
    eapply tw_bind with (Q1 := fun c s1 => c = p_cache s /\ s1 = s); [apply tw_gets; auto|]. intros c s1 _ [-> ->].
    destruct (cache_get v (p_cache s)) eqn:Cg; [apply tw_ret; exact Logic.I|].
    eapply tw_bind; [exact Im|]. intros j s1 R1 Pj.
    eapply tw_bind with (Q1 := fun _ _ => True); [|intros; apply tw_ret; exact Logic.I]. apply tw_modify; auto.
    split; [|apply depth_same; auto]. split; [apply hev_refl|]. split; [exists []; rewrite app_nil_r; auto|]. split; [simpl; lia|].
    split; [|auto]. simpl. intros C. constructor; auto.
  Qed.
  Lemma b_all n : B n.
  Proof. induction n as [|n IH]; [|apply b_step; auto]. intros v s _ _. intros []. Qed.
End balance.

Section top.
  Variables (w : world) (k : hooks) (o : popts) (f : exn -> res json).
  Hypothesis Of : po_fail_safe o = Some f.
  Hypothesis Os : po_sort o = false.
  Hypothesis Or : po_readonly o = false.
  Hypothesis Hf : forall e, is_Exception e = true -> exists j, f e = Ret j.
  Hypothesis HK : handlers_keep w.

  (** a call from inside another one *)
  Lemma inner_balanced n v s j s' : (0 <= p_depth s)%Z -> pickle w k o n false v s = (Ret j, s') -> p_depth s' = p_depth s.
  Proof.
    intros D0. unfold pickle, pflatten. rewrite Os. unfold bind, ret. cbv beta iota.
    pose proof (b_all w k o f (p_heap s) Of Os Or Hf HK n v s (hev_refl _ _) D0) as X. unfold twp in X.
    destruct (flatten w k o n v s) as [[j1|e|] s1]; try discriminate. intros H. inversion H; subst.
    destruct X as [[_ [Bk _]] _]. apply Bk. exact Logic.I.
  Qed.
  (** the outermost call *)
  Lemma obj_balanced n v s j s' : p_depth s = 0%Z -> prim_json v = None ->
    flatten_obj w k o n (flatten w k o n) v s = (Ret j, s') -> p_depth s' = 0%Z.
  Proof.
    intros D0 Hp E. pose proof (b_obj w k o (p_heap s) Os Or HK n s v (b_all w k o f (p_heap s) Of Os Or Hf HK n) (hev_refl _ _)) as X.
    specialize (X ltac:(lia) Hp). unfold twp in X. rewrite E in X. destruct X as [[_ [Bk _]] _]. rewrite Bk; auto.
  Qed.
  Lemma outer_balanced n v s j s' : pickle w k o n true v s = (Ret j, s') -> p_depth s' = (-1)%Z /\ p_objs s' = [].
  Proof.
    unfold pickle, pflatten. rewrite Os. unfold bind at 1, p_reset, modify. unfold bind at 1, ret at 1. cbv beta iota.
    set (s0 := p_reset_st s). assert (Z0 : p_depth s0 = (-1)%Z /\ p_objs s0 = []) by (split; reflexivity).
    assert (Im : forall n j s', flatten_impl w k o n (flatten w k o n) v s0 = (Ret j, s') -> p_depth s' = (-1)%Z /\ p_objs s' = []).
    { clear n j s'. intros n j s'.
      assert (L : prim_json v = None -> (push;;; j <- flatten_obj w k o n (flatten w k o n) v;; pop j) s0 = (Ret j, s') -> p_depth s' = (-1)%Z /\ p_objs s' = []).
      { intros Hp. unfold push, bind, modify. change (p_depth s0 + 1)%Z with 0%Z.
        destruct (flatten_obj w k o n (flatten w k o n) v (set_depth 0%Z s0)) as [[j1|e|] s1] eqn:E; try discriminate.
        apply obj_balanced in E; auto. unfold pop, bind, modify, ret. rewrite E. change (0 - 1 =? -1)%Z with true. cbv beta iota.
        intros H. inversion H; subst. split; reflexivity. }
      unfold flatten_impl, bind, gets. cbv beta iota.
      destruct v; cbn [prim_json] in *; try (apply L; auto; fail); unfold ret; try (intros H; inversion H; subst; auto; fail).
      destruct (hget (p_heap s0) l) as [[]|] eqn:G; try (apply L; auto; fail). unfold ret. intros H; inversion H; subst; auto. }
    destruct n as [|n]; [discriminate|]. cbn [flatten]. unfold flatten_step.
    destruct (po_unpicklable o && po_make_refs o); [apply Im|].
    unfold bind at 1, gets. cbv beta iota. cbn [s0 p_reset_st p_cache cache_get]. unfold bind.
    destruct (flatten_impl w k o n (flatten w k o n) v s0) as [[j1|e|] s1] eqn:E; try discriminate.
    unfold modify, ret. intros H. inversion H; subst. destruct (Im _ _ _ E). split; assumption.
  Qed.
  Lemma encode_balanced n v s t s' : encode w k o n v s = (Ret t, s') -> p_depth s' = (-1)%Z /\ p_objs s' = [].
  Proof.
    unfold encode, bind. destruct (pickle w k o n true v s) as [[j|e|] s1] eqn:E; try discriminate.
    unfold ret. intros H. inversion H; subst. eapply outer_balanced; eauto.
  Qed.
End top.

(** An object whose encoding begins with user code that raises. *)
Section raises.
  Variables (w : world) (k : hooks) (o : popts) (f : exn -> res json).
  Hypothesis Of : po_fail_safe o = Some f.
  Hypothesis Os : po_sort o = false.
  Hypothesis Hf : forall e, is_Exception e = true -> exists j, f e = Ret j.
  Hypothesis Ou : po_unpicklable o = true.
  Hypothesis Om : po_make_refs o = true.
  Hypothesis Op : po_props o = false.
  Hypothesis Od : po_max_depth o = None.

  Ltac sk s := repeat (rewrite (bind_eq _ _ _ _ _ (eq_refl : ret _ s = (Ret _, s))); cbv beta).
  Ltac st A s := rewrite (bind_eq _ _ _ _ _ (eq_refl : ret [] s = (Ret _, s))); cbv beta;
    match goal with |- bind ?m _ _ = _ => let R := fresh in assert (R : m s = (Ret None, s)) by (unfold reduce_of; rewrite A; reflexivity);
      rewrite (bind_eq _ _ _ _ _ R); clear R end; cbv beta iota; unfold flatten_inst_rest; cbv zeta.
  Lemma raises_body n rec l i e s : hget (p_heap s) l = Some (OInst i) -> raises_at w k l i e ->
    flatten_obj_instance w k o n rec l s = (Exc e, s).
  Proof.
    intros G R.
    assert (G0 : get_obj l s = (Ret (OInst i), s)) by (unfold get_obj, bind, gets; rewrite G; reflexivity).
    unfold flatten_obj_instance. rewrite (bind_eq _ _ _ _ _ G0). cbv beta iota zeta. rewrite Op, Ou.
    destruct R as [hd L F|L A1 K T|L A1 A2 K|L A1 A2 A3 K|L A1 A2 A3 A4 K|L A1 A2 A3 A4 A5 K T]; rewrite L.
    { unfold call_handler, bind. rewrite F. reflexivity. }
    { rewrite (bind_eq _ _ _ _ _ (eq_refl : ret [] s = (Ret _, s))). cbv beta.
      unfold reduce_of. rewrite A1. unfold bind, catch, lift. rewrite K, T. reflexivity. }
    - st A1 s. rewrite A2. unfold bind, lift. rewrite K. reflexivity.
    - st A1 s. rewrite A2, A3. cbn [andb negb]. sk s. unfold bind, lift. rewrite K. reflexivity.
    - st A1 s. rewrite A2, A3, A4. cbn [andb negb]. sk s. unfold bind, lift. rewrite K. reflexivity.
    - st A1 s. rewrite A2, A3, A4, A5. cbn [andb negb]. sk s. unfold bind, lift, catch. rewrite K, T. reflexivity.
  Qed.
  Lemma raises_inner n l i e s : hget (p_heap s) l = Some (OInst i) -> raises_at w k l i e ->
    ~ In (VLoc l) (p_objs s) -> (0 <= p_depth s)%Z ->
    if is_Exception e
    then exists j s', f e = Ret j /\ pickle w k o (S n) false (VLoc l) s = (Ret j, s') /\ p_heap s' = p_heap s /\ p_depth s' = p_depth s
    else exists s', pickle w k o (S n) false (VLoc l) s = (Exc e, s').
  Proof.
    intros G R N D. unfold pickle, pflatten. rewrite Os.
    pose proof (level_eval w k o f Of Hf Ou Om Od n l i s (Exc e) G N D) as L.
    specialize (L (raises_body n (flatten w k o n) l i e (PStep.numbered (VLoc l) (deeper s)) G R) ltac:(discriminate)).
    cbv beta iota in L. unfold bind, ret. cbv beta iota. destruct (is_Exception e).
    - destruct L as (j & Ej & L). exists j. rewrite L. eexists. split; [exact Ej|]. split; [reflexivity|]. split; reflexivity.
    - destruct L as (s' & L). rewrite L. eauto.
  Qed.
End raises.
