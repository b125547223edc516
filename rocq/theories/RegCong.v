(** Decoding asks the registry only about the classes that the document names (C73). *)
From Verif Require Import PyStr Tags Json JsonText B64 B85 Base Heap Registry LoadClass Unpickler UGen RestoreProofs SpecNames CongProofs NameProofs SpecScope.
Open Scope nat_scope.
Open Scope monad_scope.

Section classes.
  Variable CL : list (pystr * val).
  (** From states with these classes both computations do the same and keep the classes. *)
  Definition dsim {A} (m m' : MU A) : Prop := forall s, u_classes s = CL -> m' s = m s /\ u_classes (snd (m s)) = CL.
  Definition keep {A} (m : MU A) : Prop := dsim m m.
  Lemma d_ret A (a : A) : keep (ret a). Proof. intros s H. split; auto. Qed.
  Lemma d_raise A e : keep (raise e : MU A). Proof. intros s H. split; auto. Qed.
  Lemma d_oof A : keep (oof : MU A). Proof. intros s H. split; auto. Qed.
  Lemma d_lift A (r : res A) : keep (lift r). Proof. intros s H. split; auto. Qed.
  Lemma d_gets A (f : ust -> A) : keep (gets f). Proof. intros s H. split; auto. Qed.
  Lemma d_modify f : (forall s, u_classes (f s) = u_classes s) -> keep (modify f).
  Proof. intros E s H. split; auto. cbn. rewrite E. auto. Qed.
  Lemma d_bind A B (m m' : MU A) (f f' : A -> MU B) :
    dsim m m' -> (forall a s s', m s = (Ret a, s') -> dsim (f a) (f' a)) -> dsim (bind m f) (bind m' f').
  Proof.
    intros H F s E. unfold bind. destruct (H s E) as [-> E1]. destruct (m s) as [[a|e|] s1] eqn:R; auto. eapply F; eauto.
  Qed.
  Lemma d_catch A (m m' : MU A) p h h' :
    dsim m m' -> (forall e, dsim (h e) (h' e)) -> dsim (catch m p h) (catch m' p h').
  Proof.
    intros H F s E. unfold catch. destruct (H s E) as [-> E1]. destruct (m s) as [[a|e|] s1] eqn:R; auto. destruct (p e); auto. apply F; auto.
  Qed.
  Lemma d_mapM A B (f f' : A -> MU B) l : (forall x, In x l -> dsim (f x) (f' x)) -> dsim (mapM f l) (mapM f' l).
  Proof.
    induction l as [|x l IH]; intros H; simpl; [apply d_ret|].
    apply d_bind; [apply H; left; auto|]. intros a s s' _. apply d_bind; [apply IH; intros; apply H; right; auto|].
    intros. apply d_ret.
  Qed.
  Lemma d_foldM A B (f f' : B -> A -> MU B) l : (forall b x, In x l -> dsim (f b x) (f' b x)) ->
    forall b, dsim (foldM f l b) (foldM f' l b).
  Proof.
    induction l as [|x l IH]; intros H b; simpl; [apply d_ret|].
    apply d_bind; [apply H; left; auto|]. intros a s s' _. apply IH. intros; apply H; right; auto.
  Qed.
  Lemma keep_d A (m : MU A) : keep m -> dsim m m. Proof. auto. Qed.

  Ltac k1 :=
    match goal with
    | |- keep _ => unfold keep
    | |- dsim (ret _) _ => apply d_ret
    | |- dsim (raise _) _ => apply d_raise
    | |- dsim oof _ => apply d_oof
    | |- dsim (lift _) _ => apply d_lift
    | |- dsim (gets _) _ => apply d_gets
    | |- dsim (modify _) _ => apply d_modify; intros; reflexivity
    | |- dsim (bind _ _) (bind _ _) => apply d_bind; [|intros ? ? ? ?]
    | |- dsim (catch _ _ _) (catch _ _ _) => apply d_catch; [|intros ?]
    | |- dsim (foldM _ _ _) _ => apply d_foldM; intros ? ? ?
    | |- dsim (mapM _ _) _ => apply d_mapM; intros ? ?
    | |- dsim (match ?x with _ => _ end) (match ?x with _ => _ end) => destruct x eqn:?
    | |- dsim (let _ := _ in _) _ => cbv zeta
    | |- dsim ?a ?b => constr_eq a b; solve [auto 1 with kp nocore]
    end.
  Ltac kk := repeat k1.
  Create HintDb kp.

  Section leaves.
  Variables (w : world) (o : uopts).
  Lemma k_log e : dsim (log e) (log e). Proof. unfold log. kk. Qed.
  Hint Resolve k_log : kp.
  Lemma k_raised A e : dsim (@raised A e) (raised e). Proof. unfold raised. kk. Qed.
  Hint Resolve k_raised : kp.
  Lemma k_alloc ob : dsim (alloc ob) (alloc ob). Proof. intros s H. split; auto. Qed.
  Hint Resolve k_alloc : kp.
  Lemma k_raw j : dsim (raw j) (raw j). Proof. intros s H. split; auto. unfold raw. destruct (alloc_json j (u_heap s)). exact H. Qed.
  Hint Resolve k_raw : kp.
  Lemma k_set_obj l ob : dsim (set_obj l ob) (set_obj l ob). Proof. unfold set_obj. kk. Qed.
  Hint Resolve k_set_obj : kp.
  Lemma k_umkref v : dsim (umkref v) (umkref v). Proof. intros s H. split; auto. unfold umkref. destruct (idx_get v (u_idx s)); exact H. Qed.
  Hint Resolve k_umkref : kp.
  Lemma k_new_proxy : dsim new_proxy new_proxy. Proof. intros s H. split; auto. Qed.
  Hint Resolve k_new_proxy : kp.
  Lemma k_swapref p v : dsim (swapref p v) (swapref p v). Proof. intros s H. split; auto. unfold swapref. destruct (idx_get p (u_idx s)); exact H. Qed.
  Hint Resolve k_swapref : kp.
  Lemma k_loadclass j : dsim (u_loadclass w j) (u_loadclass w j). Proof. unfold u_loadclass. kk. Qed.
  Hint Resolve k_loadclass : kp.
  Lemma k_get_uobj l : dsim (get_uobj l) (get_uobj l). Proof. unfold get_uobj. kk. Qed.
  Hint Resolve k_get_uobj : kp.
  Lemma k_proxy_reset p v : dsim (proxy_reset p v) (proxy_reset p v). Proof. unfold proxy_reset. kk. Qed.
  Hint Resolve k_proxy_reset : kp.
  Lemma k_fresh_inst c r : dsim (fresh_inst w c r) (fresh_inst w c r). Proof. unfold fresh_inst. kk. Qed.
  Hint Resolve k_fresh_inst : kp.
  Lemma k_run_cres r rc : dsim (run_cres w r rc) (run_cres w r rc). Proof. unfold run_cres. kk. Qed.
  Hint Resolve k_run_cres : kp.
  Lemma k_do_new c a kw : dsim (do_new w c a kw) (do_new w c a kw). Proof. unfold do_new. kk. Qed.
  Hint Resolve k_do_new : kp.
  Lemma k_do_call f a : dsim (do_call w f a) (do_call w f a). Proof. unfold do_call. kk. Qed.
  Hint Resolve k_do_call : kp.
  Lemma k_u_truthy v : dsim (u_truthy w v) (u_truthy w v). Proof. unfold u_truthy. kk. Qed.
  Hint Resolve k_u_truthy : kp.
  Lemma k_u_iter v : dsim (u_iter w v) (u_iter w v). Proof. unfold u_iter. kk. Qed.
  Hint Resolve k_u_iter : kp.
  Lemma k_set_attr v a x : dsim (set_attr w v a x) (set_attr w v a x). Proof. unfold set_attr. kk. Qed.
  Hint Resolve k_set_attr : kp.
  Lemma k_object_setattr v a x : dsim (object_setattr w v a x) (object_setattr w v a x). Proof. unfold object_setattr. kk. Qed.
  Hint Resolve k_object_setattr : kp.
  Lemma k_add_swap x : dsim (add_swap x) (add_swap x). Proof. unfold add_swap. kk. Qed.
  Hint Resolve k_add_swap : kp.
  Lemma k_base64 ob : dsim (restore_base64 ob) (restore_base64 ob). Proof. unfold restore_base64. kk. Qed.
  Hint Resolve k_base64 : kp.
  Lemma k_base85 ob : dsim (restore_base85 ob) (restore_base85 ob). Proof. unfold restore_base85. kk. Qed.
  Hint Resolve k_base85 : kp.
  Lemma k_bytearray ob : dsim (restore_bytearray ob) (restore_bytearray ob). Proof. unfold restore_bytearray. kk. Qed.
  Hint Resolve k_bytearray : kp.
  Lemma k_id ob : dsim (restore_id ob) (restore_id ob). Proof. unfold restore_id. kk. Qed.
  Hint Resolve k_id : kp.
  Lemma k_type ob : dsim (restore_type w ob) (restore_type w ob). Proof. unfold restore_type. kk. Qed.
  Hint Resolve k_type : kp.
  Lemma k_module ob : dsim (restore_module w ob) (restore_module w ob). Proof. unfold restore_module. kk. Qed.
  Hint Resolve k_module : kp.
  Lemma k_repr_safe ob : dsim (restore_repr_safe w ob) (restore_repr_safe w ob). Proof. unfold restore_repr_safe. kk. Qed.
  Hint Resolve k_repr_safe : kp.
  Lemma k_repr ob : dsim (restore_repr w ob) (restore_repr w ob). Proof. unfold restore_repr. kk. Qed.
  Hint Resolve k_repr : kp.
  Lemma k_function ob : dsim (restore_function w ob) (restore_function w ob). Proof. unfold restore_function. kk. Qed.
  Hint Resolve k_function : kp.
  Lemma k_process_missing n : dsim (process_missing o n) (process_missing o n). Proof. unfold process_missing. kk. Qed.
  Hint Resolve k_process_missing : kp.
  Lemma k_run_swap x : dsim (run_swap w x) (run_swap w x). Proof. unfold run_swap. kk. Qed.
  Hint Resolve k_run_swap : kp.
  Lemma k_swap_proxies  : dsim (swap_proxies w) (swap_proxies w). Proof. unfold swap_proxies. kk. Qed.
  Hint Resolve k_swap_proxies : kp.
  Lemma k_dict_assign l key v : dsim (dict_assign w l key v) (dict_assign w l key v). Proof. unfold dict_assign. kk. Qed.
  Hint Resolve k_dict_assign : kp.
  Lemma k_swap_if_proxy t key v m : dsim (swap_if_proxy t key v m) (swap_if_proxy t key v m). Proof. unfold swap_if_proxy. kk. Qed.
  Hint Resolve k_swap_if_proxy : kp.
  Lemma k_inst_setitem l i key v : dsim (inst_setitem w l i key v) (inst_setitem w l i key v). Proof. unfold inst_setitem. kk. Qed.
  Hint Resolve k_inst_setitem : kp.
  Lemma k_set_plain_attr iv key v : dsim (set_plain_attr w o iv key v) (set_plain_attr w o iv key v). Proof. unfold set_plain_attr. kk. Qed.
  Hint Resolve k_set_plain_attr : kp.
  Lemma k_set_one iv key v : dsim (set_one w o iv key v) (set_one w o iv key v). Proof. unfold set_one. kk. Qed.
  Hint Resolve k_set_one : kp.
  Lemma k_from_vals d iv : dsim (restore_from_vals w o d iv) (restore_from_vals w o d iv). Proof. unfold restore_from_vals. kk. Qed.
  Hint Resolve k_from_vals : kp.
  Lemma k_call_setstate iv i l st : dsim (call_setstate w iv i l st) (call_setstate w iv i l st). Proof. unfold call_setstate. kk. Qed.
  Hint Resolve k_call_setstate : kp.
  Lemma k_default_state iv st : dsim (default_state w o iv st) (default_state w o iv st). Proof. unfold default_state. kk. Qed.
  Hint Resolve k_default_state : kp.
  Lemma k_do_append t v : dsim (do_append t v) (do_append t v). Proof. unfold do_append. kk. Qed.
  Hint Resolve k_do_append : kp.
  Lemma k_do_add t v : dsim (do_add w t v) (do_add w t v). Proof. unfold do_add. kk. Qed.
  Hint Resolve k_do_add : kp.
  Lemma k_getargs ob : dsim (getargs w ob) (getargs w ob). Proof. unfold getargs. kk. Qed.
  Hint Resolve k_getargs : kp.
  Lemma k_new_attempt c f a kw : dsim (new_attempt w c f a kw) (new_attempt w c f a kw). Proof. unfold new_attempt. kk. Qed.
  Hint Resolve k_new_attempt : kp.
  Lemma k_fail_reduce p : dsim (fail_reduce p) (fail_reduce p). Proof. unfold fail_reduce. kk. Qed.
  Hint Resolve k_fail_reduce : kp.
  Lemma k_reduce_make f a : dsim (reduce_make w f a) (reduce_make w f a). Proof. unfold reduce_make. kk. Qed.
  Hint Resolve k_reduce_make : kp.
  Lemma k_setattr_items t d : dsim (setattr_items w t d) (setattr_items w t d). Proof. unfold setattr_items. kk. Qed.
  Hint Resolve k_setattr_items : kp.
  Lemma k_reduce_state3 a b : dsim (reduce_state3 w a b) (reduce_state3 w a b). Proof. unfold reduce_state3. kk. Qed.
  Hint Resolve k_reduce_state3 : kp.
  Lemma k_reduce_state2 a b : dsim (reduce_state2 w a b) (reduce_state2 w a b). Proof. unfold reduce_state2. kk. Qed.
  Hint Resolve k_reduce_state2 : kp.
  Lemma k_reduce_state a b c : dsim (reduce_state w a b c) (reduce_state w a b c). Proof. unfold reduce_state. kk. Qed.
  Hint Resolve k_reduce_state : kp.
  Lemma k_listitems a b : dsim (reduce_listitems w a b) (reduce_listitems w a b). Proof. unfold reduce_listitems. kk. Qed.
  Hint Resolve k_listitems : kp.
  Lemma k_dictitems a b : dsim (reduce_dictitems w a b) (reduce_dictitems w a b). Proof. unfold reduce_dictitems. kk. Qed.
  Hint Resolve k_dictitems : kp.
  End leaves.
  Hint Resolve k_log k_raised k_alloc k_raw k_set_obj k_umkref k_new_proxy k_swapref k_loadclass k_get_uobj k_proxy_reset k_fresh_inst k_run_cres k_do_new k_do_call k_u_truthy k_u_iter k_set_attr k_object_setattr k_add_swap k_base64 k_base85 k_bytearray k_id k_type k_module k_repr_safe k_repr k_function k_process_missing k_run_swap k_swap_proxies k_dict_assign k_swap_if_proxy k_inst_setitem k_set_plain_attr k_set_one k_from_vals k_call_setstate k_default_state k_do_append k_do_add k_getargs k_new_attempt k_fail_reduce k_reduce_make k_setattr_items k_reduce_state3 k_reduce_state2 k_reduce_state k_listitems k_dictitems : kp.
Section cong.
  Ltac ee := kk.
  Variable w : world.
  Variable o : uopts.
  Hypothesis handlers_in : forall h ctx ob, script_in part (JObj ob) (w_hrest w h ctx ob).
  Variables r1 r2 : json -> MU val.
  Variable top : json.
  Hypothesis rec_same : forall j, part j top -> dsim (r1 j) (r2 j).

  Lemma c_restore_list j : (forall l x, jiter j = Ret l -> In x l -> part x top) -> dsim (restore_list r1 j) (restore_list r2 j).
  Proof.
    intros H. unfold restore_list. ee. apply rec_same. eapply H; eauto. eapply l_ret; eauto.
  Qed.
  Lemma c_iterator ob : JObj ob = top -> dsim (restore_iterator r1 ob) (restore_iterator r2 ob).
  Proof.
    intros T. unfold restore_iterator. ee. apply c_restore_list. intros l x E I. eapply jfield_part; eauto.
  Qed.
  Lemma c_set ob : JObj ob = top -> dsim (restore_set w r1 ob) (restore_set w r2 ob).
  Proof.
    intros T. unfold restore_set. ee. apply rec_same. eapply jfield_part; eauto. eapply l_ret; eauto.
  Qed.
  Lemma c_tuple ob : JObj ob = top -> dsim (restore_tuple r1 ob) (restore_tuple r2 ob).
  Proof.
    intros T. unfold restore_tuple. ee. apply rec_same. eapply jfield_part; eauto. eapply l_ret; eauto.
  Qed.
  Lemma c_pickled key : (prefixb JSON_KEY key = true -> forall j, loads (skipn (length JSON_KEY) key) = Some j -> part j top) ->
    dsim (restore_pickled_key r1 key) (restore_pickled_key r2 key).
  Proof. intros H. unfold restore_pickled_key. ee. apply rec_same; auto. Qed.
  Lemma c_key key : (prefixb JSON_KEY key = true -> forall j, loads (skipn (length JSON_KEY) key) = Some j -> part j top) ->
    dsim (restore_key o r1 key) (restore_key o r2 key).
  Proof. intros H. unfold restore_key. ee. apply c_pickled; auto. Qed.

  Lemma c_dict ob : JObj ob = top -> dsim (restore_dict w o r1 ob) (restore_dict w o r2 ob).
  Proof.
    intros T. pose proof (within_self top ob T) as PT. unfold restore_dict. ee.
    all: try (apply rec_same; eapply within_snd; eauto; fail).
    apply c_pickled. intros. eapply within_key; eauto.
  Qed.
  Lemma c_from_dict ob iv : within top ob -> dsim (restore_from_dict w o r1 ob iv) (restore_from_dict w o r2 ob iv).
  Proof.
    intros PT. unfold restore_from_dict. ee.
    - apply c_key. intros. eapply within_key; eauto.
    - apply rec_same. eapply within_snd; eauto.
  Qed.
  Lemma c_state ob iv : within top ob -> shas STATE ob = true -> dsim (restore_state w o r1 ob iv) (restore_state w o r2 ob iv).
  Proof.
    intros PT HS. unfold restore_state. ee.
    apply rec_same. unfold jfield, shas in *. destruct (sget STATE ob) eqn:E; [|discriminate].
    eapply within_field; eauto. apply sget_In; eauto.
  Qed.
  Lemma c_instvars ob iv : within top ob ->
    dsim (restore_object_instance_variables w o r1 ob iv) (restore_object_instance_variables w o r2 ob iv).
  Proof.
    intros PT. unfold restore_object_instance_variables. ee; auto using c_from_dict.
    - apply rec_same. eapply within_iter; eauto. apply sget_In; eauto. eapply l_ret; eauto.
    - apply rec_same. eapply within_iter; eauto. apply sget_In; eauto. eapply l_ret; eauto.
    - apply c_state; auto. unfold shas. match goal with H : sget STATE ob = _ |- _ => rewrite H end. reflexivity.
  Qed.
  Lemma c_loadfactory ob : within top ob -> dsim (loadfactory r1 ob) (loadfactory r2 ob).
  Proof.
    intros PT. unfold loadfactory.
    destruct (sget DEFAULT_FACTORY ob) as [f|] eqn:E1;
      [|destruct (sget (u "default_factory") ob) as [f|] eqn:E2; [|ee]].
    - assert (part f top) by (eapply within_field; eauto; apply sget_In; eauto). ee; auto.
    - assert (part f top) by (eapply within_field; eauto; apply sget_In; eauto). ee; auto.
  Qed.
  Lemma c_args j : (jtruthy j = true -> part j top) -> dsim (restore_args w r1 j) (restore_args w r2 j).
  Proof. intros H. unfold restore_args. ee. apply rec_same; auto. Qed.
  Lemma c_kwargs j : (jtruthy j = true -> part j top) -> dsim (restore_kwargs w r1 j) (restore_kwargs w r2 j).
  Proof. intros H. unfold restore_kwargs. ee. apply rec_same; auto. Qed.
  Lemma c_object_instance ob cv cn : JObj ob = top ->
    dsim (restore_object_instance w o r1 ob cv cn) (restore_object_instance w o r2 ob cv cn).
  Proof.
    intros T. pose proof (within_self top ob T) as PT. unfold restore_object_instance.
    apply d_bind; [solve [kk]|]. intros proxy ? ? _.
    apply d_bind; [solve [kk]|]. intros _ ? ? _.
    apply d_bind; [apply c_loadfactory; auto|]. intros [f ob'] s1 s2 LF.
    assert (PT' : within top ob') by (intros x I; apply PT; eapply loadfactory_part; eauto).
    apply d_bind; [solve [kk]|]. intros [aj kj] s3 s4 HA. cbn [fst snd].
    assert (SA : (jtruthy aj = true -> part aj top) /\ (jtruthy kj = true -> part kj top)).
    { destruct (sget NEWARGSEX ob') as [q|] eqn:E.
      - destruct (bind_ret_inv _ _ _ _ _ HA) as ([a b] & s5 & H1 & H2). apply l_ret in H1.
        unfold ret in H2. inversion H2; subst.
        unfold junpack2 in H1. destruct (jiter q) as [[|x [|y [|]]]|e|] eqn:J; inversion H1; subst.
        split; intros _.
        + refine (within_iter _ ob' NEWARGSEX q [aj; kj] aj PT' (sget_In _ _ _ E) J _). left; auto.
        + refine (within_iter _ ob' NEWARGSEX q [aj; kj] kj PT' (sget_In _ _ _ E) J _). right; left; auto.
      - destruct (bind_ret_inv _ _ _ _ _ HA) as (a & s5 & H1 & H2). unfold ret in H2. inversion H2; subst.
        split; [|discriminate]. intros J. eapply getargs_part; eauto. }
    destruct SA as [SA SK].
    apply d_bind; [apply c_args; auto|]. intros args s5 s6 RA.
    apply d_bind; [apply c_kwargs; auto|]. intros kw s7 s8 RK.
    ee. apply c_instvars; auto.
  Qed.
  Lemma c_hscript h sc : script_in part top sc -> dsim (run_hscript w r1 h sc) (run_hscript w r2 h sc).
  Proof.
    induction sc as [r|e|j kt IH]; cbn [run_hscript script_in]; intros H; [solve [kk]|solve [kk]|].
    destruct H as [H1 H2]. apply d_bind; [auto|]. intros. apply IH, H2.
  Qed.
  Lemma c_object ob : JObj ob = top -> dsim (restore_object w o r1 ob) (restore_object w o r2 ob).
  Proof.
    intros T. unfold restore_object. cbv zeta. apply d_bind; [solve [kk]|]. intros cv s s' _.
    destruct (jfield OBJECT ob) as [| | | |cn| |]; try solve [kk].
    destruct (match cv with VType c => _ | _ => _ end) as [h|].
    - ee. apply c_hscript. rewrite <- T. apply handlers_in.
    - destruct cv; ee; auto using c_object_instance.
  Qed.
  Lemma c_reduce ob : JObj ob = top -> dsim (restore_reduce w r1 ob) (restore_reduce w r2 ob).
  Proof.
    intros T. unfold restore_reduce. ee. apply rec_same. eapply jfield_part; eauto. eapply l_ret; eauto.
  Qed.
  Lemma c_step_top j0 : j0 = top -> dsim (restore_step w o r1 j0) (restore_step w o r2 j0).
  Proof.
    intros T. unfold restore_step. destruct j0 as [| | | | |l|ob]; try solve [kk].
    - apply c_restore_list. intros l' x E I. rewrite <- T. inversion E; subst. apply part_item; auto.
    - repeat match goal with |- dsim (if ?b then _ else _) _ => case_eq b; intros ? end;
        auto using c_tuple, c_set, c_iterator, c_object, c_reduce, c_dict; kk.
  Qed.
End cong.
End classes.

Section other.
  Variables (w : world) (rg : registry) (o : uopts) (j : json) (CL : list (pystr * val)).
  Notation W := (with_registry w rg).
  Hypothesis H : part_handlers w.
  Hypothesis A : forall s v, value_in OBJECT j (JStr s) -> loadclass w CL (JStr s) = Ret v ->
    match v with
    | VType c => reg_lookup (w_sub w) rg c s = reg_lookup (w_sub w) (w_reg w) c s
    | _ => reg_get_name rg s = reg_get_name (w_reg w) s
    end.

  Lemma bind_at {B C} (m : MU B) (f g : B -> MU C) s : (forall a s1, m s = (Ret a, s1) -> f a s1 = g a s1) -> bind m f s = bind m g s.
  Proof. intros F. unfold bind. destruct (m s) as [[a|e|] s1] eqn:E; auto. Qed.
  Lemma r_object rec ob s : object_in j ob -> u_classes s = CL -> restore_object W o rec ob s = restore_object w o rec ob s.
  Proof.
    intros I E. unfold restore_object. cbv zeta. change (u_loadclass W) with (u_loadclass w).
    apply bind_at. intros cv s1 L.
    destruct (jfield OBJECT ob) as [| | | |cn| |] eqn:J; [reflexivity|reflexivity|reflexivity|reflexivity| |reflexivity|reflexivity].
    assert (LC : loadclass w CL (JStr cn) = Ret cv).
    { unfold u_loadclass in L. destruct (bind_ret_inv _ _ _ _ _ L) as (c & s2 & L1 & L2). unfold gets in L1. inversion L1; subst c s2.
      destruct (bind_ret_inv _ _ _ _ _ L2) as (t & s3 & _ & L3). apply l_ret in L3. rewrite E in L3. exact L3. }
    pose proof (A cn cv (ex_intro _ ob (conj I (jfield_str_In _ _ _ J))) LC) as AG.
    change (w_sub W) with (w_sub w). change (w_reg W) with rg.
    replace (match cv with VType c => reg_lookup (w_sub w) rg c cn | _ => reg_get_name rg cn end)
      with (match cv with VType c => reg_lookup (w_sub w) (w_reg w) c cn | _ => reg_get_name (w_reg w) cn end).
    2: { destruct cv; auto. }
    destruct (match cv with VType c => _ | _ => _ end); [reflexivity|]. destruct cv; reflexivity.
  Qed.
  Lemma r_step rec d s : d = j \/ part d j -> u_classes s = CL -> restore_step W o rec d s = restore_step w o rec d s.
  Proof.
    intros I E. unfold restore_step. destruct d as [| | | | |l|ob]; [reflexivity|reflexivity|reflexivity|reflexivity|reflexivity|reflexivity|].
    assert (I' : object_in j ob) by (destruct I; [left|right]; auto).
    repeat match goal with |- (if ?b then _ else _) _ = _ => destruct b end;
      match goal with |- restore_object _ _ _ _ _ = _ => apply r_object; auto | _ => reflexivity end.
  Qed.
  Lemma r_restore : forall n d, d = j \/ part d j -> dsim CL (restore w o n d) (restore W o n d).
  Proof.
    induction n as [|n IH]; intros d I; [apply d_oof|]. cbn [restore]. intros s E.
    rewrite (r_step (restore W o n) d s I E). revert s E. apply c_step_top with (top := d); auto.
    intros d' P. apply IH. right. destruct I as [->|I]; auto. eapply part_trans; eauto.
  Qed.
End other.

Lemma decode_scope w rg o n cl text j s : part_handlers w -> loads text = Some j ->
  (forall s v, value_in OBJECT j (JStr s) -> loadclass w (classes_of w cl) (JStr s) = Ret v ->
    match v with
    | VType c => reg_lookup (w_sub w) rg c s = reg_lookup (w_sub w) (w_reg w) c s
    | _ => reg_get_name rg s = reg_get_name (w_reg w) s
    end) ->
  decode (with_registry w rg) o n cl text s = decode w o n cl text s.
Proof.
  intros H L A. unfold decode. rewrite L. unfold unpickle.
  assert (X : forall t, u_classes t = classes_of w cl -> restore (with_registry w rg) o n j t = restore w o n j t).
  { intros t E. apply (r_restore w rg o j (classes_of w cl) H A n j (or_introl eq_refl) t E). }
  change (swap_proxies (with_registry w rg)) with (swap_proxies w). unfold bind, u_reset, modify, ret.
  destruct cl as [c|]; cbn [us_classes u_classes u_heap u_objs u_idx u_prox u_swaps u_log]; rewrite X; reflexivity.
Qed.
