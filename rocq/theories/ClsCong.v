(** Classes passed to decode matter only for the names in the document (C78). *)
From Verif Require Import PyStr Tags Json JsonText B64 B85 Base Heap Registry LoadClass Unpickler UGen RestoreProofs SpecNames CongProofs NameProofs.
Open Scope nat_scope.
Open Scope monad_scope.

Section classes.
  Variables CL CL' : list (pystr * val).
  (** States that differ only in the table of classes, which is one of these two. *)
  Definition alike (s s' : ust) : Prop := u_classes s = CL /\ s' = us_classes CL' s.
  Definition dsim {A} (m m' : MU A) : Prop := forall s s', alike s s' -> fst (m' s') = fst (m s) /\ alike (snd (m s)) (snd (m' s')).
  Lemma d_ret A (a : A) : dsim (ret a) (ret a). Proof. intros s s' H. split; auto. Qed.
  Lemma d_raise A e : dsim (raise e : MU A) (raise e). Proof. intros s s' H. split; auto. Qed.
  Lemma d_oof A : dsim (oof : MU A) oof. Proof. intros s s' H. split; auto. Qed.
  Lemma d_lift A (r : res A) : dsim (lift r) (lift r). Proof. intros s s' H. split; auto. Qed.
  Lemma d_gets A (f : ust -> A) : (forall s, f (us_classes CL' s) = f s) -> dsim (gets f) (gets f).
  Proof. intros E s s' H. split; auto. destruct H as [_ ->]. cbn. rewrite E. reflexivity. Qed.
  Lemma d_modify f : (forall s, f (us_classes CL' s) = us_classes CL' (f s)) -> (forall s, u_classes (f s) = u_classes s) -> dsim (modify f) (modify f).
  Proof. intros E F s s' [C ->]. split; auto. split; cbn; [rewrite F; auto|apply E]. Qed.
  Lemma d_bind A B (m m' : MU A) (f f' : A -> MU B) :
    dsim m m' -> (forall a s s', m s = (Ret a, s') -> dsim (f a) (f' a)) -> dsim (bind m f) (bind m' f').
  Proof.
    intros H F s s' E. unfold bind. destruct (H s s' E) as [E1 E2]. destruct (m s) as [r s1] eqn:R, (m' s') as [r' s1']. cbn [fst snd] in *. subst r'.
    destruct r as [a|e|]; auto. eapply F; eauto.
  Qed.
  Lemma d_catch A (m m' : MU A) p h h' :
    dsim m m' -> (forall e, dsim (h e) (h' e)) -> dsim (catch m p h) (catch m' p h').
  Proof.
    intros H F s s' E. unfold catch. destruct (H s s' E) as [E1 E2]. destruct (m s) as [r s1] eqn:R, (m' s') as [r' s1']. cbn [fst snd] in *. subst r'.
    destruct r as [a|e|]; auto. destruct (p e); auto. apply F; auto.
  Qed.
  Lemma d_mapM A B (f f' : A -> MU B) l : (forall x, In x l -> dsim (f x) (f' x)) -> dsim (mapM f l) (mapM f' l).
  Proof.
    induction l as [|x l IH]; intros H; simpl; [apply d_ret|].
    apply d_bind; [apply H; left; auto|]. intros a s s' _. apply d_bind; [apply IH; intros; apply H; right; auto|].
    intros. apply d_ret.
  Qed.
  Lemma d_foldM A B (f f' : B -> A -> MU B) l : (forall b x, In x l -> dsim (f b x) (f' b x)) ->
    forall b, dsim (foldM f l b) (foldM f' l b).
  Proof.
    induction l as [|x l IH]; intros H b; simpl; [apply d_ret|].
    apply d_bind; [apply H; left; auto|]. intros a s s' _. apply IH. intros; apply H; right; auto.
  Qed.

  Ltac k1 :=
    match goal with
    | |- dsim (ret _) _ => apply d_ret
    | |- dsim (raise _) _ => apply d_raise
    | |- dsim oof _ => apply d_oof
    | |- dsim (lift _) _ => apply d_lift
    | |- dsim (gets _) _ => apply d_gets; intros; reflexivity
    | |- dsim (modify _) _ => apply d_modify; intros; reflexivity
    | |- dsim (bind _ _) (bind _ _) => apply d_bind; [|intros ? ? ? ?]
    | |- dsim (catch _ _ _) (catch _ _ _) => apply d_catch; [|intros ?]
    | |- dsim (foldM _ _ _) _ => apply d_foldM; intros ? ? ?
    | |- dsim (mapM _ _) _ => apply d_mapM; intros ? ?
    | |- dsim (match ?x with _ => _ end) (match ?x with _ => _ end) => destruct x eqn:?
    | |- dsim (let _ := _ in _) _ => cbv zeta
    | |- dsim ?a ?b => constr_eq a b; solve [auto 1 with kp nocore]
    end.
  Ltac kk := repeat k1.
  Create HintDb kp.

  Section leaves.
  Variables (w : world) (o : uopts).
  Lemma k_log e : dsim (log e) (log e). Proof. unfold log. kk. Qed.
  Hint Resolve k_log : kp.
  Lemma k_raised A e : dsim (@raised A e) (raised e). Proof. unfold raised. kk. Qed.
  Hint Resolve k_raised : kp.
  Lemma k_alloc ob : dsim (alloc ob) (alloc ob). Proof. intros s s' [E ->]. split; [reflexivity|]. split; auto. Qed.
  Hint Resolve k_alloc : kp.
  Lemma k_raw j : dsim (raw j) (raw j). Proof. intros s s' [E ->]. unfold raw. cbn. destruct (alloc_json j (u_heap s)). split; [reflexivity|]. split; auto. Qed.
  Hint Resolve k_raw : kp.
  Lemma k_set_obj l ob : dsim (set_obj l ob) (set_obj l ob). Proof. unfold set_obj. kk. Qed.
  Hint Resolve k_set_obj : kp.
  Lemma k_umkref v : dsim (umkref v) (umkref v). Proof. intros s s' [E ->]. unfold umkref. cbn. destruct (idx_get v (u_idx s)); (split; [reflexivity|]; split; auto). Qed.
  Hint Resolve k_umkref : kp.
  Lemma k_new_proxy : dsim new_proxy new_proxy. Proof. intros s s' [E ->]. split; [reflexivity|]. split; auto. Qed.
  Hint Resolve k_new_proxy : kp.
  Lemma k_swapref p v : dsim (swapref p v) (swapref p v). Proof. intros s s' [E ->]. unfold swapref. cbn. destruct (idx_get p (u_idx s)); (split; [reflexivity|]; split; auto). Qed.
  Hint Resolve k_swapref : kp.
  Lemma k_get_uobj l : dsim (get_uobj l) (get_uobj l). Proof. unfold get_uobj. kk. Qed.
  Hint Resolve k_get_uobj : kp.
  Lemma k_proxy_reset p v : dsim (proxy_reset p v) (proxy_reset p v). Proof. unfold proxy_reset. kk. Qed.
  Hint Resolve k_proxy_reset : kp.
  Lemma k_fresh_inst c r : dsim (fresh_inst w c r) (fresh_inst w c r). Proof. unfold fresh_inst. kk. Qed.
  Hint Resolve k_fresh_inst : kp.
  Lemma k_run_cres r rc : dsim (run_cres w r rc) (run_cres w r rc). Proof. unfold run_cres. kk. Qed.
  Hint Resolve k_run_cres : kp.
  Lemma k_do_new c a kw : dsim (do_new w c a kw) (do_new w c a kw). Proof. unfold do_new. kk. Qed.
  Hint Resolve k_do_new : kp.
  Lemma k_do_call f a : dsim (do_call w f a) (do_call w f a). Proof. unfold do_call. kk. Qed.
  Hint Resolve k_do_call : kp.
  Lemma k_u_truthy v : dsim (u_truthy w v) (u_truthy w v). Proof. unfold u_truthy. kk. Qed.
  Hint Resolve k_u_truthy : kp.
  Lemma k_u_iter v : dsim (u_iter w v) (u_iter w v). Proof. unfold u_iter. kk. Qed.
  Hint Resolve k_u_iter : kp.
  Lemma k_set_attr v a x : dsim (set_attr w v a x) (set_attr w v a x). Proof. unfold set_attr. kk. Qed.
  Hint Resolve k_set_attr : kp.
  Lemma k_object_setattr v a x : dsim (object_setattr w v a x) (object_setattr w v a x). Proof. unfold object_setattr. kk. Qed.
  Hint Resolve k_object_setattr : kp.
  Lemma k_add_swap x : dsim (add_swap x) (add_swap x). Proof. unfold add_swap. kk. Qed.
  Hint Resolve k_add_swap : kp.
  Lemma k_base64 ob : dsim (restore_base64 ob) (restore_base64 ob). Proof. unfold restore_base64. kk. Qed.
  Hint Resolve k_base64 : kp.
  Lemma k_base85 ob : dsim (restore_base85 ob) (restore_base85 ob). Proof. unfold restore_base85. kk. Qed.
  Hint Resolve k_base85 : kp.
  Lemma k_bytearray ob : dsim (restore_bytearray ob) (restore_bytearray ob). Proof. unfold restore_bytearray. kk. Qed.
  Hint Resolve k_bytearray : kp.
  Lemma k_id ob : dsim (restore_id ob) (restore_id ob). Proof. unfold restore_id. kk. Qed.
  Hint Resolve k_id : kp.
  Lemma k_module ob : dsim (restore_module w ob) (restore_module w ob). Proof. unfold restore_module. kk. Qed.
  Hint Resolve k_module : kp.
  Lemma k_repr_safe ob : dsim (restore_repr_safe w ob) (restore_repr_safe w ob). Proof. unfold restore_repr_safe. kk. Qed.
  Hint Resolve k_repr_safe : kp.
  Lemma k_repr ob : dsim (restore_repr w ob) (restore_repr w ob). Proof. unfold restore_repr. kk. Qed.
  Hint Resolve k_repr : kp.
  Lemma k_process_missing n : dsim (process_missing o n) (process_missing o n). Proof. unfold process_missing. kk. Qed.
  Hint Resolve k_process_missing : kp.
  Lemma k_run_swap x : dsim (run_swap w x) (run_swap w x). Proof. unfold run_swap. kk. Qed.
  Hint Resolve k_run_swap : kp.
  Lemma k_swap_proxies  : dsim (swap_proxies w) (swap_proxies w). Proof. unfold swap_proxies. kk. Qed.
  Hint Resolve k_swap_proxies : kp.
  Lemma k_dict_assign l key v : dsim (dict_assign w l key v) (dict_assign w l key v). Proof. unfold dict_assign. kk. Qed.
  Hint Resolve k_dict_assign : kp.
  Lemma k_swap_if_proxy t key v m : dsim (swap_if_proxy t key v m) (swap_if_proxy t key v m). Proof. unfold swap_if_proxy. kk. Qed.
  Hint Resolve k_swap_if_proxy : kp.
  Lemma k_inst_setitem l i key v : dsim (inst_setitem w l i key v) (inst_setitem w l i key v). Proof. unfold inst_setitem. kk. Qed.
  Hint Resolve k_inst_setitem : kp.
  Lemma k_set_plain_attr iv key v : dsim (set_plain_attr w o iv key v) (set_plain_attr w o iv key v). Proof. unfold set_plain_attr. kk. Qed.
  Hint Resolve k_set_plain_attr : kp.
  Lemma k_set_one iv key v : dsim (set_one w o iv key v) (set_one w o iv key v). Proof. unfold set_one. kk. Qed.
  Hint Resolve k_set_one : kp.
  Lemma k_from_vals d iv : dsim (restore_from_vals w o d iv) (restore_from_vals w o d iv). Proof. unfold restore_from_vals. kk. Qed.
  Hint Resolve k_from_vals : kp.
  Lemma k_call_setstate iv i l st : dsim (call_setstate w iv i l st) (call_setstate w iv i l st). Proof. unfold call_setstate. kk. Qed.
  Hint Resolve k_call_setstate : kp.
  Lemma k_default_state iv st : dsim (default_state w o iv st) (default_state w o iv st). Proof. unfold default_state. kk. Qed.
  Hint Resolve k_default_state : kp.
  Lemma k_do_append t v : dsim (do_append t v) (do_append t v). Proof. unfold do_append. kk. Qed.
  Hint Resolve k_do_append : kp.
  Lemma k_do_add t v : dsim (do_add w t v) (do_add w t v). Proof. unfold do_add. kk. Qed.
  Hint Resolve k_do_add : kp.
  Lemma k_new_attempt c f a kw : dsim (new_attempt w c f a kw) (new_attempt w c f a kw). Proof. unfold new_attempt. kk. Qed.
  Hint Resolve k_new_attempt : kp.
  Lemma k_fail_reduce p : dsim (fail_reduce p) (fail_reduce p). Proof. unfold fail_reduce. kk. Qed.
  Hint Resolve k_fail_reduce : kp.
  Lemma k_reduce_make f a : dsim (reduce_make w f a) (reduce_make w f a). Proof. unfold reduce_make. kk. Qed.
  Hint Resolve k_reduce_make : kp.
  Lemma k_setattr_items t d : dsim (setattr_items w t d) (setattr_items w t d). Proof. unfold setattr_items. kk. Qed.
  Hint Resolve k_setattr_items : kp.
  Lemma k_reduce_state3 a b : dsim (reduce_state3 w a b) (reduce_state3 w a b). Proof. unfold reduce_state3. kk. Qed.
  Hint Resolve k_reduce_state3 : kp.
  Lemma k_reduce_state2 a b : dsim (reduce_state2 w a b) (reduce_state2 w a b). Proof. unfold reduce_state2. kk. Qed.
  Hint Resolve k_reduce_state2 : kp.
  Lemma k_reduce_state a b c : dsim (reduce_state w a b c) (reduce_state w a b c). Proof. unfold reduce_state. kk. Qed.
  Hint Resolve k_reduce_state : kp.
  Lemma k_listitems a b : dsim (reduce_listitems w a b) (reduce_listitems w a b). Proof. unfold reduce_listitems. kk. Qed.
  Hint Resolve k_listitems : kp.
  Lemma k_dictitems a b : dsim (reduce_dictitems w a b) (reduce_dictitems w a b). Proof. unfold reduce_dictitems. kk. Qed.
  Hint Resolve k_dictitems : kp.
  End leaves.
  Hint Resolve k_log k_raised k_alloc k_raw k_set_obj k_umkref k_new_proxy k_swapref k_get_uobj k_proxy_reset k_fresh_inst k_run_cres k_do_new k_do_call k_u_truthy k_u_iter k_set_attr k_object_setattr k_add_swap k_base64 k_base85 k_bytearray k_id k_module k_repr_safe k_repr k_process_missing k_run_swap k_swap_proxies k_dict_assign k_swap_if_proxy k_inst_setitem k_set_plain_attr k_set_one k_from_vals k_call_setstate k_default_state k_do_append k_do_add k_new_attempt k_fail_reduce k_reduce_make k_setattr_items k_reduce_state3 k_reduce_state2 k_reduce_state k_listitems k_dictitems : kp.
Section cong.
  Ltac ee := kk.
  Variable w : world.
  Variable o : uopts.
  Hypothesis handlers_in : forall h ctx ob, script_in part (JObj ob) (w_hrest w h ctx ob).
  Variables r1 r2 : json -> MU val.
  Variable top : json.
  Hypothesis rec_same : forall j, part j top -> dsim (r1 j) (r2 j).

  Variable dj : json.
  Definition good (x : json) : Prop :=
    match x with JStr s => from_classes CL' s = from_classes CL s | JList _ | JObj _ => False | _ => True end.
  Hypothesis NM : forall ob t x, object_in dj ob -> dotted_tag t -> In (t, x) ob -> good x.
  Hypothesis TOP : top = dj \/ part top dj.
  Lemma c_loadclass x : good x -> dsim (u_loadclass w x) (u_loadclass w x).
  Proof.
    destruct x as [| | | |s| |]; cbn [good]; try contradiction; try (intros _ t t' [C ->]; split; [reflexivity|split; auto]).
    intros E. unfold u_loadclass. intros t t' [C ->]. unfold bind at 1, gets at 1. unfold bind at 3, gets at 1.
    unfold bind at 5, gets at 1. unfold bind at 7, gets at 1.
    cbn [us_classes u_classes]. rewrite C. cbn [loadclass]. unfold loadclass_str. rewrite E.
    refine (_ : fst (bind _ _ _) = fst (bind _ _ _) /\ _). generalize (conj C (eq_refl (us_classes CL' t))). fold (alike t (us_classes CL' t)). generalize (us_classes CL' t).
    generalize t. clear C t. change (dsim (log (EvLoad s) ;;; match from_classes CL s with None => log (EvImport s) | Some _ => ret tt end ;;;
      lift (loadclass_str w CL s)) (log (EvLoad s) ;;; match from_classes CL s with None => log (EvImport s) | Some _ => ret tt end ;;; lift (loadclass_str w CL s))). kk.
  Qed.
  Lemma top_good ob ob' t x : JObj ob = top -> incl ob' ob -> dotted_tag t -> sget t ob' = Some x -> good x.
  Proof.
    intros T I D G. apply (NM ob t x); auto; [|apply I; apply sget_In; auto]. unfold object_in. rewrite T. destruct TOP as [->|P]; auto.
  Qed.
  Lemma field_good ob t : JObj ob = top -> dotted_tag t -> shas t ob = true -> good (jfield t ob).
  Proof.
    intros T D S. unfold jfield, shas in *. destruct (sget t ob) as [x|] eqn:G; [|discriminate]. eapply top_good; eauto. intros y I; exact I.
  Qed.
  Lemma c_type ob : JObj ob = top -> shas TYPE_ ob = true -> dsim (restore_type w ob) (restore_type w ob).
  Proof. intros T S. unfold restore_type. ee. apply c_loadclass. apply field_good; auto. right; left; reflexivity. Qed.
  Lemma c_function ob : JObj ob = top -> shas FUNCTION ob = true -> dsim (restore_function w ob) (restore_function w ob).
  Proof. intros T S. unfold restore_function. apply c_loadclass. apply field_good; auto. right; right; reflexivity. Qed.
  Lemma c_getargs ob ob' : JObj ob = top -> incl ob' ob -> dsim (getargs w ob') (getargs w ob').
  Proof. intros T I. unfold getargs. ee. apply c_loadclass. eapply top_good; eauto. left; reflexivity. Qed.

  Lemma c_restore_list j : (forall l x, jiter j = Ret l -> In x l -> part x top) -> dsim (restore_list r1 j) (restore_list r2 j).
  Proof.
    intros H. unfold restore_list. ee. apply rec_same. eapply H; eauto. eapply l_ret; eauto.
  Qed.
  Lemma c_iterator ob : JObj ob = top -> dsim (restore_iterator r1 ob) (restore_iterator r2 ob).
  Proof.
    intros T. unfold restore_iterator. ee. apply c_restore_list. intros l x E I. eapply jfield_part; eauto.
  Qed.
  Lemma c_set ob : JObj ob = top -> dsim (restore_set w r1 ob) (restore_set w r2 ob).
  Proof.
    intros T. unfold restore_set. ee. apply rec_same. eapply jfield_part; eauto. eapply l_ret; eauto.
  Qed.
  Lemma c_tuple ob : JObj ob = top -> dsim (restore_tuple r1 ob) (restore_tuple r2 ob).
  Proof.
    intros T. unfold restore_tuple. ee. apply rec_same. eapply jfield_part; eauto. eapply l_ret; eauto.
  Qed.
  Lemma c_pickled key : (prefixb JSON_KEY key = true -> forall j, loads (skipn (length JSON_KEY) key) = Some j -> part j top) ->
    dsim (restore_pickled_key r1 key) (restore_pickled_key r2 key).
  Proof. intros H. unfold restore_pickled_key. ee. apply rec_same; auto. Qed.
  Lemma c_key key : (prefixb JSON_KEY key = true -> forall j, loads (skipn (length JSON_KEY) key) = Some j -> part j top) ->
    dsim (restore_key o r1 key) (restore_key o r2 key).
  Proof. intros H. unfold restore_key. ee. apply c_pickled; auto. Qed.

  Lemma c_dict ob : JObj ob = top -> dsim (restore_dict w o r1 ob) (restore_dict w o r2 ob).
  Proof.
    intros T. pose proof (within_self top ob T) as PT. unfold restore_dict. ee.
    all: try (apply rec_same; eapply within_snd; eauto; fail).
    apply c_pickled. intros. eapply within_key; eauto.
  Qed.
  Lemma c_from_dict ob iv : within top ob -> dsim (restore_from_dict w o r1 ob iv) (restore_from_dict w o r2 ob iv).
  Proof.
    intros PT. unfold restore_from_dict. ee.
    - apply c_key. intros. eapply within_key; eauto.
    - apply rec_same. eapply within_snd; eauto.
  Qed.
  Lemma c_state ob iv : within top ob -> shas STATE ob = true -> dsim (restore_state w o r1 ob iv) (restore_state w o r2 ob iv).
  Proof.
    intros PT HS. unfold restore_state. ee.
    apply rec_same. unfold jfield, shas in *. destruct (sget STATE ob) eqn:E; [|discriminate].
    eapply within_field; eauto. apply sget_In; eauto.
  Qed.
  Lemma c_instvars ob iv : within top ob ->
    dsim (restore_object_instance_variables w o r1 ob iv) (restore_object_instance_variables w o r2 ob iv).
  Proof.
    intros PT. unfold restore_object_instance_variables. ee; auto using c_from_dict.
    - apply rec_same. eapply within_iter; eauto. apply sget_In; eauto. eapply l_ret; eauto.
    - apply rec_same. eapply within_iter; eauto. apply sget_In; eauto. eapply l_ret; eauto.
    - apply c_state; auto. unfold shas. match goal with H : sget STATE ob = _ |- _ => rewrite H end. reflexivity.
  Qed.
  Lemma c_loadfactory ob : within top ob -> dsim (loadfactory r1 ob) (loadfactory r2 ob).
  Proof.
    intros PT. unfold loadfactory.
    destruct (sget DEFAULT_FACTORY ob) as [f|] eqn:E1;
      [|destruct (sget (u "default_factory") ob) as [f|] eqn:E2; [|ee]].
    - assert (part f top) by (eapply within_field; eauto; apply sget_In; eauto). ee; auto.
    - assert (part f top) by (eapply within_field; eauto; apply sget_In; eauto). ee; auto.
  Qed.
  Lemma c_args j : (jtruthy j = true -> part j top) -> dsim (restore_args w r1 j) (restore_args w r2 j).
  Proof. intros H. unfold restore_args. ee. apply rec_same; auto. Qed.
  Lemma c_kwargs j : (jtruthy j = true -> part j top) -> dsim (restore_kwargs w r1 j) (restore_kwargs w r2 j).
  Proof. intros H. unfold restore_kwargs. ee. apply rec_same; auto. Qed.
  Lemma c_object_instance ob cv cn : JObj ob = top ->
    dsim (restore_object_instance w o r1 ob cv cn) (restore_object_instance w o r2 ob cv cn).
  Proof.
    intros T. pose proof (within_self top ob T) as PT. unfold restore_object_instance.
    apply d_bind; [solve [kk]|]. intros proxy ? ? _.
    apply d_bind; [solve [kk]|]. intros _ ? ? _.
    apply d_bind; [apply c_loadfactory; auto|]. intros [f ob'] s1 s2 LF.
    assert (PT' : within top ob') by (intros x I; apply PT; eapply loadfactory_part; eauto).
    assert (IC : incl ob' ob) by (intros x I; eapply loadfactory_part; eauto).
    apply d_bind; [destruct (sget NEWARGSEX ob'); [solve [kk]|]; apply d_bind; [eapply c_getargs; eauto|intros; apply d_ret]|]. intros [aj kj] s3 s4 HA. cbn [fst snd].
    assert (SA : (jtruthy aj = true -> part aj top) /\ (jtruthy kj = true -> part kj top)).
    { destruct (sget NEWARGSEX ob') as [q|] eqn:E.
      - destruct (bind_ret_inv _ _ _ _ _ HA) as ([a b] & s5 & H1 & H2). apply l_ret in H1.
        unfold ret in H2. inversion H2; subst.
        unfold junpack2 in H1. destruct (jiter q) as [[|x [|y [|]]]|e|] eqn:J; inversion H1; subst.
        split; intros _.
        + refine (within_iter _ ob' NEWARGSEX q [aj; kj] aj PT' (sget_In _ _ _ E) J _). left; auto.
        + refine (within_iter _ ob' NEWARGSEX q [aj; kj] kj PT' (sget_In _ _ _ E) J _). right; left; auto.
      - destruct (bind_ret_inv _ _ _ _ _ HA) as (a & s5 & H1 & H2). unfold ret in H2. inversion H2; subst.
        split; [|discriminate]. intros J. eapply getargs_part; eauto. }
    destruct SA as [SA SK].
    apply d_bind; [apply c_args; auto|]. intros args s5 s6 RA.
    apply d_bind; [apply c_kwargs; auto|]. intros kw s7 s8 RK.
    ee. apply c_instvars; auto.
  Qed.
  Lemma c_hscript h sc : script_in part top sc -> dsim (run_hscript w r1 h sc) (run_hscript w r2 h sc).
  Proof.
    induction sc as [r|e|j kt IH]; cbn [run_hscript script_in]; intros H; [solve [kk]|solve [kk]|].
    destruct H as [H1 H2]. apply d_bind; [auto|]. intros. apply IH, H2.
  Qed.
  Lemma c_object ob : JObj ob = top -> shas OBJECT ob = true -> dsim (restore_object w o r1 ob) (restore_object w o r2 ob).
  Proof.
    intros T SO. unfold restore_object. cbv zeta. apply d_bind; [apply c_loadclass; apply field_good; auto; left; reflexivity|]. intros cv s s' _.
    destruct (jfield OBJECT ob) as [| | | |cn| |]; try solve [kk].
    destruct (match cv with VType c => _ | _ => _ end) as [h|].
    - ee. apply c_hscript. rewrite <- T. apply handlers_in.
    - destruct cv; ee; auto using c_object_instance.
  Qed.
  Lemma c_reduce ob : JObj ob = top -> dsim (restore_reduce w r1 ob) (restore_reduce w r2 ob).
  Proof.
    intros T. unfold restore_reduce. ee. apply rec_same. eapply jfield_part; eauto. eapply l_ret; eauto.
  Qed.
  Lemma c_step_top j0 : j0 = top -> dsim (restore_step w o r1 j0) (restore_step w o r2 j0).
  Proof.
    intros T. unfold restore_step. destruct j0 as [| | | | |l|ob]; try solve [kk].
    - apply c_restore_list. intros l' x E I. rewrite <- T. inversion E; subst. apply part_item; auto.
    - repeat match goal with |- dsim (if ?b then _ else _) _ => case_eq b; intros ? end;
        auto using c_tuple, c_set, c_iterator, c_object, c_type, c_function, c_reduce, c_dict; kk.
  Qed.
End cong.
End classes.

Lemma r_classes w o j CL CL' : part_handlers w ->
  (forall ob t x, object_in j ob -> dotted_tag t -> In (t, x) ob -> good CL CL' x) ->
  forall n d, d = j \/ part d j -> dsim CL CL' (restore w o n d) (restore w o n d).
Proof.
  intros H NM. induction n as [|n IH]; intros d I; [apply d_oof|]. cbn [restore]. apply c_step_top with (top := d) (dj := j); auto.
  intros d' P. apply IH. right. destruct I as [->|I]; auto. eapply part_trans; eauto.
Qed.
Lemma swap_classes w CL CL' : dsim CL CL' (swap_proxies w) (swap_proxies w).
Proof. apply k_swap_proxies. Qed.
