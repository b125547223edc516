(** on_missing decides about warnings, calls and exceptions, not about what is decoded (C76). *)
From Verif Require Import PyStr Tags Json JsonText B64 B85 Base Heap Registry LoadClass Unpickler CongProofs SpecMissing.
Open Scope nat_scope.
Open Scope monad_scope.

(** States that differ only in the reports about missing classes. *)
Definition alike (s s' : ust) : Prop := exists L, s' = us_log L s /\ quiet L = quiet (u_log s).
Lemma alike_refl s : alike s s. Proof. exists (u_log s). destruct s. auto. Qed.

Section sim.
  Variable B : exn -> Prop.
  (** m' does what m does, or raises one of the exceptions B. *)
  Definition dsim {A} (m m' : MU A) : Prop := forall s s', alike s s' ->
    (fst (m' s') = fst (m s) /\ alike (snd (m s)) (snd (m' s'))) \/ exists e, B e /\ fst (m' s') = Exc e.
  Lemma d_ret A (a : A) : dsim (ret a) (ret a). Proof. intros s s' H. left. split; auto. Qed.
  Lemma d_raise A e : dsim (raise e : MU A) (raise e). Proof. intros s s' H. left. split; auto. Qed.
  Lemma d_oof A : dsim (oof : MU A) oof. Proof. intros s s' H. left. split; auto. Qed.
  Lemma d_lift A (r : res A) : dsim (lift r) (lift r). Proof. intros s s' H. left. split; auto. Qed.
  Lemma d_gets A (f : ust -> A) : (forall s L, f (us_log L s) = f s) -> dsim (gets f) (gets f).
  Proof. intros E s s' H. left. split; auto. destruct H as (L & -> & Q). cbn. rewrite E. reflexivity. Qed.
  Lemma d_modify f : (forall s L, f (us_log L s) = us_log L (f s)) -> (forall s, u_log (f s) = u_log s) -> dsim (modify f) (modify f).
  Proof. intros E F s s' (L & -> & Q). left. split; auto. exists L. cbn. rewrite E, F. auto. Qed.
  Lemma d_bind A C (m m' : MU A) (f f' : A -> MU C) : dsim m m' -> (forall a, dsim (f a) (f' a)) -> dsim (bind m f) (bind m' f').
  Proof.
    intros H F s s' E. unfold bind. destruct (H s s' E) as [[H1 H2]|(e & Be & H1)].
    - destruct (m s) as [r s1], (m' s') as [r' s1']. cbn [fst snd] in *. subst r'. destruct r; auto. apply F; auto.
    - right. exists e. split; auto. destruct (m' s') as [r' s1']. cbn [fst] in H1. subst r'. reflexivity.
  Qed.
  Lemma d_catch A (m m' : MU A) p h h' : (forall e, B e -> p e = false) -> dsim m m' -> (forall e, dsim (h e) (h' e)) -> dsim (catch m p h) (catch m' p h').
  Proof.
    intros PB H F s s' E. unfold catch. destruct (H s s' E) as [[H1 H2]|(e & Be & H1)].
    - destruct (m s) as [r s1], (m' s') as [r' s1']. cbn [fst snd] in *. subst r'. destruct r; auto. destruct (p e); auto. apply F; auto.
    - right. exists e. split; auto. destruct (m' s') as [r' s1']. cbn [fst] in H1. subst r'. rewrite (PB e Be). reflexivity.
  Qed.
  Lemma d_mapM A C (f f' : A -> MU C) l : (forall x, dsim (f x) (f' x)) -> dsim (mapM f l) (mapM f' l).
  Proof.
    intros H. induction l as [|x l IH]; simpl; [apply d_ret|]. apply d_bind; auto. intros a. apply d_bind; auto. intros b. apply d_ret.
  Qed.
  Lemma d_foldM A C (f f' : C -> A -> MU C) l : (forall b x, dsim (f b x) (f' b x)) -> forall b, dsim (foldM f l b) (foldM f' l b).
  Proof. intros H. induction l as [|x l IH]; intros b; simpl; [apply d_ret|]. apply d_bind; auto. Qed.
End sim.
Definition N (e : exn) : Prop := False.
Lemma weak B A (m : MU A) : dsim N m m -> dsim B m m.
Proof. intros H s s' E. destruct (H s s' E) as [X|(e & [] & _)]. auto. Qed.

Ltac k1 :=
  match goal with
  | |- dsim _ (ret _) _ => apply d_ret
  | |- dsim _ (raise _) _ => apply d_raise
  | |- dsim _ oof _ => apply d_oof
  | |- dsim _ (lift _) _ => apply d_lift
  | |- dsim _ (gets _) _ => apply d_gets; intros; reflexivity
  | |- dsim _ (modify _) _ => apply d_modify; intros; reflexivity
  | |- dsim _ (bind _ _) (bind _ _) => apply d_bind; [|intros ?]
  | |- dsim _ (catch _ _ _) (catch _ _ _) => apply d_catch; [first [intros ? []|assumption]| |intros ?]
  | |- dsim _ (foldM _ _ _) _ => apply d_foldM; intros ? ?
  | |- dsim _ (mapM _ _) _ => apply d_mapM; intros ?
  | |- dsim _ (match ?x with _ => _ end) (match ?x with _ => _ end) => destruct x eqn:?
  | |- dsim _ (let _ := _ in _) _ => cbv zeta
  | |- dsim _ _ _ => solve [auto 1 with zm nocore]
  | |- dsim _ ?a ?b => constr_eq a b; apply weak; solve [auto 1 with kp nocore]
  end.
Ltac kk := repeat k1.
Create HintDb kp.
Create HintDb zm.

Section leaves.
  Variables (w : world) (o : uopts).
  Lemma k_log e : dsim N (log e) (log e).
  Proof. intros s s' (L & -> & Q). left. split; [reflexivity|]. exists (L ++ [e]). split; auto. unfold quiet in *. cbn. rewrite !filter_app, Q. reflexivity. Qed.
  Hint Resolve k_log : kp.
  Lemma k_raised A e : dsim N (@raised A e) (raised e). Proof. unfold raised. kk. Qed.
  Hint Resolve k_raised : kp.
  Lemma k_alloc ob : dsim N (alloc ob) (alloc ob).
  Proof. intros s s' (L & -> & Q). left. split; [reflexivity|]. exists L. split; auto. Qed.
  Hint Resolve k_alloc : kp.
  Lemma k_raw j : dsim N (raw j) (raw j).
  Proof. intros s s' (L & -> & Q). left. unfold raw. cbn. destruct (alloc_json j (u_heap s)). split; [reflexivity|]. exists L. split; auto. Qed.
  Hint Resolve k_raw : kp.
  Lemma k_set_obj l ob : dsim N (set_obj l ob) (set_obj l ob). Proof. unfold set_obj. kk. Qed.
  Hint Resolve k_set_obj : kp.
  Lemma k_umkref v : dsim N (umkref v) (umkref v).
  Proof. intros s s' (L & -> & Q). left. unfold umkref. cbn. destruct (idx_get v (u_idx s)); (split; [reflexivity|]; exists L; split; auto). Qed.
  Hint Resolve k_umkref : kp.
  Lemma k_new_proxy : dsim N new_proxy new_proxy.
  Proof. intros s s' (L & -> & Q). left. split; [reflexivity|]. exists L. split; auto. Qed.
  Hint Resolve k_new_proxy : kp.
  Lemma k_swapref p v : dsim N (swapref p v) (swapref p v).
  Proof. intros s s' (L & -> & Q). left. unfold swapref. cbn. destruct (idx_get p (u_idx s)); (split; [reflexivity|]; exists L; split; auto). Qed.
  Hint Resolve k_swapref : kp.
  Lemma k_loadclass j : dsim N (u_loadclass w j) (u_loadclass w j). Proof. unfold u_loadclass. kk. Qed.
  Hint Resolve k_loadclass : kp.
  Lemma k_get_uobj l : dsim N (get_uobj l) (get_uobj l). Proof. unfold get_uobj. kk. Qed.
  Hint Resolve k_get_uobj : kp.
  Lemma k_proxy_reset p v : dsim N (proxy_reset p v) (proxy_reset p v). Proof. unfold proxy_reset. kk. Qed.
  Hint Resolve k_proxy_reset : kp.
  Lemma k_fresh_inst c r : dsim N (fresh_inst w c r) (fresh_inst w c r). Proof. unfold fresh_inst. kk. Qed.
  Hint Resolve k_fresh_inst : kp.
  Lemma k_run_cres r rc : dsim N (run_cres w r rc) (run_cres w r rc). Proof. unfold run_cres. kk. Qed.
  Hint Resolve k_run_cres : kp.
  Lemma k_do_new c a kw : dsim N (do_new w c a kw) (do_new w c a kw). Proof. unfold do_new. kk. Qed.
  Hint Resolve k_do_new : kp.
  Lemma k_do_call f a : dsim N (do_call w f a) (do_call w f a). Proof. unfold do_call. kk. Qed.
  Hint Resolve k_do_call : kp.
  Lemma k_u_truthy v : dsim N (u_truthy w v) (u_truthy w v). Proof. unfold u_truthy. kk. Qed.
  Hint Resolve k_u_truthy : kp.
  Lemma k_u_iter v : dsim N (u_iter w v) (u_iter w v). Proof. unfold u_iter. kk. Qed.
  Hint Resolve k_u_iter : kp.
  Lemma k_set_attr v a x : dsim N (set_attr w v a x) (set_attr w v a x). Proof. unfold set_attr. kk. Qed.
  Hint Resolve k_set_attr : kp.
  Lemma k_object_setattr v a x : dsim N (object_setattr w v a x) (object_setattr w v a x). Proof. unfold object_setattr. kk. Qed.
  Hint Resolve k_object_setattr : kp.
  Lemma k_add_swap x : dsim N (add_swap x) (add_swap x). Proof. unfold add_swap. kk. Qed.
  Hint Resolve k_add_swap : kp.
  Lemma k_base64 ob : dsim N (restore_base64 ob) (restore_base64 ob). Proof. unfold restore_base64. kk. Qed.
  Hint Resolve k_base64 : kp.
  Lemma k_base85 ob : dsim N (restore_base85 ob) (restore_base85 ob). Proof. unfold restore_base85. kk. Qed.
  Hint Resolve k_base85 : kp.
  Lemma k_bytearray ob : dsim N (restore_bytearray ob) (restore_bytearray ob). Proof. unfold restore_bytearray. kk. Qed.
  Hint Resolve k_bytearray : kp.
  Lemma k_id ob : dsim N (restore_id ob) (restore_id ob). Proof. unfold restore_id. kk. Qed.
  Hint Resolve k_id : kp.
  Lemma k_type ob : dsim N (restore_type w ob) (restore_type w ob). Proof. unfold restore_type. kk. Qed.
  Hint Resolve k_type : kp.
  Lemma k_module ob : dsim N (restore_module w ob) (restore_module w ob). Proof. unfold restore_module. kk. Qed.
  Hint Resolve k_module : kp.
  Lemma k_repr_safe ob : dsim N (restore_repr_safe w ob) (restore_repr_safe w ob). Proof. unfold restore_repr_safe. kk. Qed.
  Hint Resolve k_repr_safe : kp.
  Lemma k_repr ob : dsim N (restore_repr w ob) (restore_repr w ob). Proof. unfold restore_repr. kk. Qed.
  Hint Resolve k_repr : kp.
  Lemma k_function ob : dsim N (restore_function w ob) (restore_function w ob). Proof. unfold restore_function. kk. Qed.
  Hint Resolve k_function : kp.
  Lemma k_run_swap x : dsim N (run_swap w x) (run_swap w x). Proof. unfold run_swap. kk. Qed.
  Hint Resolve k_run_swap : kp.
  Lemma k_swap_proxies  : dsim N (swap_proxies w) (swap_proxies w). Proof. unfold swap_proxies. kk. Qed.
  Hint Resolve k_swap_proxies : kp.
  Lemma k_dict_assign l key v : dsim N (dict_assign w l key v) (dict_assign w l key v). Proof. unfold dict_assign. kk. Qed.
  Hint Resolve k_dict_assign : kp.
  Lemma k_swap_if_proxy t key v m : dsim N (swap_if_proxy t key v m) (swap_if_proxy t key v m). Proof. unfold swap_if_proxy. kk. Qed.
  Hint Resolve k_swap_if_proxy : kp.
  Lemma k_inst_setitem l i key v : dsim N (inst_setitem w l i key v) (inst_setitem w l i key v). Proof. unfold inst_setitem. kk. Qed.
  Hint Resolve k_inst_setitem : kp.
  Lemma k_set_plain_attr iv key v : dsim N (set_plain_attr w o iv key v) (set_plain_attr w o iv key v). Proof. unfold set_plain_attr. kk. Qed.
  Hint Resolve k_set_plain_attr : kp.
  Lemma k_set_one iv key v : dsim N (set_one w o iv key v) (set_one w o iv key v). Proof. unfold set_one. kk. Qed.
  Hint Resolve k_set_one : kp.
  Lemma k_from_vals d iv : dsim N (restore_from_vals w o d iv) (restore_from_vals w o d iv). Proof. unfold restore_from_vals. kk. Qed.
  Hint Resolve k_from_vals : kp.
  Lemma k_call_setstate iv i l st : dsim N (call_setstate w iv i l st) (call_setstate w iv i l st). Proof. unfold call_setstate. kk. Qed.
  Hint Resolve k_call_setstate : kp.
  Lemma k_default_state iv st : dsim N (default_state w o iv st) (default_state w o iv st). Proof. unfold default_state. kk. Qed.
  Hint Resolve k_default_state : kp.
  Lemma k_do_append t v : dsim N (do_append t v) (do_append t v). Proof. unfold do_append. kk. Qed.
  Hint Resolve k_do_append : kp.
  Lemma k_do_add t v : dsim N (do_add w t v) (do_add w t v). Proof. unfold do_add. kk. Qed.
  Hint Resolve k_do_add : kp.
  Lemma k_getargs ob : dsim N (getargs w ob) (getargs w ob). Proof. unfold getargs. kk. Qed.
  Hint Resolve k_getargs : kp.
  Lemma k_new_attempt c f a kw : dsim N (new_attempt w c f a kw) (new_attempt w c f a kw). Proof. unfold new_attempt. kk. Qed.
  Hint Resolve k_new_attempt : kp.
  Lemma k_fail_reduce p : dsim N (fail_reduce p) (fail_reduce p). Proof. unfold fail_reduce. kk. Qed.
  Hint Resolve k_fail_reduce : kp.
  Lemma k_reduce_make f a : dsim N (reduce_make w f a) (reduce_make w f a). Proof. unfold reduce_make. kk. Qed.
  Hint Resolve k_reduce_make : kp.
  Lemma k_setattr_items t d : dsim N (setattr_items w t d) (setattr_items w t d). Proof. unfold setattr_items. kk. Qed.
  Hint Resolve k_setattr_items : kp.
  Lemma k_reduce_state3 a b : dsim N (reduce_state3 w a b) (reduce_state3 w a b). Proof. unfold reduce_state3. kk. Qed.
  Hint Resolve k_reduce_state3 : kp.
  Lemma k_reduce_state2 a b : dsim N (reduce_state2 w a b) (reduce_state2 w a b). Proof. unfold reduce_state2. kk. Qed.
  Hint Resolve k_reduce_state2 : kp.
  Lemma k_reduce_state a b c : dsim N (reduce_state w a b c) (reduce_state w a b c). Proof. unfold reduce_state. kk. Qed.
  Hint Resolve k_reduce_state : kp.
  Lemma k_listitems a b : dsim N (reduce_listitems w a b) (reduce_listitems w a b). Proof. unfold reduce_listitems. kk. Qed.
  Hint Resolve k_listitems : kp.
  Lemma k_dictitems a b : dsim N (reduce_dictitems w a b) (reduce_dictitems w a b). Proof. unfold reduce_dictitems. kk. Qed.
  Hint Resolve k_dictitems : kp.
End leaves.
#[export] Hint Resolve k_log k_raised k_alloc k_raw k_set_obj k_umkref k_new_proxy k_swapref k_loadclass k_get_uobj k_proxy_reset k_fresh_inst k_run_cres k_do_new k_do_call k_u_truthy k_u_iter k_set_attr k_object_setattr k_add_swap k_base64 k_base85 k_bytearray k_id k_type k_module k_repr_safe k_repr k_function k_run_swap k_swap_proxies k_dict_assign k_swap_if_proxy k_inst_setitem k_set_plain_attr k_set_one k_from_vals k_call_setstate k_default_state k_do_append k_do_add k_getargs k_new_attempt k_fail_reduce k_reduce_make k_setattr_items k_reduce_state3 k_reduce_state2 k_reduce_state k_listitems k_dictitems : kp.

Section cong.
  Variables (w : world) (o : uopts) (p : missing).
  Notation o1 := (set_missing MIgnore o).
  Notation o2 := (set_missing p o).
  Notation B := (may_raise p).
  Hypothesis TB : forall e, B e -> is_TypeError e = false.
  Lemma z_missing n : dsim B (process_missing o1 n) (process_missing o2 n).
  Proof.
    unfold process_missing. cbn [set_missing uo_missing]. destruct p as [| | |f|]; try apply d_ret.
    - intros s s' (L & -> & Q). left. split; [reflexivity|]. exists (L ++ [EvWarn n]). split; auto. unfold quiet in *. cbn. rewrite filter_app, Q. cbn. apply app_nil_r.
    - intros s s' (L & -> & Q). right. exists EClassNotFound. split; reflexivity.
    - intros s s' (L & -> & Q). destruct (f n) as [e|] eqn:F.
      + right. exists e. split; [exists n; exact F|reflexivity].
      + left. split; [reflexivity|]. exists (L ++ [EvMissing n]). split; auto. unfold quiet in *. cbn. rewrite filter_app, Q. cbn. apply app_nil_r.
  Qed.
  Hint Resolve z_missing : zm.
  (** None of these looks at on_missing. *)
  Lemma z_one iv key v : dsim B (set_one w o1 iv key v) (set_one w o2 iv key v).
  Proof. exact (weak B _ _ (k_set_one w o1 iv key v)). Qed.
  Hint Resolve z_one : zm.
  Lemma z_vals d iv : dsim B (restore_from_vals w o1 d iv) (restore_from_vals w o2 d iv).
  Proof. exact (weak B _ _ (k_from_vals w o1 d iv)). Qed.
  Lemma z_default iv st : dsim B (default_state w o1 iv st) (default_state w o2 iv st).
  Proof. exact (weak B _ _ (k_default_state w o1 iv st)). Qed.
  Hint Resolve z_vals z_default : zm.

  Variables r1 r2 : json -> MU val.
  Hypothesis R : forall j, dsim B (r1 j) (r2 j).
  Hint Resolve R : zm.
  Lemma z_list j : dsim B (restore_list r1 j) (restore_list r2 j).
  Proof. unfold restore_list. kk. Qed.
  Hint Resolve z_list : zm.
  Lemma z_iterator ob : dsim B (restore_iterator r1 ob) (restore_iterator r2 ob).
  Proof. unfold restore_iterator. kk. Qed.
  Lemma z_set ob : dsim B (restore_set w r1 ob) (restore_set w r2 ob).
  Proof. unfold restore_set. kk. Qed.
  Lemma z_tuple ob : dsim B (restore_tuple r1 ob) (restore_tuple r2 ob).
  Proof. unfold restore_tuple. kk. Qed.
  Lemma z_pickled key : dsim B (restore_pickled_key r1 key) (restore_pickled_key r2 key).
  Proof. unfold restore_pickled_key. kk. Qed.
  Hint Resolve z_pickled : zm.
  Lemma z_key key : dsim B (restore_key o1 r1 key) (restore_key o2 r2 key).
  Proof. unfold restore_key. cbn [set_missing uo_keys uo_safe uo_v1 uo_readonly uo_ctx]. kk. Qed.
  Hint Resolve z_key : zm.
  Lemma z_dict ob : dsim B (restore_dict w o1 r1 ob) (restore_dict w o2 r2 ob).
  Proof. unfold restore_dict. cbn [set_missing uo_keys uo_safe uo_v1 uo_readonly uo_ctx]. kk. Qed.
  Lemma z_from_dict ob iv : dsim B (restore_from_dict w o1 r1 ob iv) (restore_from_dict w o2 r2 ob iv).
  Proof. unfold restore_from_dict. kk.  Qed.
  Hint Resolve z_from_dict : zm.
  Lemma z_state ob iv : dsim B (restore_state w o1 r1 ob iv) (restore_state w o2 r2 ob iv).
  Proof. unfold restore_state. kk. Qed.
  Hint Resolve z_state : zm.
  Lemma z_vars ob iv : dsim B (restore_object_instance_variables w o1 r1 ob iv) (restore_object_instance_variables w o2 r2 ob iv).
  Proof. unfold restore_object_instance_variables. kk. Qed.
  Hint Resolve z_vars : zm.
  Lemma z_factory ob : dsim B (loadfactory r1 ob) (loadfactory r2 ob).
  Proof. unfold loadfactory. kk. Qed.
  Hint Resolve z_factory : zm.
  Lemma z_args j : dsim B (restore_args w r1 j) (restore_args w r2 j).
  Proof. unfold restore_args. kk. Qed.
  Hint Resolve z_args : zm.
  Lemma z_kwargs j : dsim B (restore_kwargs w r1 j) (restore_kwargs w r2 j).
  Proof. unfold restore_kwargs. kk. Qed.
  Hint Resolve z_kwargs : zm.
  Lemma z_object_instance ob cv cn : dsim B (restore_object_instance w o1 r1 ob cv cn) (restore_object_instance w o2 r2 ob cv cn).
  Proof. unfold restore_object_instance. kk. Qed.
  Hint Resolve z_object_instance : zm.
  Lemma z_hscript h sc : dsim B (run_hscript w r1 h sc) (run_hscript w r2 h sc).
  Proof. induction sc as [r|e|j kt IH]; cbn [run_hscript]; kk. Qed.
  Hint Resolve z_hscript : zm.
  Lemma z_object ob : dsim B (restore_object w o1 r1 ob) (restore_object w o2 r2 ob).
  Proof. unfold restore_object. cbn [set_missing uo_keys uo_safe uo_v1 uo_readonly uo_ctx]. kk. Qed.
  Lemma z_reduce ob : dsim B (restore_reduce w r1 ob) (restore_reduce w r2 ob).
  Proof. unfold restore_reduce. kk. Qed.
  Hint Resolve z_iterator z_set z_tuple z_dict z_object z_reduce : zm.
  Lemma z_step j : dsim B (restore_step w o1 r1 j) (restore_step w o2 r2 j).
  Proof. unfold restore_step. cbn [set_missing uo_keys uo_safe uo_v1 uo_readonly uo_ctx]. kk. Qed.
End cong.
Lemma z_restore w o p : (forall e, may_raise p e -> is_TypeError e = false) ->
  forall n j, dsim (may_raise p) (restore w (set_missing MIgnore o) n j) (restore w (set_missing p o) n j).
Proof. intros TB. induction n as [|n IH]; intros j; [apply d_oof|]. cbn [restore]. apply z_step; auto. Qed.
Lemma decode_missing w o p n cl text : (forall e, may_raise p e -> is_TypeError e = false) ->
  dsim (may_raise p) (decode w (set_missing MIgnore o) n cl text) (decode w (set_missing p o) n cl text).
Proof.
  intros TB. unfold decode, unpickle. kk; try (unfold u_reset; kk). apply z_restore; auto.
Qed.
