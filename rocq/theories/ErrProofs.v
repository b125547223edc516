(** An exception of user code ends the run of the unpickler, unless it is a TypeError or an
    AttributeError. *)
From Verif Require Import PyStr Tags Json JsonText B64 B85 Base Heap Registry LoadClass Unpickler UGen RestoreProofs SpecErr.
Open Scope nat_scope.
Open Scope monad_scope.

Definition calm (L : list event) : Prop := forall e, ~ failed_with L e.
Definition stops {A} (L : list event) (r : res A) : Prop :=
  calm L \/ exists L' e, L = L' ++ [EvRaise e] /\ calm L' /\ used_internally e = false /\ r = Exc e.
Definition tells A (m : MU A) : Prop := forall s, exists L, u_log (snd (m s)) = u_log s ++ L /\ stops L (fst (m s)).

Lemma calm_nil : calm [].
Proof. intros e ([] & _). Qed.
Lemma calm_app L1 L2 : calm L1 -> calm L2 -> calm (L1 ++ L2).
Proof. intros H1 H2 e (I & U). apply in_app_iff in I as [I|I]; [apply (H1 e)|apply (H2 e)]; split; auto. Qed.
Lemma calm_one ev : (forall x, ev <> EvRaise x) -> calm [ev].
Proof. intros H e ([E|[]] & _). apply (H e E). Qed.
Lemma stops_app A L1 L2 (r : res A) : calm L1 -> stops L2 r -> stops (L1 ++ L2) r.
Proof.
  intros H1 [H2|(L & e & -> & H3 & H4 & H5)]; [left; apply calm_app; auto|]. right. exists (L1 ++ L), e.
  rewrite List.app_assoc. split; auto. split; auto using calm_app.
Qed.
Lemma quiet_tells A (m : MU A) : (forall s, u_log (snd (m s)) = u_log s) -> tells A m.
Proof. intros H s. exists []. rewrite List.app_nil_r. split; auto. left. apply calm_nil. Qed.
Lemma tells_ret A (a : A) : tells A (ret a).
Proof. apply quiet_tells. reflexivity. Qed.
Lemma tells_bind A B (m : MU A) (f : A -> MU B) : tells A m -> (forall a s s', m s = (Ret a, s') -> tells B (f a)) -> tells B (bind m f).
Proof.
  intros Hm Hf s. unfold bind. destruct (Hm s) as (L & E & H). destruct (m s) as [r s1] eqn:Em. cbn [fst snd] in *. destruct r as [a|e|].
  - destruct (Hf a s s1 Em s1) as (L2 & E2 & H2). exists (L ++ L2). split; [rewrite E2, E, List.app_assoc; reflexivity|].
    destruct H as [H|(L' & e & _ & _ & _ & X)]; [apply stops_app; auto|discriminate X].
  - exists L. split; [exact E|]. destruct H as [H|(L' & e' & H1 & H2 & H3 & X)]; [left; auto|]. right. exists L', e'.
    inversion X; subst. auto.
  - exists L. split; [exact E|]. destruct H as [H|(L' & e' & H1 & H2 & H3 & X)]; [left; auto|discriminate X].
Qed.
Lemma tells_catch A (m : MU A) p h :
  (forall e, is_TypeError e || is_AttributeError e = false -> p e = false) \/ (forall s, u_log (snd (m s)) = u_log s) ->
  tells A m -> (forall e, tells A (h e)) -> tells A (catch m p h).
Proof.
  intros Q Hm Hh s. unfold catch. destruct (Hm s) as (L & E & H). pose proof (fun F => F s : u_log (snd (m s)) = u_log s) as Q2.
  destruct (m s) as [[a|e|] s1] eqn:Em; cbn [fst snd] in *; try (exists L; split; auto; fail).
  destruct (p e) eqn:Pe; [|exists L; split; auto]. destruct (Hh e s1) as (L2 & E2 & H2). exists (L ++ L2).
  split; [rewrite E2, E, List.app_assoc; reflexivity|]. apply stops_app; auto.
  destruct H as [H|(L' & e' & H1 & H3 & H4 & X)]; auto. inversion X; subst e'. destruct Q as [Q|Q].
  - unfold used_internally in H4. rewrite (Q e H4) in Pe. discriminate.
  - specialize (Q2 Q). rewrite E in Q2. rewrite <- (List.app_nil_r (u_log s)) in Q2 at 2. apply List.app_inv_head in Q2. subst L.
    rewrite Q2. apply calm_nil.
Qed.
Lemma tells_log e : (forall x, e <> EvRaise x) -> tells unit (log e).
Proof. intros H s. exists [e]. split; [reflexivity|]. left. apply calm_one. auto. Qed.
Lemma tells_raised A e : tells A (raised e).
Proof.
  intros s. exists [EvRaise e]. split; [reflexivity|]. destruct (used_internally e) eqn:U.
  - left. intros e' ([X|[]] & U'). inversion X; subst. congruence.
  - right. exists [], e. auto using calm_nil.
Qed.

Section err.
  Variables (w : world) (o : uopts).
  Lemma restore_tells : forall n j, tells val (restore w o n j).
  Proof.
    induction n as [|n IH]; intros j; [apply quiet_tells; reflexivity|].
    cbn [restore]. apply (P_step w o tells (fun _ => True)) with (sm := fun _ _ => True); auto using tells_ret, tells_bind, tells_catch, tells_log, tells_raised.
    - intros A e. apply quiet_tells. reflexivity.
    - left. intros A. apply quiet_tells. reflexivity.
    - intros A f _. apply quiet_tells. reflexivity.
    - intros j0 _. unfold u_loadclass. apply tells_bind; [apply quiet_tells; reflexivity|]. intros cl _ _ _.
      apply tells_bind; [|intros; apply quiet_tells; reflexivity].
      destruct j0; auto using tells_ret. apply tells_bind; [apply tells_log; discriminate|]. intros.
      destruct (from_classes cl s); [apply tells_ret|apply tells_log; discriminate].
    - intros ob. apply quiet_tells. reflexivity.
    - intros j0. apply quiet_tells. intros s. unfold raw. destruct (alloc_json j0 (u_heap s)). reflexivity.
    - intros h. apply quiet_tells. reflexivity.
    - intros l ob. apply quiet_tells. reflexivity.
    - intros v. apply quiet_tells. intros s. unfold umkref. destruct (idx_get v (u_idx s)); reflexivity.
    - apply quiet_tells. reflexivity.
    - intros m v. apply quiet_tells. reflexivity.
    - intros p v. apply quiet_tells. intros s. unfold swapref. destruct (idx_get p (u_idx s)); reflexivity.
    - intros l. apply quiet_tells. reflexivity.
    - intros. apply script_any.
    - intros. apply tells_log. discriminate.
  Qed.
  Lemma run_swap_log x s : u_log (snd (run_swap w x s)) = u_log s.
  Proof.
    unfold run_swap, bind, gets. destruct (sw_method x).
    - destruct (sw_key x); try reflexivity. apply set_attr_log.
    - destruct (sw_obj x); try reflexivity. unfold get_uobj, bind, gets. destruct (hget (u_heap s) l) as [[]|]; try reflexivity.
      cbn. destruct (sw_key x); try reflexivity. destruct (_ && _); reflexivity.
  Qed.
  Lemma swaps_log l : forall s, u_log (snd (foldM (fun _ x => run_swap w x) l tt s)) = u_log s.
  Proof.
    induction l as [|x l IH]; intros s; [reflexivity|]. cbn [foldM]. unfold bind. pose proof (run_swap_log x s) as E.
    destruct (run_swap w x s) as [[[]| |] s1]; try exact E. rewrite IH. exact E.
  Qed.
  Lemma decode_tells n classes text : tells val (decode w o n classes text).
  Proof.
    unfold decode. destruct (loads text) as [j|]; [|apply quiet_tells; reflexivity].
    apply tells_bind; [|intros; apply tells_bind; [apply quiet_tells; reflexivity|intros; apply tells_ret]].
    unfold unpickle. apply tells_bind; [apply quiet_tells; reflexivity|intros _ _ _ _].
    apply tells_bind; [apply quiet_tells; destruct classes; reflexivity|intros _ _ _ _].
    apply tells_bind; [apply restore_tells|intros v _ _ _]. apply tells_bind; [|intros; apply tells_ret].
    unfold swap_proxies. apply tells_bind; [apply quiet_tells; reflexivity|intros l _ _ _].
    apply tells_bind; [apply quiet_tells; intros; apply swaps_log|intros; apply quiet_tells; reflexivity].
  Qed.
End err.
