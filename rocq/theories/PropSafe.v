(** C08: without py/repr the option safe makes no difference. *)
From Verif Require Import PyStr Tags Json JsonText Base Heap Registry LoadClass Unpickler UGen RestoreProofs CongProofs SpecNames NameProofs SpecTame TameProofs Samples PropRestore PropRoundtrip.
Open Scope nat_scope.

(** The same options with another value of safe. *)
Definition set_safe (b : bool) (o : uopts) : uopts :=
  {| uo_keys := uo_keys o; uo_safe := b; uo_v1 := uo_v1 o; uo_missing := uo_missing o; uo_readonly := uo_readonly o; uo_ctx := uo_ctx o |}.

Lemma safe_step w o rec j s : ~ has_part_repr j -> restore_step w (set_safe true o) rec j s = restore_step w (set_safe false o) rec j s.
Proof.
  intros Nr. unfold restore_step. destruct j as [| | | | |l|ob]; [reflexivity|reflexivity|reflexivity|reflexivity|reflexivity|reflexivity|].
  destruct (shas REPR ob) eqn:R; [|reflexivity]. destruct Nr. exists ob. auto.
Qed.
Lemma safe_restore w o : part_handlers w -> forall n j, ~ has_part_repr j -> same (restore w (set_safe true o) n j) (restore w (set_safe false o) n j).
Proof.
  intros H. induction n as [|n IH]; intros j Nr; [apply same_refl|]. cbn [restore]. intros s.
  rewrite safe_step by auto. apply step_cong; auto. intros j' P. apply IH. intros (ob & [->|Q] & R); apply Nr; exists ob; split; auto.
  right. eapply part_trans; eauto.
Qed.
(** C08.  A document without py/repr decodes alike with safe=True and with safe=False: same value or
    exception, same objects, same calls. *)
Theorem C08_safe_same :
  forall w o n classes text j s, part_handlers w -> loads text = Some j -> ~ has_part_repr j ->
  decode w (set_safe true o) n classes text s = decode w (set_safe false o) n classes text s.
Proof.
  intros w o n cl text j s H L Nr. unfold decode. rewrite L. unfold unpickle.
  revert s. apply same_bind; [|intros; apply same_refl].
  apply same_bind; [apply same_refl|]. intros _ ? ? _.
  apply same_bind; [apply same_refl|]. intros _ ? ? _.
  apply same_bind; [apply safe_restore; auto|]. intros. apply same_refl.
Qed.
Print Assumptions C08_safe_same.
(** A document with an object, and the difference a py/repr makes. *)
Definition safe_doc : pystr := u "{""py/object"": ""m.Node"", ""x"": [1, {""py/tuple"": [2]}]}".
Example C08_safe_same_case : part_handlers W0 /\ exists j, loads safe_doc = Some j /\ ~ has_part_repr j.
Proof.
  split; [intros h ctx ob; exact I|]. eexists. split; [vm_compute; reflexivity|]. apply repr_free_ok. vm_compute. reflexivity.
Qed.
Example C08_safe_same_repr :
  u_log (snd (decode W0 (set_safe true UO) 40 None (u "{""py/repr"": ""m/m""}") (new_unpickler []))) <>
  u_log (snd (decode W0 (set_safe false UO) 40 None (u "{""py/repr"": ""m/m""}") (new_unpickler []))).
Proof. vm_compute. discriminate. Qed.
