(** handle_readonly=True differs from handle_readonly=False only where the latter raises AttributeError (C75). *)
From Verif Require Import PyStr Tags Json JsonText B64 B85 Base Heap Registry LoadClass Unpickler CongProofs SpecReadonly.
Open Scope nat_scope.
Open Scope monad_scope.

Section ro.
  Variable P : Prop.
  (** m' does what m does, unless m raises AttributeError (possible only if P). *)
  Definition rsim {A} (m m' : MU A) : Prop := forall s, m' s = m s \/ P /\ exists s1, m s = (Exc EAttributeError, s1).
  Lemma r_refl A (m : MU A) : rsim m m. Proof. intros s. auto. Qed.
  Lemma r_bind A B (m m' : MU A) (f f' : A -> MU B) : rsim m m' -> (forall a, rsim (f a) (f' a)) -> rsim (bind m f) (bind m' f').
  Proof.
    intros H F s. unfold bind. destruct (H s) as [->|(p & s1 & ->)]; [|right; eauto].
    destruct (m s) as [[a|e|] s1]; auto. apply F.
  Qed.
  Lemma r_catch A (m m' : MU A) h h' : rsim m m' -> (forall e, rsim (h e) (h' e)) -> rsim (catch m is_TypeError h) (catch m' is_TypeError h').
  Proof.
    intros H F s. unfold catch. destruct (H s) as [->|(p & s1 & ->)]; [|right; cbn; eauto].
    destruct (m s) as [[a|e|] s1]; auto. destruct (is_TypeError e); auto. apply F.
  Qed.
  Lemma r_mapM A B (f f' : A -> MU B) l : (forall x, rsim (f x) (f' x)) -> rsim (mapM f l) (mapM f' l).
  Proof.
    intros H. induction l as [|x l IH]; simpl; [apply r_refl|]. apply r_bind; auto. intros a. apply r_bind; auto. intros b. apply r_refl.
  Qed.
  Lemma r_foldM A B (f f' : B -> A -> MU B) l : (forall b x, rsim (f b x) (f' b x)) -> forall b, rsim (foldM f l b) (foldM f' l b).
  Proof. intros H. induction l as [|x l IH]; intros b; simpl; [apply r_refl|]. apply r_bind; auto. Qed.
End ro.

Ltac z1 :=
  match goal with
  | |- rsim _ ?a ?b => constr_eq a b; apply r_refl
  | |- rsim _ (bind _ _) (bind _ _) => apply r_bind; [|intros ?]
  | |- rsim _ (catch _ is_TypeError _) (catch _ _ _) => apply r_catch; [|intros ?]
  | |- rsim _ (foldM _ _ _) _ => apply r_foldM; intros ? ?
  | |- rsim _ (mapM _ _) _ => apply r_mapM; intros ?
  | |- rsim _ (let _ := _ in _) _ => cbv zeta
  | |- rsim _ (match ?x with _ => _ end) (match ?x with _ => _ end) => destruct x eqn:?
  | |- rsim _ _ _ => solve [auto 1 with zz nocore]
  end.
Ltac zz := repeat z1.
Create HintDb zz.

Section cong.
  Variables (w : world) (o : uopts).
  Let P := unwritable_class w.
  Notation o1 := (set_readonly false o).
  Notation o2 := (set_readonly true o).
  Lemma z_plain iv key v : rsim P (set_plain_attr w o1 iv key v) (set_plain_attr w o2 iv key v).
  Proof.
    unfold set_plain_attr. zz. intros st. unfold catch. destruct (bind _ _ st) as [[b|e|] s1]; auto.
    destruct (is_KeyError e || is_AttributeError e) eqn:E; auto.
    destruct (is_KeyError e) eqn:EK; auto. destruct (is_Frozen e) eqn:EF; auto.
    destruct (u_inst _ iv) as [i|]; auto. cbn [set_readonly uo_readonly].
    destruct (match c_slots (w_cls w (i_cls i)) with Some [] => true | _ => false end) eqn:S1; auto.
    destruct (c_intstr (w_cls w (i_cls i))) eqn:S2; auto. right. split.
    - exists (i_cls i). split; auto. destruct (c_slots (w_cls w (i_cls i))) as [[|]|]; auto; discriminate.
    - exists s1. destruct e; try discriminate; reflexivity.
  Qed.
  Hint Resolve z_plain : zz.
  Lemma z_set_one iv key v : rsim P (set_one w o1 iv key v) (set_one w o2 iv key v).
  Proof. unfold set_one. zz. Qed.
  Hint Resolve z_set_one : zz.
  Lemma z_from_vals d iv : rsim P (restore_from_vals w o1 d iv) (restore_from_vals w o2 d iv).
  Proof. unfold restore_from_vals. zz. Qed.
  Hint Resolve z_from_vals : zz.
  Lemma z_default iv st : rsim P (default_state w o1 iv st) (default_state w o2 iv st).
  Proof. unfold default_state. zz. Qed.
  Hint Resolve z_default : zz.

  Variables r1 r2 : json -> MU val.
  Hypothesis R : forall j, rsim P (r1 j) (r2 j).
  Hint Resolve R : zz.
  Lemma z_list j : rsim P (restore_list r1 j) (restore_list r2 j).
  Proof. unfold restore_list. zz. Qed.
  Hint Resolve z_list : zz.
  Lemma z_iterator ob : rsim P (restore_iterator r1 ob) (restore_iterator r2 ob).
  Proof. unfold restore_iterator. zz. Qed.
  Lemma z_set ob : rsim P (restore_set w r1 ob) (restore_set w r2 ob).
  Proof. unfold restore_set. zz. Qed.
  Lemma z_tuple ob : rsim P (restore_tuple r1 ob) (restore_tuple r2 ob).
  Proof. unfold restore_tuple. zz. Qed.
  Lemma z_pickled key : rsim P (restore_pickled_key r1 key) (restore_pickled_key r2 key).
  Proof. unfold restore_pickled_key. zz. Qed.
  Hint Resolve z_pickled : zz.
  Lemma z_key key : rsim P (restore_key o1 r1 key) (restore_key o2 r2 key).
  Proof. unfold restore_key. cbn [set_readonly uo_keys]. zz. Qed.
  Hint Resolve z_key : zz.
  Lemma z_dict ob : rsim P (restore_dict w o1 r1 ob) (restore_dict w o2 r2 ob).
  Proof. unfold restore_dict. cbn [set_readonly uo_keys uo_v1]. zz. Qed.
  Lemma z_from_dict ob iv : rsim P (restore_from_dict w o1 r1 ob iv) (restore_from_dict w o2 r2 ob iv).
  Proof. unfold restore_from_dict. zz. Qed.
  Hint Resolve z_from_dict : zz.
  Lemma z_state ob iv : rsim P (restore_state w o1 r1 ob iv) (restore_state w o2 r2 ob iv).
  Proof. unfold restore_state. zz. Qed.
  Hint Resolve z_state : zz.
  Lemma z_vars ob iv : rsim P (restore_object_instance_variables w o1 r1 ob iv) (restore_object_instance_variables w o2 r2 ob iv).
  Proof. unfold restore_object_instance_variables. zz. Qed.
  Hint Resolve z_vars : zz.
  Lemma z_factory ob : rsim P (loadfactory r1 ob) (loadfactory r2 ob).
  Proof. unfold loadfactory. zz. Qed.
  Hint Resolve z_factory : zz.
  Lemma z_args j : rsim P (restore_args w r1 j) (restore_args w r2 j).
  Proof. unfold restore_args. zz. Qed.
  Hint Resolve z_args : zz.
  Lemma z_kwargs j : rsim P (restore_kwargs w r1 j) (restore_kwargs w r2 j).
  Proof. unfold restore_kwargs. zz. Qed.
  Hint Resolve z_kwargs : zz.
  Lemma z_missing n : rsim P (process_missing o1 n) (process_missing o2 n).
  Proof. unfold process_missing. cbn [set_readonly uo_missing]. zz. Qed.
  Hint Resolve z_missing : zz.
  Lemma z_object_instance ob cv cn : rsim P (restore_object_instance w o1 r1 ob cv cn) (restore_object_instance w o2 r2 ob cv cn).
  Proof. unfold restore_object_instance. zz. Qed.
  Hint Resolve z_object_instance : zz.
  Lemma z_hscript h sc : rsim P (run_hscript w r1 h sc) (run_hscript w r2 h sc).
  Proof. induction sc as [r|e|j kt IH]; cbn [run_hscript]; zz. Qed.
  Hint Resolve z_hscript : zz.
  Lemma z_object ob : rsim P (restore_object w o1 r1 ob) (restore_object w o2 r2 ob).
  Proof. unfold restore_object. cbn [set_readonly uo_ctx]. zz. Qed.
  Lemma z_reduce ob : rsim P (restore_reduce w r1 ob) (restore_reduce w r2 ob).
  Proof. unfold restore_reduce. zz. Qed.
  Hint Resolve z_iterator z_set z_tuple z_dict z_object z_reduce : zz.
  Lemma z_step j : rsim P (restore_step w o1 r1 j) (restore_step w o2 r2 j).
  Proof. unfold restore_step. cbn [set_readonly uo_safe]. zz. Qed.
End cong.
Lemma z_restore w o : forall n j, rsim (unwritable_class w) (restore w (set_readonly false o) n j) (restore w (set_readonly true o) n j).
Proof. induction n as [|n IH]; intros j; [apply r_refl|]. cbn [restore]. apply z_step. exact IH. Qed.
Lemma decode_readonly w o n cl text : rsim (unwritable_class w) (decode w (set_readonly false o) n cl text) (decode w (set_readonly true o) n cl text).
Proof.
  unfold decode, unpickle. zz. apply z_restore.
Qed.
