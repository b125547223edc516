(** What a run of the unpickler on a document depends on: only the restoring of sub-documents and the
    lookups of what the document names.  One lemma per model function that restores sub-documents. *)
From Verif Require Import PyStr Tags Json JsonText B64 B85 Base Heap Registry LoadClass Unpickler UGen RestoreProofs.
Open Scope nat_scope.
Open Scope monad_scope.

(** Equality of computations. *)
Definition same {A} (m1 m2 : MU A) : Prop := forall s, m1 s = m2 s.
Lemma same_refl A (m : MU A) : same m m. Proof. intros s. reflexivity. Qed.
Lemma same_trans A (a b c : MU A) : same a b -> same b c -> same a c.
Proof. intros H1 H2 s. rewrite H1. apply H2. Qed.
Lemma same_sym A (a b : MU A) : same a b -> same b a.
Proof. intros H s. symmetry. apply H. Qed.
Lemma same_bind A B (m1 m2 : MU A) (f1 f2 : A -> MU B) :
  same m1 m2 -> (forall a s s', m2 s = (Ret a, s') -> same (f1 a) (f2 a)) -> same (bind m1 f1) (bind m2 f2).
Proof.
  intros H F s. unfold bind. rewrite H. destruct (m2 s) as [[a|e|] s1] eqn:E; auto. eapply F; eauto.
Qed.
Lemma same_catch A (m1 m2 : MU A) p h1 h2 :
  same m1 m2 -> (forall e, same (h1 e) (h2 e)) -> same (catch m1 p h1) (catch m2 p h2).
Proof.
  intros H F s. unfold catch. rewrite H. destruct (m2 s) as [[a|e|] s1] eqn:E; auto. destruct (p e); auto. apply F.
Qed.
Lemma same_mapM A B (f1 f2 : A -> MU B) l : (forall x, In x l -> same (f1 x) (f2 x)) -> same (mapM f1 l) (mapM f2 l).
Proof.
  induction l as [|x l IH]; intros H; simpl; [apply same_refl|].
  apply same_bind; [apply H; left; auto|]. intros a s s' _. apply same_bind; [apply IH; intros; apply H; right; auto|].
  intros. apply same_refl.
Qed.
Lemma same_foldM A B (f1 f2 : B -> A -> MU B) l : (forall b x, In x l -> same (f1 b x) (f2 b x)) ->
  forall b, same (foldM f1 l b) (foldM f2 l b).
Proof.
  induction l as [|x l IH]; intros H b; simpl; [apply same_refl|].
  apply same_bind; [apply H; left; auto|]. intros a s s' _. apply IH. intros; apply H; right; auto.
Qed.

Ltac e1 :=
  match goal with
  | |- same ?a ?b => constr_eq a b; apply same_refl
  | |- same (bind _ _) (bind _ _) => apply same_bind; [|intros ? ? ? ?]
  | |- same (catch _ _ _) (catch _ _ _) => apply same_catch; [|intros ?]
  | |- same (foldM _ _ _) (foldM _ _ _) => apply same_foldM; intros ? ? ?
  | |- same (mapM _ _) (mapM _ _) => apply same_mapM; intros ? ?
  | |- same (match ?x with _ => _ end) (match ?x with _ => _ end) => destruct x eqn:?
  end.
Ltac ee := repeat e1.

Section subs.
  Variable top : json.
  Lemma l_ret A (r : res A) (s : ust) a s' : lift r s = (Ret a, s') -> r = Ret a.
  Proof. unfold lift. intros H. inversion H; auto. Qed.
  Lemma jiter_part k f ob l x : In (k, f) ob -> JObj ob = top -> jiter f = Ret l -> In x l -> part x top.
  Proof.
    intros I <- E Ix. destruct f as [| | | |s|xs|ob2]; simpl in E; try discriminate; inversion E; subst.
    - apply in_map_iff in Ix. destruct Ix as (c & <- & Ic). eapply part_char; eauto.
    - eapply part_trans; [apply part_item; eauto|eapply part_value; eauto].
    - apply in_map_iff in Ix. destruct Ix as (c & <- & Ic).
      eapply part_trans; [apply part_key; eauto|eapply part_value; eauto].
  Qed.
  Lemma jfield_part t ob l x : JObj ob = top -> jiter (jfield t ob) = Ret l -> In x l -> part x top.
  Proof.
    intros T E I. destruct (field_or_null t ob) as [N|N]; [rewrite N in E; discriminate|].
    eapply jiter_part; eauto.
  Qed.

  Definition within (ob : jobj) : Prop := forall x, In x ob -> exists ob0, JObj ob0 = top /\ In x ob0.
  Lemma within_self ob : JObj ob = top -> within ob.
  Proof. intros T x I. eauto. Qed.
  Lemma within_field ob k x : within ob -> In (k, x) ob -> part x top.
  Proof. intros H I. destruct (H _ I) as (ob0 & <- & I0). eapply part_value; eauto. Qed.
  Lemma within_snd ob kv : within ob -> In kv ob -> part (snd kv) top.
  Proof. destruct kv. apply within_field. Qed.
  Lemma within_iter ob k f l x : within ob -> In (k, f) ob -> jiter f = Ret l -> In x l -> part x top.
  Proof. intros H I E Ix. destruct (H _ I) as (ob0 & T & I0). eapply jiter_part; eauto. Qed.
  Lemma within_key ob kv j : within ob -> In kv ob -> prefixb JSON_KEY (fst kv) = true ->
    loads (skipn (length JSON_KEY) (fst kv)) = Some j -> part j top.
  Proof.
    intros H I Pk L. destruct (H _ I) as (ob0 & <- & I0). eapply part_pickled; eauto.
    unfold keys. apply in_map; auto.
  Qed.
  Lemma getargs_part w ob s a s' : within ob -> getargs w ob s = (Ret a, s') -> jtruthy a = true -> part a top.
  Proof.
    intros PT. refine (getargs_sm w (mkUopts false true false MIgnore false None) (fun _ _ => True) (fun _ => True) part _
      (fun _ => raise ETypeError) top _ _ _ ob s a s' PT); auto.
    intros k x ob0 I. eapply part_value; eauto.
  Qed.
End subs.

Section cong.
  Variable w : world.
  Variable o : uopts.
  Hypothesis handlers_in : forall h ctx ob, script_in part (JObj ob) (w_hrest w h ctx ob).
  Variables r1 r2 : json -> MU val.
  Variable top : json.
  Hypothesis rec_same : forall j, part j top -> same (r1 j) (r2 j).

  Lemma c_restore_list j : (forall l x, jiter j = Ret l -> In x l -> part x top) -> same (restore_list r1 j) (restore_list r2 j).
  Proof.
    intros H. unfold restore_list. ee. apply rec_same. eapply H; eauto. eapply l_ret; eauto.
  Qed.
  Lemma c_iterator ob : JObj ob = top -> same (restore_iterator r1 ob) (restore_iterator r2 ob).
  Proof.
    intros T. unfold restore_iterator. ee. apply c_restore_list. intros l x E I. eapply jfield_part; eauto.
  Qed.
  Lemma c_set ob : JObj ob = top -> same (restore_set w r1 ob) (restore_set w r2 ob).
  Proof.
    intros T. unfold restore_set. ee. apply rec_same. eapply jfield_part; eauto. eapply l_ret; eauto.
  Qed.
  Lemma c_tuple ob : JObj ob = top -> same (restore_tuple r1 ob) (restore_tuple r2 ob).
  Proof.
    intros T. unfold restore_tuple. ee. apply rec_same. eapply jfield_part; eauto. eapply l_ret; eauto.
  Qed.
  Lemma c_pickled key : (prefixb JSON_KEY key = true -> forall j, loads (skipn (length JSON_KEY) key) = Some j -> part j top) ->
    same (restore_pickled_key r1 key) (restore_pickled_key r2 key).
  Proof. intros H. unfold restore_pickled_key. ee. apply rec_same; auto. Qed.
  Lemma c_key key : (prefixb JSON_KEY key = true -> forall j, loads (skipn (length JSON_KEY) key) = Some j -> part j top) ->
    same (restore_key o r1 key) (restore_key o r2 key).
  Proof. intros H. unfold restore_key. ee. apply c_pickled; auto. Qed.

  Lemma c_dict ob : JObj ob = top -> same (restore_dict w o r1 ob) (restore_dict w o r2 ob).
  Proof.
    intros T. pose proof (within_self top ob T) as PT. unfold restore_dict. ee.
    all: try (apply rec_same; eapply within_snd; eauto; fail).
    apply c_pickled. intros. eapply within_key; eauto.
  Qed.
  Lemma c_from_dict ob iv : within top ob -> same (restore_from_dict w o r1 ob iv) (restore_from_dict w o r2 ob iv).
  Proof.
    intros PT. unfold restore_from_dict. ee.
    - apply c_key. intros. eapply within_key; eauto.
    - apply rec_same. eapply within_snd; eauto.
  Qed.
  Lemma c_state ob iv : within top ob -> shas STATE ob = true -> same (restore_state w o r1 ob iv) (restore_state w o r2 ob iv).
  Proof.
    intros PT HS. unfold restore_state. ee.
    apply rec_same. unfold jfield, shas in *. destruct (sget STATE ob) eqn:E; [|discriminate].
    eapply within_field; eauto. apply sget_In; eauto.
  Qed.
  Lemma c_instvars ob iv : within top ob ->
    same (restore_object_instance_variables w o r1 ob iv) (restore_object_instance_variables w o r2 ob iv).
  Proof.
    intros PT. unfold restore_object_instance_variables. ee; auto using c_from_dict.
    - apply rec_same. eapply within_iter; eauto. apply sget_In; eauto. eapply l_ret; eauto.
    - apply rec_same. eapply within_iter; eauto. apply sget_In; eauto. eapply l_ret; eauto.
    - apply c_state; auto. unfold shas. match goal with H : sget STATE ob = _ |- _ => rewrite H end. reflexivity.
  Qed.
  Lemma c_loadfactory ob : within top ob -> same (loadfactory r1 ob) (loadfactory r2 ob).
  Proof.
    intros PT. unfold loadfactory.
    destruct (sget DEFAULT_FACTORY ob) as [f|] eqn:E1;
      [|destruct (sget (u "default_factory") ob) as [f|] eqn:E2; [|ee]].
    - assert (part f top) by (eapply within_field; eauto; apply sget_In; eauto). ee; auto.
    - assert (part f top) by (eapply within_field; eauto; apply sget_In; eauto). ee; auto.
  Qed.
  Lemma c_args j : (jtruthy j = true -> part j top) -> same (restore_args w r1 j) (restore_args w r2 j).
  Proof. intros H. unfold restore_args. ee. apply rec_same; auto. Qed.
  Lemma c_kwargs j : (jtruthy j = true -> part j top) -> same (restore_kwargs w r1 j) (restore_kwargs w r2 j).
  Proof. intros H. unfold restore_kwargs. ee. apply rec_same; auto. Qed.
  Lemma c_object_instance ob cv cn : JObj ob = top ->
    same (restore_object_instance w o r1 ob cv cn) (restore_object_instance w o r2 ob cv cn).
  Proof.
    intros T. pose proof (within_self top ob T) as PT. unfold restore_object_instance.
    apply same_bind; [apply same_refl|]. intros proxy ? ? _.
    apply same_bind; [apply same_refl|]. intros _ ? ? _.
    apply same_bind; [apply c_loadfactory; auto|]. intros [f ob'] s1 s2 LF.
    assert (PT' : within top ob') by (intros x I; apply PT; eapply loadfactory_part; eauto).
    apply same_bind; [apply same_refl|]. intros [aj kj] s3 s4 HA. cbn [fst snd].
    assert (SA : (jtruthy aj = true -> part aj top) /\ (jtruthy kj = true -> part kj top)).
    { destruct (sget NEWARGSEX ob') as [q|] eqn:E.
      - destruct (bind_ret_inv _ _ _ _ _ HA) as ([a b] & s5 & H1 & H2). apply l_ret in H1.
        unfold ret in H2. inversion H2; subst.
        unfold junpack2 in H1. destruct (jiter q) as [[|x [|y [|]]]|e|] eqn:J; inversion H1; subst.
        split; intros _.
        + refine (within_iter _ ob' NEWARGSEX q [aj; kj] aj PT' (sget_In _ _ _ E) J _). left; auto.
        + refine (within_iter _ ob' NEWARGSEX q [aj; kj] kj PT' (sget_In _ _ _ E) J _). right; left; auto.
      - destruct (bind_ret_inv _ _ _ _ _ HA) as (a & s5 & H1 & H2). unfold ret in H2. inversion H2; subst.
        split; [|discriminate]. intros J. eapply getargs_part; eauto. }
    destruct SA as [SA SK].
    apply same_bind; [apply c_args; auto|]. intros args s5 s6 RA.
    apply same_bind; [apply c_kwargs; auto|]. intros kw s7 s8 RK.
    ee. apply c_instvars; auto.
  Qed.
  Lemma c_hscript h sc : script_in part top sc -> same (run_hscript w r1 h sc) (run_hscript w r2 h sc).
  Proof.
    induction sc as [r|e|j kk IH]; simpl; intros H; try apply same_refl.
    destruct H as [H1 H2]. apply same_bind; [auto|]. intros. apply IH, H2.
  Qed.
  Lemma c_object ob : JObj ob = top -> same (restore_object w o r1 ob) (restore_object w o r2 ob).
  Proof.
    intros T. unfold restore_object. cbv zeta. apply same_bind; [apply same_refl|]. intros cv s s' _.
    destruct (jfield OBJECT ob) as [| | | |cn| |]; try apply same_refl.
    destruct (match cv with VType c => _ | _ => _ end) as [h|].
    - ee. apply c_hscript. rewrite <- T. apply handlers_in.
    - destruct cv; ee; auto using c_object_instance.
  Qed.
  Lemma c_reduce ob : JObj ob = top -> same (restore_reduce w r1 ob) (restore_reduce w r2 ob).
  Proof.
    intros T. unfold restore_reduce. ee. apply rec_same. eapply jfield_part; eauto. eapply l_ret; eauto.
  Qed.
  Lemma c_step_top j0 : j0 = top -> same (restore_step w o r1 j0) (restore_step w o r2 j0).
  Proof.
    intros T. unfold restore_step. destruct j0 as [| | | | |l|ob]; try apply same_refl.
    - apply c_restore_list. intros l' x E I. rewrite <- T. inversion E; subst. apply part_item; auto.
    - repeat match goal with |- same (if ?b then _ else _) _ => case_eq b; intros ? end;
        auto using same_refl, c_tuple, c_set, c_iterator, c_object, c_reduce, c_dict.
  Qed.
End cong.
Lemma step_cong w o r1 r2 j : (forall h ctx ob, script_in part (JObj ob) (w_hrest w h ctx ob)) ->
  (forall j', part j' j -> same (r1 j') (r2 j')) -> same (restore_step w o r1 j) (restore_step w o r2 j).
Proof. intros H1 H2. apply c_step_top with (top := j); auto. Qed.
