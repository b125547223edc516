(** Decoding looks up only what the document names (C71). *)
From Verif Require Import PyStr Tags Json JsonText B64 B85 Base Heap Registry LoadClass LoadClassProofs Unpickler UGen RestoreProofs CongProofs SpecNames.
Open Scope nat_scope.
Open Scope monad_scope.

Definition part_handlers (w : world) : Prop := forall h ctx ob, script_in part (JObj ob) (w_hrest w h ctx ob).

Lemma part_jw a b : part a b -> jw a < jw b.
Proof.
  induction 1; eauto using jw_item, jw_field, jw_char_field, jw_key, jw_pickled. lia.
Qed.

(** ** Fuel: documents of weight at most n are restored alike with more fuel *)
Lemma restore_fuel w o : part_handlers w -> forall n j m, jw j <= n -> n <= m -> same (restore w o n j) (restore w o m j).
Proof.
  intros H. induction n as [|n IH]; intros j m L M; [pose proof (jw_pos j); lia|].
  destruct m as [|m]; [lia|]. cbn [restore]. apply step_cong; auto.
  intros j' P. apply IH; [|lia]. apply part_jw in P. lia.
Qed.

(** ** Another import system *)
Lemma join_before names : forall k, 1 <= k < length names ->
  exists r, join_with DOT names = join_with DOT (firstn k names) ++ DOT :: r.
Proof.
  induction names as [|x names IH]; intros k K; simpl in K; [lia|]. destruct names as [|y names]; simpl in K; [lia|].
  destruct k as [|[|k]]; [lia| |].
  - exists (join_with DOT (y :: names)). reflexivity.
  - destruct (IH (S k)) as (r & E); [simpl; lia|]. exists r.
    change (join_with DOT (x :: y :: names)) with (x ++ DOT :: join_with DOT (y :: names)). rewrite E.
    change (firstn (S (S k)) (x :: y :: names)) with (x :: y :: firstn k names).
    change (firstn (S k) (y :: names)) with (y :: firstn k names).
    change (join_with DOT (x :: y :: firstn k names)) with (x ++ DOT :: join_with DOT (y :: firstn k names)).
    rewrite <- app_assoc. reflexivity.
Qed.
Lemma split_before s k : 1 <= k <= length (split_on DOT s) - 1 -> before_dot s (join_with DOT (firstn k (split_on DOT s))).
Proof.
  intros K. destruct (join_before (split_on DOT s) k ltac:(lia)) as (r & E). rewrite join_split in E. exists r. exact E.
Qed.
Lemma split_slash s m i : split_on SLASH s = [m; i] -> before_slash s m.
Proof.
  intros E. exists i. pose proof (join_split SLASH s) as J. rewrite E in J. split; [symmetry; exact J|].
  split; apply (split_on_In_clean SLASH s); rewrite E; simpl; auto.
Qed.

Section other.
  Variables (w : world) (o : uopts) (imp top ev : pystr -> res val) (j : json).
  Hypothesis H : part_handlers w.
  Hypothesis A : agree_on j (uo_safe o) w imp top ev.
  Notation W := (with_imports w imp top ev).

  Lemma o_loadclass x : (forall s, x = JStr s -> dotted_in j s) -> same (u_loadclass W x) (u_loadclass w x).
  Proof.
    intros D. unfold u_loadclass. ee.
    match goal with |- same (lift (loadclass W ?c x)) _ => assert (E : loadclass W c x = loadclass w c x) end.
    { destruct x as [| | | |str| |]; try reflexivity. cbn [loadclass]. unfold loadclass_str. destruct (from_classes _ str); auto.
      cbv zeta. rewrite (load_splits_ext W w); auto. intros i K. cbn [w_import with_imports].
      apply (proj1 A str); auto. apply split_before; auto. }
    rewrite E. apply same_refl.
  Qed.
  Lemma o_loadmodule x : (forall s, x = JStr s -> value_in MODULE j (JStr s) \/ (uo_safe o = true /\ value_in REPR j (JStr s))) ->
    loadmodule W x = loadmodule w x.
  Proof.
    intros D. destruct x; try reflexivity. unfold loadmodule.
    destruct (split_on SLASH s) as [|m [|i [|]]] eqn:E; auto. cbn [w_import_top with_imports].
    rewrite (proj1 (proj2 A) s m (D s eq_refl) (split_slash _ _ _ E)). destruct (w_import_top w m); auto.
  Qed.

  Section at_.
    Variable ob : jobj.
    Hypothesis I : object_in j ob.
    Lemma in_dotted t s (ob' : jobj) : incl ob' ob -> dotted_tag t -> sget t ob' = Some (JStr s) -> dotted_in j s.
    Proof. intros C T E. exists ob, t. repeat split; auto. apply C. apply sget_In; auto. Qed.
    Lemma jf_dotted t s : dotted_tag t -> jfield t ob = JStr s -> dotted_in j s.
    Proof. intros T E. exists ob, t. repeat split; auto. apply jfield_str_In; auto. Qed.
    Lemma jf_value t s : jfield t ob = JStr s -> value_in t j (JStr s).
    Proof. intros E. exists ob. split; auto. apply jfield_str_In; auto. Qed.

    Lemma o_type : same (restore_type W ob) (restore_type w ob).
    Proof.
      unfold restore_type. apply same_bind; [apply o_loadclass|intros; apply same_refl].
      intros s. apply jf_dotted. right; left; reflexivity.
    Qed.
    Lemma o_function : same (restore_function W ob) (restore_function w ob).
    Proof. apply o_loadclass. intros s. apply jf_dotted. right; right; reflexivity. Qed.
    Lemma o_module : same (restore_module W ob) (restore_module w ob).
    Proof.
      unfold restore_module. rewrite o_loadmodule; [apply same_refl|]. intros s E. left. apply jf_value; auto.
    Qed.
    Lemma o_repr_safe : uo_safe o = true -> same (restore_repr_safe W ob) (restore_repr_safe w ob).
    Proof.
      intros S. unfold restore_repr_safe. rewrite o_loadmodule; [apply same_refl|]. intros s E. right. split; auto. apply jf_value; auto.
    Qed.
    Lemma o_repr : uo_safe o = false -> same (restore_repr W ob) (restore_repr w ob).
    Proof.
      intros S. unfold restore_repr. destruct (jfield REPR ob) eqn:E; try apply same_refl. cbn [w_eval with_imports].
      rewrite (proj2 (proj2 A) s S (jf_value _ _ E)). apply same_refl.
    Qed.
    Lemma o_getargs ob' : incl ob' ob -> same (getargs W ob') (getargs w ob').
    Proof.
      intros C. unfold getargs. ee; try apply same_refl. apply o_loadclass. intros s ->. eapply in_dotted; eauto. left; reflexivity.
    Qed.
    Lemma o_object_instance rec cv cn : same (restore_object_instance W o rec ob cv cn) (restore_object_instance w o rec ob cv cn).
    Proof.
      unfold restore_object_instance.
      apply same_bind; [apply same_refl|]. intros proxy ? ? _.
      apply same_bind; [apply same_refl|]. intros _ ? ? _.
      apply same_bind; [apply same_refl|]. intros [f ob'] s1 s2 LF. apply loadfactory_part in LF.
      apply same_bind; [ee; apply o_getargs; auto|]. intros ak s3 s4 _.
      apply same_refl.
    Qed.
    Lemma o_object rec : same (restore_object W o rec ob) (restore_object w o rec ob).
    Proof.
      unfold restore_object. cbv zeta. apply same_bind; [apply o_loadclass|].
      { intros s. apply jf_dotted. left; reflexivity. }
      intros cv s s' _. destruct (jfield OBJECT ob) as [| | | |cn| |]; try apply same_refl.
      change (w_sub W) with (w_sub w). change (w_reg W) with (w_reg w).
      destruct (match cv with VType c => _ | _ => _ end) as [h|]; [apply same_refl|].
      destruct cv; try apply o_object_instance. apply same_refl.
    Qed.
  End at_.
  Lemma o_step rec d : d = j \/ part d j -> same (restore_step W o rec d) (restore_step w o rec d).
  Proof.
    intros I. unfold restore_step. destruct d as [| | | | |l|ob]; try apply same_refl.
    assert (I' : object_in j ob) by (destruct I; [left|right]; auto).
    repeat match goal with |- same (if ?b then _ else _) _ => case_eq b; intros ? end;
      auto using o_type, o_function, o_module, o_repr_safe, o_repr, o_object; apply same_refl.
  Qed.
  Lemma o_restore : forall n d, d = j \/ part d j -> same (restore W o n d) (restore w o n d).
  Proof.
    induction n as [|n IH]; intros d I; [apply same_refl|]. cbn [restore].
    eapply same_trans; [apply o_step; exact I|]. apply step_cong; auto.
    intros d' P. apply IH. right. destruct I as [->|I]; auto. eapply part_trans; eauto.
  Qed.
  Lemma o_unpickle n reset cl : same (unpickle W o n reset cl j) (unpickle w o n reset cl j).
  Proof.
    unfold unpickle. apply same_bind; [apply same_refl|]. intros _ ? ? _.
    apply same_bind; [apply same_refl|]. intros _ ? ? _.
    apply same_bind; [apply o_restore; auto|]. intros v ? ? _. apply same_refl.
  Qed.
End other.

(** ** The log *)
Section told.
  Variables (w : world) (o : uopts) (j : json).
  Hypothesis H : part_handlers w.
  Notation R := (grows (told_by j (uo_safe o))).
  Lemma named_told e : named (uo_safe o) (object_in j) e -> (uo_safe o = true -> forall x, e <> EvEval x) -> told_by j (uo_safe o) e.
  Proof.
    intros N E. destruct e; try exact N.
    - destruct N as (ob & A & [B|[S B]]); [left|right; split; auto]; exists ob; auto.
    - destruct N as (ob & A & B). split; [|exists ob; auto]. destruct (uo_safe o); auto. exfalso. eapply E; eauto.
  Qed.
  Lemma restore_told : forall n d, d = j \/ part d j -> pres R val (restore w o n d).
  Proof.
    induction n as [|n IH]; intros d I; [intros s; apply grows_refl|].
    cbn [restore]. apply (P_step w o (pres R) (object_in j)) with (sm := part); unfold pres in *.
    - intros A a s. apply grows_refl.
    - intros A e s. apply grows_refl.
    - left. intros A s. apply grows_refl.
    - intros A B m f Hm Hf s. unfold bind. specialize (Hm s). destruct (m s) as [[a|e|] s1] eqn:E; simpl in *; auto.
      eapply grows_trans; [exact Hm|]. eapply Hf; eauto.
    - intros A m p h _ Hm Hh s. unfold catch. specialize (Hm s). destruct (m s) as [[a|e|] s1]; simpl in *; auto.
      destruct (p e); simpl; auto. eapply grows_trans; [exact Hm|apply Hh].
    - intros A f _ s. apply grows_refl.
    - intros e He Hn _ s. apply grows_log. apply named_told; auto. intros _ x ->. exact He.
    - intros A e s. apply grows_log. exact Logic.I.
    - intros x Hx s. unfold u_loadclass, bind, gets, lift. destruct x as [| | | |t| |]; simpl; auto using grows_refl.
      assert (D : dotted_in j t).
      { destruct (Hx t eq_refl) as (ob & tag & A & B & C). exists ob, tag. auto. }
      destruct (from_classes (u_classes s) t); simpl; [apply grows_log; exact D|].
      eapply grows_trans; apply grows_log; exact D.
    - intros ob s. apply grows_same. reflexivity.
    - intros j0 s. apply grows_same. unfold raw. destruct (alloc_json j0 (u_heap s)). reflexivity.
    - intros h s. apply grows_same. reflexivity.
    - intros l ob s. apply grows_same. reflexivity.
    - intros v s. apply grows_same. unfold umkref. destruct (idx_get v (u_idx s)); reflexivity.
    - intros s. apply grows_same. reflexivity.
    - intros m v s. apply grows_same. reflexivity.
    - intros p v s. apply grows_same. unfold swapref. destruct (idx_get p (u_idx s)); reflexivity.
    - intros l s. apply grows_same. reflexivity.
    - apply part_trans.
    - apply part_item.
    - apply part_value.
    - apply part_char.
    - apply part_key.
    - apply part_pickled.
    - exact H.
    - intros ob <-. destruct I; [left|right]; auto.
    - intros ob x <- Hi Hr F s. apply grows_log. split; auto. exists ob. split; auto. destruct I; [left|right]; auto.
    - intros d' P. apply IH. right. destruct I as [->|I]; auto. eapply part_trans; eauto.
  Qed.
  Lemma swap_told : pres R unit (swap_proxies w).
  Proof.
    apply swap_proxies_pres; intros; auto using grows_refl, grows_same. eapply grows_trans; eauto.
  Qed.
  Lemma unpickle_told n cl s : u_log s = [] -> Forall (told_by j (uo_safe o)) (u_log (snd (unpickle w o n true cl j s))).
  Proof.
    intros Z.
    assert (B : forall A B (m : MU A) (f : A -> MU B), pres R A m -> (forall a, pres R B (f a)) -> pres R B (bind m f)).
    { intros A B m f Hm Hf s0. unfold bind. specialize (Hm s0). destruct (m s0) as [[a|e|] s1]; simpl in *; auto.
      eapply grows_trans; [exact Hm|apply Hf]. }
    assert (Rt : forall A (a : A), pres R A (ret a)) by (intros A a s0; apply grows_refl).
    assert (P : pres R val (unpickle w o n true cl j)).
    { unfold unpickle. apply B; [intros s0; apply grows_same; reflexivity|]. intros _.
      apply B; [destruct cl; auto; intros s0; apply grows_same; reflexivity|]. intros _.
      apply B; [apply restore_told; auto|]. intros v. apply B; auto. apply swap_told. }
    destruct (P s) as (es & E & F). rewrite E, Z. exact F.
  Qed.
End told.

(** ** decode *)
Lemma decode_told w o n cl text j h : part_handlers w -> loads text = Some j ->
  Forall (told_by j (uo_safe o)) (u_log (snd (decode w o n cl text (new_unpickler h)))).
Proof.
  intros H L. unfold decode. rewrite L. unfold bind at 1.
  pose proof (unpickle_told w o j H n cl (new_unpickler h) eq_refl) as F.
  destruct (unpickle w o n true cl j (new_unpickler h)) as [[v|e|] s1]; exact F.
Qed.
Lemma decode_imports w o imp top ev n cl text j : part_handlers w -> loads text = Some j ->
  agree_on j (uo_safe o) w imp top ev ->
  same (decode (with_imports w imp top ev) o n cl text) (decode w o n cl text).
Proof.
  intros H L A. unfold decode. rewrite L. apply same_bind; [apply o_unpickle; auto|]. intros. apply same_refl.
Qed.
Lemma decode_fuel w o n m cl text : part_handlers w -> length text <= n -> n <= m ->
  same (decode w o n cl text) (decode w o m cl text).
Proof.
  intros H L M. unfold decode. destruct (loads text) as [j|] eqn:E; [|apply same_refl]. apply loads_jw in E.
  apply same_bind; [|intros; apply same_refl]. unfold unpickle.
  apply same_bind; [apply same_refl|]. intros _ ? ? _.
  apply same_bind; [apply same_refl|]. intros _ ? ? _.
  apply same_bind; [apply restore_fuel; auto; lia|]. intros. apply same_refl.
Qed.
