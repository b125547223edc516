(** Instances of the document invariants: which keys occur in documents. *)
From Verif Require Import PyStr Tags Json JsonText B64 B85 Base Heap Registry Pickler PGen PDoc SpecDoc.
Open Scope nat_scope.
Local Open Scope monad_scope.

Lemma hev_old w h hp l ob : hev (w_cls w) h hp -> l < length h -> hget hp l = Some ob ->
  exists ob0, hget h l = Some ob0 /\ obj_vals ob0 = obj_vals ob /\
    (forall i, ob = OInst i -> exists i0, ob0 = OInst i0 /\ i_cls i0 = i_cls i).
Proof.
  intros Hv L G. destruct (hget h l) as [ob0|] eqn:G0.
  - exists ob0. split; auto. destruct Hv as [_ Hv]. destruct (Hv l ob0 G0) as [G1|(i & p & -> & _ & _ & G1)].
    + rewrite G in G1. inversion G1; subst. split; auto. intros i ->. eauto.
    + rewrite G in G1. inversion G1; subst. split; [reflexivity|]. intros i0 E0. inversion E0; subst. eauto.
  - exfalso. apply nth_error_None in G0. unfold loc in *. lia.
Qed.

(** Values stored in the graph, and copies of state dicts. *)
Section stored.
  Variables (w : world) (k : hooks) (o : popts) (h : heap) (ok : val -> Prop) (okc : nat -> Prop).
  Notation cls := (w_cls w).
  Hypothesis ok_loc : forall l, ok (VLoc l) -> l < length h.
  Hypothesis ok_tuple : forall xs x, ok (VTuple xs) -> In x xs -> ok x.
  Hypothesis ok_heap : forall l ob x, hget h l = Some ob -> In x (obj_vals ob) -> ok x.
  Hypothesis ok_cls : forall l i, hget h l = Some (OInst i) -> okc (i_cls i).
  Hypothesis ok_str : forall s, ok (VStr s).
  Hypothesis ok_none : ok VNone.
  Definition fresh_of (hp : heap) (v : val) : Prop :=
    exists l its, v = VLoc l /\ length h <= l /\ hget hp l = Some (ODict its) /\
      forall kv, In kv its -> ok (fst kv) /\ ok (snd kv).
  Definition Vst (hp : heap) (v : val) : Prop := ok v \/ fresh_of hp v.
  Lemma val_closed_stored :
    (forall l x, k_newargs_ex k l = Ret x -> Forall ok x) -> (forall l x, k_newargs k l = Ret x -> ok x) ->
    (forall l x, k_initargs k l = Ret x -> ok x) -> (forall l x, k_getstate k l = Ret x -> ok x) ->
    (forall l x, k_reduce k l = Ret (RTup x) -> Forall ok x) -> (forall l p x, k_iter k l p = Ret (Some x) -> ok x) ->
    (forall l a x, k_attr k l a = Ret x -> ok x) -> (forall f x, k_call0 k f = Ret x -> ok x) ->
    (po_unpicklable o = true -> forall m a x, w_getattr w m a = Ret x -> ok x) ->
    val_closed w k o h Vst ok okc.
  Proof.
    intros. constructor; auto.
    - intros hp l ob x Hv [Gl|(l' & its & E & L & Gd & Hd)] G I; left.
      + destruct (hev_old w h hp l ob Hv (ok_loc l Gl) G) as (ob0 & G0 & E0 & _). rewrite <- E0 in I. eapply ok_heap; eauto.
      + inversion E; subst l'. rewrite G in Gd. inversion Gd; subst ob. simpl in I. apply in_app_or in I.
        destruct I as [I|I]; apply in_map_iff in I; destruct I as (kv & <- & I); apply Hd; auto.
    - intros hp l its0 its Hv Vl G In0. right. exists (length hp), its. split; auto. split; [apply Hv|]. split; [apply hget_app_new|].
      intros kv I. apply In0 in I. destruct Vl as [Gl|(l' & its' & E & L & Gd & Hd)].
      + destruct (hev_old w h hp l _ Hv (ok_loc l Gl) G) as (ob0 & G0 & E0 & _).
        split; eapply ok_heap; eauto; rewrite E0; simpl; apply in_or_app; [left|right]; apply in_map; auto.
      + inversion E; subst l'. rewrite G in Gd. inversion Gd; subst its'. auto.
    - intros hp hp' v _ Hv [G|(l & its & -> & L & G & Hd)]; [left; auto|]. right. exists l, its. repeat split; auto; try apply Hd; auto.
      eapply hev_get; eauto. discriminate.
    - intros hp xs x [G|(l & its & E & _)] I; [left; eauto|discriminate].
    - intros hp l i Hv [Gl|(l' & its & E & L & Gd & Hd)] G.
      + destruct (hev_old w h hp l _ Hv (ok_loc l Gl) G) as (ob0 & G0 & _ & E1). destruct (E1 i eq_refl) as (i0 & -> & <-). eauto.
      + inversion E; subst l'. congruence.
    - intros hp s. left. auto.
    - intros hp. left. auto.
    - intros hp v _ Hk. left. auto.
  Qed.
End stored.

Lemma forallb_Forall {A} (f : A -> bool) l : forallb f l = true -> Forall (fun x => f x = true) l.
Proof. intros H. apply Forall_forall. apply forallb_forall. exact H. Qed.

(** Keys of documents. *)
Lemma doc_keys_list l : doc_keys (JList l) = flat_map doc_keys l.
Proof. cbn [doc_keys]. induction l as [|x l IH]; [reflexivity|]. cbn [flat_map]. rewrite IH. reflexivity. Qed.
Lemma doc_keys_obj ob : doc_keys (JObj ob) = flat_map (fun kv => fst kv :: doc_keys (snd kv)) ob.
Proof.
  cbn [doc_keys]. induction ob as [|[n x] ob IH]; [reflexivity|]. cbn [flat_map fst snd]. rewrite IH. reflexivity.
Qed.
Section keys.
  Variable bad : pystr -> Prop.
  Definition clean (j : json) : Prop := forall n, In n (doc_keys j) -> ~ bad n.
  Lemma clean_list js : Forall clean js -> clean (JList js).
  Proof.
    intros F n. rewrite doc_keys_list. intros I. apply in_flat_map in I. destruct I as (x & Ix & I).
    rewrite Forall_forall in F. exact (F x Ix n I).
  Qed.
  Lemma clean_obj ob : Forall (fun kv => ~ bad (fst kv) /\ clean (snd kv)) ob -> clean (JObj ob).
  Proof.
    intros F n. rewrite doc_keys_obj. intros I. apply in_flat_map in I. destruct I as (x & Ix & I).
    rewrite Forall_forall in F. destruct (F x Ix) as [H1 H2]. destruct I as [<-|I]; auto.
  Qed.
  Lemma clean_atom j : doc_keys j = [] -> clean j.
  Proof. intros E n. rewrite E. intros []. Qed.
  Lemma clean_one n j : ~ bad n -> clean j -> clean (JObj [(n, j)]).
  Proof. intros H1 H2. apply clean_obj. constructor; auto. Qed.
  Lemma script_clean ok sc : script_keys ok bad sc -> script_doc (fun v => ok v = true) clean sc.
  Proof. induction sc as [[j|]|e|r v kk IH]; simpl; auto. intros (-> & G & H). split; auto. Qed.
  Lemma script_clean_any ok sc : script_keys ok bad sc -> script_doc (fun _ => True) clean sc.
  Proof. induction sc as [[j|]|e|r v kk IH]; simpl; auto. intros (-> & G & H). split; auto. Qed.
End keys.
Lemma clean_bytes bad o b : ~ bad B64 -> ~ bad B85 -> clean bad (flatten_bytestring o b).
Proof. intros. unfold flatten_bytestring. destruct (po_b85 o); apply clean_one; auto; apply clean_atom; reflexivity. Qed.
Lemma clean_fun w o bad f : ~ bad FUNCTION \/ po_unpicklable o = false -> clean bad (flatten_function w o f).
Proof.
  unfold flatten_function. destruct (po_unpicklable o); [intros [H|H]; [|discriminate]; apply clean_one; auto|intros _]; apply clean_atom; reflexivity.
Qed.

Lemma not_json_key n j : prefixb JSON_KEY n = false -> JSON_KEY ++ dumps j <> n.
Proof. intros H E. subst n. assert (prefixb JSON_KEY (JSON_KEY ++ dumps j) = true) by apply prefixb_app. congruence. Qed.

(** make_refs=False *)
Section norefs.
  Variables (w : world) (k : hooks) (o : popts).
  Hypothesis Or : po_readonly o = false.
  Hypothesis Os : po_sort o = false.
  Hypothesis Om : po_make_refs o = false.
  Notation bad := (fun n => n = u "py/id").
  Hypothesis KC : keys_clean w k o (fun _ => true) bad.
  Lemma norefs_closed h : doc_closed w k o h (fun _ _ => True) (fun _ => True) (fun _ => True) (clean bad)
    (fun n j => ~ bad n /\ clean bad j).
  Proof.
    constructor; intros; try (split; [|assumption]); try (apply clean_atom; reflexivity); try discriminate; try congruence.
    - destruct v; try discriminate; inversion H; apply clean_atom; reflexivity.
    - apply clean_bytes; discriminate.
    - apply clean_one; [discriminate|]. apply clean_bytes; discriminate.
    - apply clean_list; auto.
    - apply clean_obj; auto.
    - intros ->. discriminate.
    - eapply (kc_repr _ _ _ _ _ KC); eauto.
    - eapply (kc_props _ _ _ _ _ KC); eauto.
    - intros ->. repeat (destruct H0 as [H0|H0]; [discriminate|]). destruct H0.
    - split; [destruct H1 as [-> | ->]; discriminate|]. destruct H2 as [H2|(c1 & ->)]; auto. apply clean_one; [discriminate|apply clean_atom; reflexivity].
    - apply clean_one; [discriminate|apply clean_atom; reflexivity].
    - apply clean_fun. left. discriminate.
    - apply clean_one; [discriminate|apply clean_atom; reflexivity].
    - intros n I. eapply (kc_fail _ _ _ _ _ KC); eauto.
    - eapply script_clean_any. apply (kc_script _ _ _ _ _ KC).
  Qed.
  Theorem encode_norefs n v s text s' : encode w k o n v s = (Ret text, s') ->
    exists j, text = dumps j /\ ~ In (u "py/id") (doc_keys j).
  Proof.
    intros H. destruct (encode_doc w k o (p_heap s) _ _ _ _ _ Or Os (val_closed_any w k o (p_heap s)) (norefs_closed (p_heap s)) n v s text s' eq_refl Logic.I H) as (j & -> & Cj).
    exists j. split; auto. intros I. exact (Cj _ I eq_refl).
  Qed.
End norefs.

(** unpicklable=False *)
Section plain.
  Variables (w : world) (k : hooks) (o : popts) (h : heap).
  Hypothesis Or : po_readonly o = false.
  Hypothesis Os : po_sort o = false.
  Hypothesis Ou : po_unpicklable o = false.
  Hypothesis Op : po_props o = false.
  Notation ok := (fun v => plain_val (length h) v = true).
  Notation okc := (fun c => plain_class (w_cls w c) = true).
  Notation bad := (fun n => In n tag_names).
  Hypothesis G : forall l ob, hget h l = Some ob -> plain_obj w (length h) ob = true.
  Hypothesis PH : plain_hooks k (length h).
  Hypothesis KC : keys_clean w k o (plain_val (length h)) bad.

  Lemma bad_reserved n : bad n <-> is_reserved n = true.
  Proof. unfold is_reserved. rewrite smem_In. reflexivity. Qed.
  Lemma plain_V : val_closed w k o h (Vst h ok) ok okc.
  Proof.
    apply val_closed_stored.
    - intros l H. apply Nat.ltb_lt. exact H.
    - intros xs x H I. cbn [plain_val] in H. rewrite forallb_forall in H. auto.
    - intros l ob x Hg I. specialize (G l ob Hg). unfold plain_obj in G. apply andb_true_iff in G. destruct G as [G1 G2].
      rewrite forallb_forall in G1. apply G1. destruct ob; auto. discriminate.
    - intros l i Hg. specialize (G l _ Hg). unfold plain_obj in G. apply andb_true_iff in G. apply G.
    - reflexivity.
    - reflexivity.
    - intros l x Hx. apply forallb_Forall. eapply ph_newargs_ex; eauto.
    - intros l x. eapply ph_newargs; eauto.
    - intros l x. eapply ph_initargs; eauto.
    - intros l x. eapply ph_getstate; eauto.
    - intros l x Hx. apply forallb_Forall. eapply ph_reduce; eauto.
    - intros l p x. eapply ph_iter; eauto.
    - intros l a x. eapply ph_attr; eauto.
    - intros f x. eapply ph_call0; eauto.
    - congruence.
  Qed.

  Lemma plain_closed : doc_closed w k o h (Vst h ok) ok okc (clean bad) (fun n j => ~ bad n /\ clean bad j).
  Proof.
    assert (NB : forall n, is_reserved n = false -> ~ bad n).
    { intros n H I. apply bad_reserved in I. congruence. }
    constructor; intros; try (split; [|assumption]); try (apply clean_atom; reflexivity); try discriminate; try congruence.
    - destruct v; try discriminate; inversion H; apply clean_atom; reflexivity.
    - apply clean_bytes; apply NB; reflexivity.
    - exfalso. destruct H0 as [H0|(l' & its & E & L & Gd & _)].
      + destruct (hev_old w h h0 l _ H (proj1 (Nat.ltb_lt _ _) H0) H1) as (ob0 & G0 & _).
        destruct H as [_ Hv]. destruct (Hv l ob0 G0) as [G1|(i & p & -> & _ & _ & G1)]; [|congruence].
        assert (ob0 = OByteArray b) by congruence. subst ob0. specialize (G l _ G0). discriminate.
      + inversion E; subst l'. congruence.
    - apply clean_list; auto.
    - apply clean_obj; auto.
    - auto.
    - eapply (kc_repr _ _ _ _ _ KC); eauto.
    - apply NB. reflexivity.
    - unfold plain_class in H. rewrite H0 in H. rewrite !andb_false_r in H. discriminate.
    - unfold plain_class in H. rewrite H0 in H. rewrite !andb_false_r in H. discriminate.
    - unfold plain_class in H. rewrite H0 in H. rewrite !andb_false_r in H. discriminate.
    - unfold plain_class in H. rewrite H0 in H. discriminate.
    - unfold plain_class in H. rewrite H0 in H. discriminate.
    - destruct H as [H|(l & its & E & _)]; discriminate.
    - apply clean_fun. auto.
    - intros n I. eapply (kc_fail _ _ _ _ _ KC); eauto.
    - eapply script_clean. apply (kc_script _ _ _ _ _ KC).
  Qed.
  Theorem encode_plain n v s text s' : p_heap s = h -> plain_val (length h) v = true ->
    encode w k o n v s = (Ret text, s') ->
    exists j, text = dumps j /\ forall n, In n tag_names -> ~ In n (doc_keys j).
  Proof.
    intros Hh Hv H. destruct (encode_doc w k o h _ _ _ _ _ Or Os plain_V plain_closed n v s text s' Hh (or_introl Hv) H) as (j & -> & Cj).
    exists j. split; auto. intros m Im I. exact (Cj _ I Im).
  Qed.
End plain.
