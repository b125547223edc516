(** A property P of computations that holds of the primitive actions of the unpickler and is closed
    under sequencing and exception handling holds of every run of [restore].  Used with several P. *)
From Verif Require Import PyStr Tags Json JsonText B64 B85 Base Heap Registry LoadClass Unpickler.
Open Scope nat_scope.
Open Scope monad_scope.

Lemma inst_store_no_oof cl h l i a x : inst_store cl h l i a x <> OOF.
Proof.
  unfold inst_store.
  repeat match goal with |- context [if ?b then _ else _] => destruct b | |- context [match ?x with _ => _ end] => destruct x end;
    discriminate.
Qed.
Lemma inst_setattr_no_oof cl h l a x : inst_setattr cl h l a x <> OOF.
Proof.
  unfold inst_setattr. destruct (hget h l) as [[]|]; try discriminate.
  destruct (c_setattr _ a); try discriminate. apply inst_store_no_oof.
Qed.
Lemma iter_val_no_oof cl h v : iter_val cl h v <> OOF.
Proof.
  unfold iter_val. repeat match goal with |- context [match ?x with _ => _ end] => destruct x end; discriminate.
Qed.
Lemma jiter_no_oof j : jiter j <> OOF.
Proof. destruct j; discriminate. Qed.
Lemma junpack2_no_oof j : junpack2 j <> OOF.
Proof.
  unfold junpack2. destruct (jiter j) as [l|e|] eqn:E; try discriminate.
  - destruct l as [|a [|b [|c l]]]; discriminate.
  - exfalso. eapply jiter_no_oof; eauto.
Qed.
Lemma val_head_tail_no_oof h v : val_head_tail h v <> OOF.
Proof.
  unfold val_head_tail. repeat match goal with |- context [match ?x with _ => _ end] => destruct x end; discriminate.
Qed.

(** Import system, attribute access and eval return. *)
Definition no_oof (w : world) : Prop :=
  (forall s, w_import w s <> OOF) /\ (forall s, w_import_top w s <> OOF) /\
  (forall v s, w_getattr w v s <> OOF) /\ (forall s, w_eval w s <> OOF).

Lemma getattrs_no_oof w names : no_oof w -> forall v, getattrs w v names <> OOF.
Proof.
  intros (_ & _ & H & _). induction names as [|n r IH]; intros v; simpl; [discriminate|].
  specialize (H v n). destruct (w_getattr w v n); try discriminate; auto.
Qed.
Lemma loadclass_no_oof w cl j : no_oof w -> loadclass w cl j <> OOF.
Proof.
  intros N. destruct j; simpl; try discriminate; try (destruct cl; discriminate).
  unfold loadclass_str. destruct (from_classes cl s); [discriminate|].
  assert (L : forall k, load_splits w (split_on DOT s) k <> OOF).
  { induction k as [|k IH]; [discriminate|]. cbn [load_splits].
    assert (T : try_split w (split_on DOT s) (S k) <> OOF).
    { unfold try_split. destruct N as (N1 & N2 & N3 & N4).
      pose proof (N1 (untranslate_module_name (join_with DOT (firstn (S k) (split_on DOT s))))) as N5.
      destruct (w_import w _); [|discriminate|contradiction]. apply getattrs_no_oof. repeat split; auto. }
    destruct (try_split w _ (S k)) as [|e|]; [discriminate| |contradiction].
    destruct (load_caught e); [auto|discriminate]. }
  specialize (L (length (split_on DOT s) - 1)).
  destruct (load_splits w _ _) as [[]|e|]; try discriminate; [|contradiction].
  destruct (seqb s _); discriminate.
Qed.
Lemma loadmodule_no_oof w j : no_oof w -> loadmodule w j <> OOF.
Proof.
  intros (N1 & N2 & N3 & N4). destruct j; simpl; try discriminate.
  destruct (split_on SLASH s) as [|m [|id [|]]]; try discriminate.
  specialize (N2 m). destruct (w_import_top w m) as [v|e|]; [| destruct (is_ImportError e); discriminate|contradiction].
  destruct (split_on DOT id) as [|f r]; [discriminate|].
  destruct (_ && _); [discriminate|]. clear N2. revert v.
  induction r as [|x r IH]; intros v; simpl; [discriminate|].
  specialize (N3 v x). destruct (w_getattr w v x) as [|e|]; [auto| |contradiction].
  destruct (is_AttributeError e); discriminate.
Qed.

(** Sub-documents. *)
Lemma sget_mem (t : pystr) (ob : jobj) j : sget t ob = Some j -> In (t, j) ob.
Proof. apply sget_In. Qed.
Lemma sdel_mem (k : pystr) (ob : jobj) x : In x (sdel k ob) -> In x ob.
Proof.
  induction ob as [|[k' v'] ob IH]; simpl; auto. destruct (seqb k k'); simpl; intuition.
Qed.

(** Events other than class lookups and evaluation; handlers get handler_context if supplied
    and accepted. *)
Definition rest_ctx (w : world) (o : uopts) (h : nat) : option val :=
  match uo_ctx o with Some c => if w_hctx_rest w h then Some c else None | None => None end.
Definition plain_event (w : world) (o : uopts) (e : event) : Prop :=
  match e with EvLoad _ | EvImport _ | EvEval _ => False | EvHandler h ctx => ctx = rest_ctx w o h | _ => True end.

(** The objects of the document that name what an event looks up: [py/object], [py/type], [py/function]
    for class lookups, [py/module] and [py/repr] for modules, [py/repr] for evaluation. *)
Definition name_tag (t : pystr) : Prop := t = OBJECT \/ t = TYPE_ \/ t = FUNCTION.
Definition named (safe : bool) (okd : jobj -> Prop) (e : event) : Prop :=
  match e with
  | EvLoad s | EvImport s => exists ob t, okd ob /\ name_tag t /\ In (t, JStr s) ob
  | EvWarn s | EvMissing s => exists ob, okd ob /\ In (OBJECT, JStr s) ob
  | EvModule j => exists ob, okd ob /\ (In (MODULE, j) ob \/ (safe = true /\ In (REPR, j) ob))
  | EvEval s => exists ob, okd ob /\ In (REPR, JStr s) ob
  | _ => True
  end.

Section gen.
  Variable w : world.
  Variable o : uopts.
  Variable P : forall A : Type, MU A -> Prop.
  Arguments P {A} _.
  Variable okd : jobj -> Prop.
  Hypothesis P_ret : forall A (a : A), P (ret a).
  Hypothesis P_raise : forall A e, P (@raise ust A e).
  Hypothesis P_oof : (forall A, P (@oof ust A)) \/ no_oof w.
  Hypothesis P_bind : forall A B (m : MU A) (f : A -> MU B),
    P m -> (forall a s s', m s = (Ret a, s') -> P (f a)) -> P (bind m f).
  (* TypeError and AttributeError are caught around calls of user code, others only elsewhere *)
  Hypothesis P_catch : forall A (m : MU A) p h,
    (forall e, is_TypeError e || is_AttributeError e = false -> p e = false) \/ (forall s, u_log (snd (m s)) = u_log s) ->
    P m -> (forall e, P (h e)) -> P (catch m p h).
  Hypothesis P_gets : forall A (f : ust -> A), (forall L s, f (us_log L s) = f s) -> P (gets f).
  Hypothesis P_log : forall e, plain_event w o e -> named (uo_safe o) okd e -> (forall x, e <> EvRaise x) -> P (log e).
  Hypothesis P_raised : forall A e, P (@raised A e).
  Hypothesis P_loadclass : forall j, (forall s, j = JStr s -> named (uo_safe o) okd (EvLoad s)) -> P (u_loadclass w j).
  Hypothesis P_alloc : forall ob, P (alloc ob).
  Hypothesis P_raw : forall j, P (raw j).
  Hypothesis P_set_heap : forall h, P (modify (us_heap h)).
  Hypothesis P_set_obj : forall l ob, P (set_obj l ob).
  Hypothesis P_umkref : forall v, P (umkref v).
  Hypothesis P_new_proxy : P new_proxy.
  Hypothesis P_set_prox : forall n v, P (modify (fun s => us_prox (list_set (u_prox s) n v) s)).
  Hypothesis P_swapref : forall p v, P (swapref p v).
  Hypothesis P_add_swaps : forall l, P (modify (fun s => us_swaps (u_swaps s ++ l) s)).

  (** The recursive calls concern "smaller" documents in the sense of [sm]. *)
  Variable sm : json -> json -> Prop.
  Hypothesis sm_trans : forall a b c, sm a b -> sm b c -> sm a c.
  Hypothesis sm_item : forall x l, In x l -> sm x (JList l).
  Hypothesis sm_field : forall k x ob, In (k, x) ob -> sm x (JObj ob).
  Hypothesis sm_char_field : forall k c s ob, In (k, JStr s) ob -> In c s -> sm (JStr [c]) (JObj ob).
  Hypothesis sm_key : forall k ob, In k (keys ob) -> sm (JStr k) (JObj ob).
  Hypothesis sm_pickled : forall k ob j, In k (keys ob) -> prefixb JSON_KEY k = true ->
    loads (skipn (length JSON_KEY) k) = Some j -> sm j (JObj ob).
  (** What custom handlers restore. *)
  Fixpoint script_in (top : json) (sc : hscript) : Prop :=
    match sc with
    | HDone _ | HRaise _ => True
    | HRestore j kk => sm j top /\ forall v, script_in top (kk v)
    end.
  Hypothesis handlers_in : forall h ctx ob, script_in (JObj ob) (w_hrest w h ctx ob).

  Lemma P_lift A (r : res A) : r <> OOF -> P (lift r).
  Proof. destruct r; intros H; [apply P_ret|apply P_raise|contradiction]. Qed.
  Lemma P_lift_w A (r : res A) : (no_oof w -> r <> OOF) -> P (lift r).
  Proof.
    intros H. destruct P_oof as [O|N]; [|apply P_lift; auto].
    destruct r; [apply P_ret|apply P_raise|apply O].
  Qed.
  Lemma P_mapM A B (f : A -> MU B) l : (forall x, In x l -> P (f x)) -> P (mapM f l).
  Proof.
    induction l as [|x l IH]; intros H; simpl; [apply P_ret|].
    apply P_bind; [apply H; left; auto|]. intros a s s' _. apply P_bind; [apply IH; intros; apply H; right; auto|].
    intros. apply P_ret.
  Qed.
  Lemma P_foldM A B (f : B -> A -> MU B) l : (forall b x, In x l -> P (f b x)) -> forall b, P (foldM f l b).
  Proof.
    induction l as [|x l IH]; intros H b; simpl; [apply P_ret|].
    apply P_bind; [apply H; left; auto|]. intros a s s' _. apply IH. intros; apply H; right; auto.
  Qed.
  Lemma P_get_uobj l : P (get_uobj l).
  Proof.
    unfold get_uobj. apply P_bind; [apply P_gets; reflexivity|]. intros h s s' _. destruct (hget h l); auto.
  Qed.
  Lemma P_proxy_reset p v : P (proxy_reset p v).
  Proof. destruct p; simpl; auto. Qed.

  (** Decompose a computation into primitives. *)
  Ltac p1 :=
    match goal with
    | |- P (ret _) => apply P_ret
    | |- P (raise _) => apply P_raise
    | |- P (raised _) => apply P_raised
    | |- P (log _) => apply P_log; [exact I|exact I|discriminate]
    | |- P (gets _) => apply P_gets; intros; reflexivity
    | |- P (alloc _) => apply P_alloc
    | |- P (raw _) => apply P_raw
    | |- P (umkref _) => apply P_umkref
    | |- P new_proxy => apply P_new_proxy
    | |- P (swapref _ _) => apply P_swapref
    | |- P (proxy_reset _ _) => apply P_proxy_reset
    | |- P (set_obj _ _) => apply P_set_obj
    | |- P (modify (us_heap _)) => apply P_set_heap
    | |- P (get_uobj _) => apply P_get_uobj
    | |- P (lift (jiter _)) => apply P_lift, jiter_no_oof
    | |- P (lift (iter_val _ _ _)) => apply P_lift, iter_val_no_oof
    | |- P (lift (val_head_tail _ _)) => apply P_lift, val_head_tail_no_oof
    | |- P (lift (junpack2 _)) => apply P_lift, junpack2_no_oof
    | |- P (bind _ _) => apply P_bind; [|intros ? ? ? ?]
    | |- P (catch _ _ _) => apply P_catch; [left; intros []; solve [reflexivity|discriminate]| |intros ?]
    | |- P (foldM _ _ _) => apply P_foldM; intros ? ? ?
    | |- P (mapM _ _) => apply P_mapM; intros ? ?
    | |- P (match ?x with _ => _ end) => destruct x eqn:?
    end.
  Ltac p := repeat p1; try discriminate.

  Lemma P_fresh_inst c r : P (fresh_inst w c r).
  Proof. unfold fresh_inst. p. Qed.
  Lemma P_run_cres r rc : P (run_cres w r rc).
  Proof. destruct r; simpl; auto using P_fresh_inst. Qed.
  Lemma P_do_new c a kw : P (do_new w c a kw).
  Proof. unfold do_new. p. apply P_run_cres. Qed.
  Lemma P_do_call f a : P (do_call w f a).
  Proof. unfold do_call. p. apply P_run_cres. Qed.
  Lemma P_u_truthy v : P (u_truthy w v).
  Proof. unfold u_truthy. p. Qed.
  Lemma P_u_iter v : P (u_iter w v).
  Proof. unfold u_iter. p. Qed.
  Lemma P_set_attr v a x : P (set_attr w v a x).
  Proof.
    unfold set_attr. destruct v; p. exfalso. eapply inst_setattr_no_oof; eauto.
  Qed.
  Lemma P_object_setattr v a x : P (object_setattr w v a x).
  Proof.
    unfold object_setattr. destruct v; p. exfalso. eapply inst_store_no_oof; eauto.
  Qed.
  Lemma P_add_swap x : P (add_swap x).
  Proof. apply P_add_swaps. Qed.
  Lemma P_base64 ob : P (restore_base64 ob).
  Proof. unfold restore_base64. p. Qed.
  Lemma P_base85 ob : P (restore_base85 ob).
  Proof. unfold restore_base85. p. Qed.
  Lemma P_bytearray ob : P (restore_bytearray ob).
  Proof. unfold restore_bytearray. p; auto using P_base64, P_base85. Qed.
  Lemma P_id ob : P (restore_id ob).
  Proof. unfold restore_id. cbv zeta. p. Qed.
  Lemma jfield_In t ob : shas t ob = true -> In (t, jfield t ob) ob.
  Proof.
    unfold jfield, shas. destruct (sget t ob) eqn:E; [|discriminate]. intros _. apply sget_In; auto.
  Qed.
  Lemma jfield_str_In t ob s : jfield t ob = JStr s -> In (t, JStr s) ob.
  Proof.
    unfold jfield. destruct (sget t ob) eqn:E; [|discriminate]. intros ->. apply sget_In; auto.
  Qed.
  Lemma P_type ob : okd ob -> P (restore_type w ob).
  Proof.
    intros K. unfold restore_type. apply P_bind; [apply P_loadclass|]; [|intros; p].
    intros s E. exists ob, TYPE_. unfold name_tag. auto using jfield_str_In.
  Qed.
  Lemma P_module ob : okd ob -> shas MODULE ob = true -> P (restore_module w ob).
  Proof.
    intros K H. unfold restore_module. apply P_bind; [apply P_log; [exact I| |discriminate]|intros ? ? ? ?].
    - exists ob. auto using jfield_In.
    - p. apply P_lift_w. intros N. apply loadmodule_no_oof; auto.
  Qed.
  Lemma P_repr_safe ob : uo_safe o = true -> okd ob -> shas REPR ob = true -> P (restore_repr_safe w ob).
  Proof.
    intros SF K H. unfold restore_repr_safe. apply P_bind; [apply P_log; [exact I| |discriminate]|intros ? ? ? ?].
    - exists ob. auto using jfield_In.
    - p. apply P_lift_w. intros N. apply loadmodule_no_oof; auto.
  Qed.
  Lemma P_repr ob : (forall s, In (REPR, JStr s) ob -> P (log (EvEval s))) -> P (restore_repr w ob).
  Proof.
    intros F. unfold restore_repr. destruct (jfield REPR ob) eqn:EJ; try apply P_raise.
    apply jfield_str_In in EJ.
    destruct (split_on SLASH s) as [|? [|? []]]; try apply P_raise.
    apply P_bind; [apply F; exact EJ|intros ? ? ? ?].
    assert (N : no_oof w -> w_eval w s <> OOF) by (intros (_ & _ & _ & N); apply N).
    destruct (w_eval w s) eqn:E; p; apply P_lift_w; exact N.
  Qed.
  Lemma P_function ob : okd ob -> P (restore_function w ob).
  Proof.
    intros K. apply P_loadclass. intros s E. exists ob, FUNCTION. unfold name_tag. auto using jfield_str_In.
  Qed.
  Lemma P_process_missing n : named (uo_safe o) okd (EvWarn n) -> P (process_missing o n).
  Proof. intros K. unfold process_missing. p; apply P_log; try exact I; try exact K; discriminate. Qed.
  Lemma P_run_swap x : P (run_swap w x).
  Proof. unfold run_swap. p; apply P_set_attr. Qed.
  Lemma P_swap_proxies : (forall l, P (modify (us_swaps l))) -> P (swap_proxies w).
  Proof. intros H. unfold swap_proxies. p; auto using P_run_swap. Qed.

  Section step.
    Variable rec : json -> MU val.
    Variable top : json.
    Hypothesis P_rec : forall j, sm j top -> P (rec j).
    Hypothesis okd_top : forall ob, JObj ob = top -> okd ob.
    Hypothesis P_eval : forall ob s, JObj ob = top -> In (REPR, JStr s) ob -> shas REPR ob = true -> uo_safe o = false -> P (log (EvEval s)).

    (** elements of an iterated field *)
    Lemma jiter_sm k f ob l x : In (k, f) ob -> JObj ob = top -> jiter f = Ret l -> In x l -> sm x top.
    Proof.
      intros I <- E Ix. destruct f as [| | | |s|xs|ob2]; simpl in E; try discriminate; inversion E; subst.
      - apply in_map_iff in Ix. destruct Ix as (c & <- & Ic). eapply sm_char_field; eauto.
      - eapply sm_trans; [apply sm_item; eauto|eapply sm_field; eauto].
      - apply in_map_iff in Ix. destruct Ix as (c & <- & Ic).
        eapply sm_trans; [apply sm_key; eauto|eapply sm_field; eauto].
    Qed.
    Lemma field_or_null t ob : jfield t ob = JNull \/ In (t, jfield t ob) ob.
    Proof. unfold jfield. destruct (sget t ob) eqn:E; auto. right. apply sget_In; auto. Qed.
    Lemma jiter_jfield_sm t ob l x : JObj ob = top -> jiter (jfield t ob) = Ret l -> In x l -> sm x top.
    Proof.
      intros T E I. destruct (field_or_null t ob) as [N|N]; [rewrite N in E; discriminate|].
      eapply jiter_sm; eauto.
    Qed.

    Lemma lift_ret A (r : res A) (s : ust) a s' : lift r s = (Ret a, s') -> r = Ret a.
    Proof. unfold lift. intros H. inversion H; auto. Qed.

    Lemma P_restore_list j : (forall l x, jiter j = Ret l -> In x l -> sm x top) -> P (restore_list rec j).
    Proof.
      intros H. unfold restore_list. p; auto.
      apply P_rec. eapply H; eauto. eapply lift_ret; eauto.
    Qed.
    Lemma P_iterator ob : JObj ob = top -> P (restore_iterator rec ob).
    Proof.
      intros T. unfold restore_iterator. p. apply P_restore_list. intros l x E I. eapply jiter_jfield_sm; eauto.
    Qed.
    Lemma P_set ob : JObj ob = top -> P (restore_set w rec ob).
    Proof.
      intros T. unfold restore_set. p. apply P_rec. eapply jiter_jfield_sm; eauto. eapply lift_ret; eauto.
    Qed.
    Lemma P_tuple ob : JObj ob = top -> P (restore_tuple rec ob).
    Proof.
      intros T. unfold restore_tuple. p. apply P_rec. eapply jiter_jfield_sm; eauto. eapply lift_ret; eauto.
    Qed.
    Lemma P_pickled key : (prefixb JSON_KEY key = true -> forall j, loads (skipn (length JSON_KEY) key) = Some j -> sm j top) ->
      P (restore_pickled_key rec key).
    Proof. intros H. unfold restore_pickled_key. p. apply P_rec; auto. Qed.
    Lemma P_key key : (prefixb JSON_KEY key = true -> forall j, loads (skipn (length JSON_KEY) key) = Some j -> sm j top) ->
      P (restore_key o rec key).
    Proof. intros H. unfold restore_key. p. apply P_pickled; auto. Qed.
    Lemma P_dict_assign l key v : P (dict_assign w l key v).
    Proof. unfold dict_assign. p. Qed.
    Lemma P_swap_if_proxy t key v m : P (swap_if_proxy t key v m).
    Proof. unfold swap_if_proxy. p. apply P_add_swap. Qed.

    (** entries of the document or of the document without its default_factory *)
    Definition part_of (ob : jobj) : Prop := forall x, In x ob -> exists ob0, JObj ob0 = top /\ In x ob0.
    Lemma part_self ob : JObj ob = top -> part_of ob.
    Proof. intros T x I. eauto. Qed.
    Lemma part_field ob k x : part_of ob -> In (k, x) ob -> sm x top.
    Proof. intros H I. destruct (H _ I) as (ob0 & <- & I0). eapply sm_field; eauto. Qed.
    Lemma part_snd ob kv : part_of ob -> In kv ob -> sm (snd kv) top.
    Proof. destruct kv. apply part_field. Qed.
    Lemma part_iter ob k f l x : part_of ob -> In (k, f) ob -> jiter f = Ret l -> In x l -> sm x top.
    Proof. intros H I E Ix. destruct (H _ I) as (ob0 & T & I0). eapply jiter_sm; eauto. Qed.
    Lemma part_key ob kv j : part_of ob -> In kv ob -> prefixb JSON_KEY (fst kv) = true ->
      loads (skipn (length JSON_KEY) (fst kv)) = Some j -> sm j top.
    Proof.
      intros H I Pk L. destruct (H _ I) as (ob0 & <- & I0). eapply sm_pickled; eauto.
      unfold keys. apply in_map; auto.
    Qed.

    Lemma P_dict ob : JObj ob = top -> P (restore_dict w o rec ob).
    Proof.
      intros T. pose proof (part_self ob T) as PT. unfold restore_dict. p;
        auto using P_dict_assign, P_swap_if_proxy.
      all: try (apply P_rec; eapply part_snd; eauto; fail).
      apply P_pickled. intros. eapply part_key; eauto.
    Qed.

    Lemma P_inst_setitem l i key v : P (inst_setitem w l i key v).
    Proof. unfold inst_setitem. p. Qed.
    Lemma set_attr_log v a x s : u_log (snd (set_attr w v a x s)) = u_log s.
    Proof.
      unfold set_attr. destruct v; try reflexivity. unfold bind, gets.
      destruct (inst_setattr (w_cls w) (u_heap s) l a x); reflexivity.
    Qed.
    Lemma P_set_plain_attr iv key v : P (set_plain_attr w o iv key v).
    Proof.
      unfold set_plain_attr. p; auto using P_set_attr, P_object_setattr.
      apply P_catch.
      - right. intros z. unfold bind. match goal with |- context [set_attr w iv ?a v] => pose proof (set_attr_log iv a v z) as L; destruct (set_attr w iv a v z) as [[]]; exact L end.
      - p. apply P_set_attr.
      - intros e. p; auto using P_set_attr, P_object_setattr.
    Qed.
    Lemma P_set_one iv key v : P (set_one w o iv key v).
    Proof.
      unfold set_one. p; auto using P_set_attr, P_inst_setitem, P_set_plain_attr, P_swap_if_proxy.
    Qed.
    Lemma P_from_dict ob iv : part_of ob -> P (restore_from_dict w o rec ob iv).
    Proof.
      intros PT. unfold restore_from_dict. p; auto using P_set_one.
      - apply P_key. intros. eapply part_key; eauto.
      - apply P_rec. eapply part_snd; eauto.
    Qed.
    Lemma P_from_vals d iv : P (restore_from_vals w o d iv).
    Proof. unfold restore_from_vals. p. apply P_set_one. Qed.
    Lemma P_call_setstate iv i l st : P (call_setstate w iv i l st).
    Proof. unfold call_setstate. p. Qed.
    Lemma part_jfield ob t : part_of ob -> shas t ob = true -> sm (jfield t ob) top.
    Proof.
      intros PT H. unfold jfield, shas in *. destruct (sget t ob) eqn:E; [|discriminate].
      eapply part_field; eauto. apply sget_In; eauto.
    Qed.
    Lemma P_default_state iv st : P (default_state w o iv st).
    Proof. unfold default_state. p; auto using P_from_vals. Qed.
    Lemma P_state ob iv : part_of ob -> shas STATE ob = true -> P (restore_state w o rec ob iv).
    Proof.
      intros PT HS. unfold restore_state. p; auto using P_call_setstate, P_default_state.
      apply P_rec. apply part_jfield; auto.
    Qed.
    Lemma P_do_append t v : P (do_append t v).
    Proof. unfold do_append. p. Qed.
    Lemma P_do_add t v : P (do_add w t v).
    Proof. unfold do_add. p. Qed.
    Lemma P_instvars ob iv : part_of ob -> P (restore_object_instance_variables w o rec ob iv).
    Proof.
      intros PT. unfold restore_object_instance_variables. p; auto using P_from_dict, P_do_append, P_do_add.
      - apply P_rec. eapply part_iter; eauto. apply sget_In; eauto. eapply lift_ret; eauto.
      - apply P_rec. eapply part_iter; eauto. apply sget_In; eauto. eapply lift_ret; eauto.
      - apply P_state; auto. unfold shas. match goal with H : sget STATE ob = _ |- _ => rewrite H end. reflexivity.
    Qed.
    Lemma loadfactory_part ob s f ob' s' : loadfactory rec ob s = (Ret (f, ob'), s') -> incl ob' ob.
    Proof.
      unfold loadfactory. intros H x I.
      assert (K : forall (g : option json) (o0 : jobj),
        (match g with Some JNull | None => ret (None, o0) | Some j => v <- rec j ;; ret (Some v, o0) end) s
          = (Ret (f, ob'), s') -> o0 = ob').
      { intros g o0 G. destruct g as [[]|]; try (unfold ret in G; inversion G; reflexivity);
        destruct (bind_ret_inv _ _ _ _ _ G) as (a & s1 & _ & G2); unfold ret in G2; inversion G2; reflexivity. }
      destruct (sget DEFAULT_FACTORY ob) as [g|] eqn:E1;
        [|destruct (sget (u "default_factory") ob) as [g|] eqn:E2].
      - rewrite <- (K (Some g) _ H) in I. eapply sdel_mem; eauto.
      - rewrite <- (K (Some g) _ H) in I. eapply sdel_mem; eauto.
      - rewrite <- (K None _ H) in I. exact I.
    Qed.
    Lemma P_loadfactory ob : part_of ob -> P (loadfactory rec ob).
    Proof.
      intros PT. unfold loadfactory.
      destruct (sget DEFAULT_FACTORY ob) as [f|] eqn:E1;
        [|destruct (sget (u "default_factory") ob) as [f|] eqn:E2; [|p]].
      - assert (sm f top) by (eapply part_field; eauto; apply sget_In; eauto). p; auto.
      - assert (sm f top) by (eapply part_field; eauto; apply sget_In; eauto). p; auto.
    Qed.
    Lemma P_getargs ob : part_of ob -> P (getargs w ob).
    Proof.
      intros PT. unfold getargs. p; apply P_loadclass. intros s ->.
      match goal with H : sget OBJECT ob = Some _ |- _ => apply sget_In in H; destruct (PT _ H) as (ob0 & T & I0) end.
      exists ob0, OBJECT. unfold name_tag. auto.
    Qed.
    Lemma getargs_sm ob s a s' : part_of ob -> getargs w ob s = (Ret a, s') -> jtruthy a = true -> sm a top.
    Proof.
      intros PT. unfold getargs.
      destruct (sget NEWARGS ob) as [x|] eqn:E1.
      { intros H. inversion H; subst. intros _. eapply part_field; eauto. apply sget_In; eauto. }
      destruct (sget INITARGS ob) as [x|] eqn:E2.
      { intros H. inversion H; subst. intros _. eapply part_field; eauto. apply sget_In; eauto. }
      destruct (sget SEQ ob) as [sq|] eqn:E3; [|intros H; inversion H; discriminate].
      destruct (sget OBJECT ob) as [cn|]; [|intros H; inversion H; discriminate].
      intros H J. destruct (bind_ret_inv _ _ _ _ _ H) as (t & s1 & _ & H2). clear H.
      destruct t; try (unfold ret in H2; inversion H2; subst; discriminate).
      destruct (c_fields _); try (unfold ret in H2; inversion H2; subst; discriminate).
      destruct (bind_ret_inv _ _ _ _ _ H2) as (l & s2 & _ & H3).
      destruct (Nat.eqb _ _); unfold ret in H3; inversion H3; subst; try discriminate.
      eapply part_field; eauto. apply sget_In; eauto.
    Qed.
    Lemma P_args j : (jtruthy j = true -> sm j top) -> P (restore_args w rec j).
    Proof. intros H. unfold restore_args. p. apply P_rec; auto. Qed.
    Lemma P_kwargs j : (jtruthy j = true -> sm j top) -> P (restore_kwargs w rec j).
    Proof. intros H. unfold restore_kwargs. p. apply P_rec; auto. Qed.
    Lemma args_no_oof j s r s' : restore_args w rec j s = (Ret r, s') -> r <> OOF.
    Proof.
      unfold restore_args. destruct (jtruthy j).
      - intros H. destruct (bind_ret_inv _ _ _ _ _ H) as (v & s1 & _ & H2).
        destruct (bind_ret_inv _ _ _ _ _ H2) as (h & s2 & _ & H3). unfold ret in H3. inversion H3.
        apply iter_val_no_oof.
      - unfold ret. intros H. inversion H. destruct j; discriminate.
    Qed.
    Lemma kwargs_no_oof j s r s' : restore_kwargs w rec j s = (Ret r, s') -> r <> OOF.
    Proof.
      unfold restore_kwargs. destruct (jtruthy j).
      - intros H. destruct (bind_ret_inv _ _ _ _ _ H) as (v & s1 & _ & H2).
        destruct (bind_ret_inv _ _ _ _ _ H2) as (h & s2 & _ & H3). unfold ret in H3. inversion H3.
        destruct (as_dict w h v); [destruct (str_keyed l)|]; discriminate.
      - unfold ret. intros H. inversion H. destruct j; discriminate.
    Qed.
    Lemma P_new_attempt c f a kw : a <> OOF -> kw <> OOF -> P (new_attempt w c f a kw).
    Proof.
      intros Ha Hk. unfold new_attempt. p; auto using P_lift, P_u_truthy, P_do_new, P_set_attr.
    Qed.
    Lemma P_object_instance ob cv cn : JObj ob = top -> In (OBJECT, JStr cn) ob -> P (restore_object_instance w o rec ob cv cn).
    Proof.
      intros T HN. pose proof (part_self ob T) as PT. unfold restore_object_instance.
      assert (KN : named (uo_safe o) okd (EvWarn cn)) by (exists ob; auto).
      apply P_bind; [apply P_new_proxy|]. intros proxy ? ? _.
      apply P_bind; [apply P_umkref|]. intros _ ? ? _.
      apply P_bind; [apply P_loadfactory; auto|]. intros [f ob'] s1 s2 LF.
      assert (PT' : part_of ob') by (intros x I; apply PT; eapply loadfactory_part; eauto).
      assert (AK : P (match sget NEWARGSEX ob' with
            | Some p => '(a, kw) <- lift (junpack2 p) ;; ret (a, kw)
            | None => a <- getargs w ob' ;; ret (a, JObj [])
            end)).
      { p. apply P_getargs; auto. }
      apply P_bind; [exact AK|]. intros [aj kj] s3 s4 HA. cbn [fst snd].
      assert (SA : (jtruthy aj = true -> sm aj top) /\ (jtruthy kj = true -> sm kj top)).
      { destruct (sget NEWARGSEX ob') as [q|] eqn:E.
        - destruct (bind_ret_inv _ _ _ _ _ HA) as ([a b] & s5 & H1 & H2). apply lift_ret in H1.
          unfold ret in H2. inversion H2; subst.
          unfold junpack2 in H1. destruct (jiter q) as [[|x [|y [|]]]|e|] eqn:J; inversion H1; subst.
          split; intros _.
          + refine (part_iter ob' NEWARGSEX q [aj; kj] aj PT' (sget_In _ _ _ E) J _). left; auto.
          + refine (part_iter ob' NEWARGSEX q [aj; kj] kj PT' (sget_In _ _ _ E) J _). right; left; auto.
        - destruct (bind_ret_inv _ _ _ _ _ HA) as (a & s5 & H1 & H2). unfold ret in H2. inversion H2; subst.
          split; [|discriminate]. intros J. eapply getargs_sm; eauto. }
      destruct SA as [SA SK].
      apply P_bind; [apply P_args; auto|]. intros args s5 s6 RA. apply args_no_oof in RA.
      apply P_bind; [apply P_kwargs; auto|]. intros kw s7 s8 RK. apply kwargs_no_oof in RK.
      p; auto using P_new_attempt, P_lift, P_do_call, P_fresh_inst, P_process_missing, P_instvars, P_set_attr.
    Qed.
    Lemma P_hscript h sc : script_in top sc -> P (run_hscript w rec h sc).
    Proof.
      induction sc as [r|e|j kk IH]; simpl; intros H.
      - destruct r; auto using P_fresh_inst.
      - auto.
      - destruct H as [H1 H2]. apply P_bind; [auto|]. intros. apply IH, H2.
    Qed.
    Lemma P_object ob : JObj ob = top -> P (restore_object w o rec ob).
    Proof.
      intros T. unfold restore_object. cbv zeta. apply P_bind; [apply P_loadclass|].
      { intros s E. exists ob, OBJECT. unfold name_tag. auto using jfield_str_In. }
      intros cv s s' _.
      destruct (jfield OBJECT ob) as [| | | |cn| |] eqn:EJ; try apply P_raise. apply jfield_str_In in EJ.
      destruct (match cv with VType c => _ | _ => _ end) as [h|].
      - p; auto. { apply P_log; [reflexivity|exact I|discriminate]. } apply P_hscript. rewrite <- T. apply handlers_in.
      - assert (KN : named (uo_safe o) okd (EvWarn cn)) by (exists ob; auto).
        destruct cv; p; auto using P_process_missing, P_object_instance.
    Qed.
    Lemma P_fail_reduce p : P (fail_reduce p).
    Proof. unfold fail_reduce. p. Qed.
    Lemma P_reduce_make f a : P (reduce_make w f a).
    Proof. unfold reduce_make. p; auto using P_do_new, P_do_call, P_u_iter. Qed.
    Lemma P_setattr_items t d : P (setattr_items w t d).
    Proof. unfold setattr_items. p. apply P_set_attr. Qed.
    Lemma setattr_items_log t d s : u_log (snd (setattr_items w t d s)) = u_log s.
    Proof.
      unfold setattr_items. revert s. induction d as [|[key v] d IH]; intros s; [reflexivity|]. cbn [foldM fst snd]. unfold bind.
      destruct key; try reflexivity. pose proof (set_attr_log t s0 v s) as L. destruct (set_attr w t s0 v s) as [[[]| |] s1]; try exact L.
      rewrite IH. exact L.
    Qed.
    Lemma P_reduce_state3 a b : P (reduce_state3 w a b).
    Proof.
      unfold reduce_state3. apply P_bind; [p|]. intros h s s' _. apply P_catch.
      - right. intros s0. destruct (as_dict w h b); [apply setattr_items_log|reflexivity].
      - p. apply P_setattr_items.
      - intros e. p; auto using P_setattr_items, P_u_iter, P_u_truthy, P_dict_assign.
    Qed.
    Lemma P_reduce_state2 a b : P (reduce_state2 w a b).
    Proof. unfold reduce_state2. p; auto using P_reduce_state3, P_set_attr. Qed.
    Lemma P_reduce_state a b c : P (reduce_state w a b c).
    Proof.
      unfold reduce_state. p; auto using P_reduce_state2, P_u_truthy, P_call_setstate.
    Qed.
    Lemma P_listitems a b : P (reduce_listitems w a b).
    Proof. unfold reduce_listitems. p; auto using P_u_truthy, P_u_iter, P_do_append. Qed.
    Lemma P_dictitems a b : P (reduce_dictitems w a b).
    Proof. unfold reduce_dictitems. p; auto using P_u_truthy, P_u_iter, P_dict_assign, P_inst_setitem. Qed.
    Lemma P_reduce ob : JObj ob = top -> P (restore_reduce w rec ob).
    Proof.
      intros T. unfold restore_reduce. p;
        auto using P_fail_reduce, P_reduce_make, P_reduce_state, P_listitems, P_dictitems.
      apply P_rec. eapply jiter_jfield_sm; eauto. eapply lift_ret; eauto.
    Qed.

    Lemma P_step_top j0 : j0 = top -> P (restore_step w o rec j0).
    Proof.
      intros T. unfold restore_step. destruct j0 as [| | | | |l|ob]; try apply P_ret.
      - apply P_restore_list. intros l' x E I. rewrite <- T. inversion E; subst. apply sm_item; auto.
      - repeat match goal with |- P (if ?b then _ else _) => case_eq b; intros ? end;
          auto using P_tuple, P_set, P_base64, P_base85, P_bytearray, P_id, P_iterator, P_object, P_type,
                     P_reduce, P_function, P_module, P_repr_safe, P_dict.
        apply P_repr. intros s Hs. eapply P_eval; eauto.
    Qed.
  End step.
  Lemma P_step rec j :
    (forall ob, JObj ob = j -> okd ob) ->
    (forall ob s, JObj ob = j -> In (REPR, JStr s) ob -> shas REPR ob = true -> uo_safe o = false -> P (log (EvEval s))) ->
    (forall j', sm j' j -> P (rec j')) -> P (restore_step w o rec j).
  Proof. intros H0 H1 H2. eapply P_step_top; eauto. Qed.
End gen.
