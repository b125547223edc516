(** C03, C09 (encoder), C12, C13: what encode does with arbitrary finite graphs. *)
From Verif Require Import PyStr Tags Json JsonText JsonTextProofs B64 B85 Base Heap Registry Pickler PGen PTerm PSame PDoc SpecDoc EncodeProofs Samples.
Open Scope nat_scope.
Local Open Scope monad_scope.

(** C03.  On a finite graph encode returns a text or raises, and always the same: r does not
    depend on the fuel (if there is enough), nor on what the pickler did before.  User code is
    assumed to return; iterators to end or to be cut by max_iter; custom handlers not to reset
    the pickler they are called by. *)
Theorem C03_encode_terminates :
  forall w k o h dm N v, po_unpicklable o = true -> po_make_refs o = true ->
  po_readonly o = false -> po_sort o = false ->
  finite_graph w k o h dm N -> good h dm v ->
  exists n0 r, r <> OOF /\ forall n s, n0 <= n -> p_heap s = h -> fst (encode w k o n v s) = r.
Proof.
  intros w k o h dm N v Ou Om Or Os FG Gv. set (n0 := S (budget h dm N)).
  assert (D1 : 1 <= dm) by (destruct Gv as [_ Gv]; destruct v; cbn [vdepth] in Gv; lia).
  pose proof (encode_ends w k o h dm N Or Os (or_introl (conj Ou Om)) FG D1 n0 v (new_pickler h) eq_refl Gv (le_n _)) as E.
  exists n0, (fst (encode w k o n0 v (new_pickler h))). split; auto. intros n s L Hs.
  pose proof (encode_state w k o n0 n v (new_pickler h) s L (eq_sym Hs)) as X.
  destruct (encode w k o n0 v (new_pickler h)) as [[t|e|] s1]; [| |destruct E; auto]; destruct X as (s2 & -> & _); reflexivity.
Qed.
Print Assumptions C03_encode_terminates.

(** A check for graphs without user code. *)
Definition good_b (h : heap) (dm : nat) (v : val) : bool := in_range (length h) v && (vdepth v <=? dm).
Definition heap_ok (w : world) (h : heap) (dm : nat) : bool :=
  forallb (fun ob => forallb (good_b h dm) (obj_vals ob) &&
                     match ob with OSet xs => forallb (hashable (w_cls w) h) xs | _ => true end) h.
Lemma finite_sample o h dm : po_fail_safe o = None -> 1 <= dm -> heap_ok W0 h dm = true -> finite_graph W0 K0 o h dm 0.
Proof.
  intros Of D H. unfold heap_ok in H. rewrite forallb_forall in H.
  assert (GA : forall v, (forall l, v <> VTuple l) -> (forall l, v <> VLoc l) -> good h dm v).
  { intros v H1 H2. split; destruct v; cbn; auto; try (destruct (H1 l); auto); destruct (H2 l); auto. }
  assert (GG : forall m a x, w_getattr W0 m a = Ret x -> (exists c, x = VType c) \/ (exists f, x = VFun f)).
  { intros m a x. change (w_getattr W0 m a) with (sample_getattr m a). unfold sample_getattr.
    destruct m; try discriminate. destruct m; [|discriminate]. destruct (seqb a (u "f")); [intros E; inversion E; right; eexists; reflexivity|].
    generalize 0. induction sample_classes as [|c l IH]; intros n; cbn [find_class]; [discriminate|].
    destruct (seqb (c_qualname c) a); [intros E; inversion E; left; eexists; reflexivity|exact (IH (S n))]. }
  constructor.
  - intros l ob x G I. apply nth_error_In in G. specialize (H ob G). apply andb_true_iff in H. destruct H as [H _].
    rewrite forallb_forall in H. specialize (H x I). apply andb_true_iff in H. destruct H as [H1 H2].
    apply Nat.leb_le in H2. split; auto.
  - intros l xs G. apply nth_error_In in G. specialize (H _ G). apply andb_true_iff in H. apply H.
  - intros l x E. inversion E. constructor.
  - intros l x E. inversion E. split; simpl; auto.
  - intros l x E. inversion E. split; simpl; auto.
  - intros l x E. inversion E. apply GA; discriminate.
  - discriminate.
  - discriminate.
  - discriminate.
  - intros f x E. inversion E. apply GA; discriminate.
  - intros m a x E. destruct (GG m a x E) as [(c & ->)|(c & ->)]; apply GA; discriminate.
  - repeat split; try discriminate. intros m a. change (w_getattr W0 m a) with (sample_getattr m a). unfold sample_getattr.
    destruct m; try discriminate. destruct m; [|discriminate]. destruct (seqb a (u "f")); [discriminate|].
    generalize 0. induction sample_classes as [|c l IH]; intros n; cbn [find_class]; [discriminate|].
    destruct (seqb (c_qualname c) a); [discriminate|auto].
  - left. discriminate.
  - intros. exact I.
  - intros f e E. congruence.
Qed.
(** Cycles through an instance, a list, a tuple, a set and a dict. *)
Definition H_knot : heap :=
  [ plain_inst cNode 1;
    ODict [(VStr (u "next"), VTuple [VTuple [VLoc 0; VLoc 2]]); (VStr (u "set"), VLoc 3)];
    OList [VLoc 0; VTuple [VInt 1; VLoc 2]; VLoc 2; VLoc 4];
    OSet [VLoc 0; VTuple [VLoc 0; VInt 1]];
    ODict [(VStr (u "k"), VLoc 4); (VTuple [VLoc 0], VLoc 2)] ].
Example C03_case : finite_graph W0 K0 PO H_knot 3 0 /\ good H_knot 3 (VLoc 0) /\
  show (enc W0 K0 PO 20 H_knot (VLoc 0)) =
  Ret "{""py/object"": ""m.Node"", ""next"": {""py/tuple"": [{""py/tuple"": [{""py/id"": 0}, [{""py/id"": 0}, {""py/tuple"": [1, {""py/id"": 1}]}, {""py/id"": 1}, {""k"": {""py/id"": 2}, ""<object>"": {""py/id"": 1}}]]}]}, ""set"": {""py/set"": [{""py/id"": 0}, {""py/tuple"": [{""py/id"": 0}, 1]}]}}"%string.
Proof.
  split; [apply finite_sample; [reflexivity|lia|vm_compute; reflexivity]|]. split; [split; vm_compute; auto|]. vm_compute. reflexivity.
Qed.

(** With unpicklable=False (and make_refs left alone) a list that contains itself is taken
    apart for ever: the hypothesis on the options is needed. *)
Definition PO_plain : popts :=
  {| po_unpicklable := false; po_make_refs := true; po_keys := false; po_max_depth := None;
     po_warn := false; po_max_iter := None; po_b85 := false; po_fail_safe := None; po_props := false;
     po_readonly := false; po_root := VNone; po_sort := false; po_ctx := None; po_numeric := false |}.
Definition H_self : heap := [OList [VLoc 0]].
Lemma plain_self_loops n : forall s, p_heap s = H_self -> p_cache s = [] -> fst (flatten W0 K0 PO_plain n (VLoc 0) s) = OOF.
Proof.
  induction n as [|n IH]; intros s Hh Hc; [reflexivity|].
  cbn [flatten]. unfold flatten_step. cbn [PO_plain po_unpicklable andb]. unfold bind at 1, gets. rewrite Hc. cbn [cache_get].
  assert (X : fst (flatten_impl W0 K0 PO_plain n (flatten W0 K0 PO_plain n) (VLoc 0) s) = OOF).
  { unfold flatten_impl. unfold bind at 1, gets. rewrite Hh. cbn [prim_json hget H_self nth_error].
    unfold push. unfold bind at 1, modify. unfold bind at 1. unfold flatten_obj, max_reached. unfold bind at 1 2, gets, ret at 1.
    cbn [PO_plain po_max_depth]. unfold catch, in_cycle. unfold bind at 1 2, get, ret at 1.
    cbn [PO_plain po_make_refs negb andb orb set_depth p_objs p_heap].
    unfold bind at 1. unfold get_flattener. unfold bind at 1. unfold get_obj. unfold bind at 1, gets. cbn [set_depth p_heap].
    rewrite Hh. cbn [hget H_self nth_error]. unfold ret at 1. cbv beta iota. unfold mkref. unfold bind at 1 2. unfold log_ref. cbn [set_depth p_objs].
    assert (Y : forall s1, p_heap s1 = H_self -> p_cache s1 = [] ->
      fst ((j <- list_recurse (flatten W0 K0 PO_plain n) [VLoc 0];; ret (Some j)) s1) = OOF).
    { intros s1 H1 H2. unfold list_recurse. cbn [mapM]. unfold bind. specialize (IH s1 H1 H2).
      destruct (flatten W0 K0 PO_plain n (VLoc 0) s1) as [r s2]. simpl in IH. subst r. reflexivity. }
    destruct (index_of (VLoc 0) (p_objs s)); unfold ret at 1; cbn [PO_plain po_unpicklable negb orb].
    - match goal with |- context[(j <- list_recurse _ _;; _) ?x] => specialize (Y x Hh Hc); destruct ((j <- list_recurse (flatten W0 K0 PO_plain n) [VLoc 0];; ret (Some j)) x) as [r s2] end.
      simpl in Y. subst r. reflexivity.
    - match goal with |- context[(j <- list_recurse _ _;; _) ?x] => specialize (Y x Hh Hc); destruct ((j <- list_recurse (flatten W0 K0 PO_plain n) [VLoc 0];; ret (Some j)) x) as [r s2] end.
      simpl in Y. subst r. reflexivity. }
  unfold bind. destruct (flatten_impl W0 K0 PO_plain n (flatten W0 K0 PO_plain n) (VLoc 0) s) as [r s1]. simpl in X. subst r. reflexivity.
Qed.
Theorem C03_unpicklable_false_refuted :
  exists w k o h v, po_make_refs o = true /\ finite_graph w k o h 1 0 /\ good h 1 v /\
  forall n s, p_heap s = h -> fst (encode w k o n v s) = OOF.
Proof.
  exists W0, K0, PO_plain, H_self, (VLoc 0). split; [reflexivity|].
  split; [apply finite_sample; [reflexivity|lia|vm_compute; reflexivity]|]. split; [split; vm_compute; auto|].
  intros n s Hh. unfold encode, pickle, pflatten. unfold bind at 1 2, p_reset, modify. cbn [PO_plain po_sort].
  unfold bind at 1, ret at 1. pose proof (plain_self_loops n (p_reset_st s) Hh eq_refl) as X.
  destruct (flatten W0 K0 PO_plain n (VLoc 0) (p_reset_st s)) as [r s1]. simpl in X. subst r. reflexivity.
Qed.
Print Assumptions C03_unpicklable_false_refuted.

(** C09, encoder: a call that resets gives the answer of a new pickler, whatever the history. *)
Inductive pcall : Type := PCall (w : world) (k : hooks) (o : popts) (fuel : nat) (reset : bool) (v : val).
Fixpoint run_pcalls (l : list pcall) (s : pst) : pst :=
  match l with
  | [] => s
  | PCall w k o n r v :: rest => run_pcalls rest (snd (pickle w k o n r v s))
  end.
Theorem C09_encoder_history :
  forall w k o n v calls h, let s := run_pcalls calls (new_pickler h) in
  fst (pickle w k o n true v s) <> OOF ->
  fst (pickle w k o n true v s) = fst (pickle w k o n true v (new_pickler (p_heap s))) /\
  p_heap (snd (pickle w k o n true v s)) = p_heap (snd (pickle w k o n true v (new_pickler (p_heap s)))).
Proof.
  intros w k o n v calls h s Nf. pose proof (pickle_state w k o n n v s (new_pickler (p_heap s)) (le_n _) eq_refl) as X.
  destruct (pickle w k o n true v s) as [[j|e|] s1]; [| |destruct Nf; reflexivity];
    destruct X as (s2 & -> & E); split; auto; apply E.
Qed.
Print Assumptions C09_encoder_history.
Theorem C09_encode_any_pickler :
  forall w k o n v s s', p_heap s = p_heap s' -> fst (encode w k o n v s) <> OOF ->
  fst (encode w k o n v s) = fst (encode w k o n v s').
Proof.
  intros w k o n v s s' H Nf. pose proof (encode_state w k o n n v s s' (le_n _) H) as X.
  destruct (encode w k o n v s) as [[j|e|] s1]; [| |destruct Nf; reflexivity]; destruct X as (s2 & -> & E); auto.
Qed.
Print Assumptions C09_encode_any_pickler.
(** A history with a call that fails part-way, leaving numbered objects behind. *)
Definition K_bad : hooks :=
  {| k_reduce := k_reduce K0; k_getstate := fun _ => Exc ERuntimeError; k_newargs := k_newargs K0;
     k_newargs_ex := k_newargs_ex K0; k_initargs := k_initargs K0; k_iter := k_iter K0; k_attr := k_attr K0; k_dir := k_dir K0;
     k_props := k_props K0; k_eqdict := k_eqdict K0; k_members := k_members K0; k_repr := k_repr K0; k_str := k_str K0; k_call0 := k_call0 K0 |}.
Definition H_bad : heap :=
  [ plain_inst cNode 1; ODict [(VStr (u "bad"), VLoc 2); (VStr (u "l"), VLoc 3)]; plain_inst cState 4; OList []; ODict [] ].
Example C09_case :
  let s := run_pcalls [PCall W0 K_bad PO 20 true (VLoc 0)] (new_pickler H_bad) in
  p_objs s = [VLoc 0; VLoc 2] /\ p_depth s = 1%Z /\
  fst (pickle W0 K0 PO 20 true (VLoc 3) s) = Ret (JList []).
Proof. vm_compute. auto. Qed.

(** C13.  make_refs=False *)
Theorem C13_make_refs_false_terminates :
  forall w k o h dm N v, po_make_refs o = false -> (forall c, c_enum (w_cls w c) = false) ->
  po_readonly o = false -> po_sort o = false ->
  finite_graph w k o h dm N -> good h dm v ->
  exists n0 r, r <> OOF /\ forall n s, n0 <= n -> p_heap s = h -> fst (encode w k o n v s) = r.
Proof.
  intros w k o h dm N v Om He Or Os FG Gv. set (n0 := S (budget h dm N)).
  assert (D1 : 1 <= dm) by (destruct Gv as [_ Gv]; destruct v; cbn [vdepth] in Gv; lia).
  pose proof (encode_ends w k o h dm N Or Os (or_intror (conj Om He)) FG D1 n0 v (new_pickler h) eq_refl Gv (le_n _)) as E.
  exists n0, (fst (encode w k o n0 v (new_pickler h))). split; auto. intros n s L Hs.
  pose proof (encode_state w k o n0 n v (new_pickler h) s L (eq_sym Hs)) as X.
  destruct (encode w k o n0 v (new_pickler h)) as [[t|e|] s1]; [| |destruct E; auto]; destruct X as (s2 & -> & _); reflexivity.
Qed.
Print Assumptions C13_make_refs_false_terminates.
Theorem C13_no_references :
  forall w k o n v s text s', po_make_refs o = false -> po_readonly o = false -> po_sort o = false ->
  keys_clean w k o (fun _ => true) (fun n => n = u "py/id") ->
  encode w k o n v s = (Ret text, s') ->
  exists j, text = dumps j /\ ~ In (u "py/id") (doc_keys j).
Proof. intros w k o n v s text s' Om Or Os KC. exact (encode_norefs w k o Or Os Om KC n v s text s'). Qed.
Print Assumptions C13_no_references.
Definition PO_norefs : popts :=
  {| po_unpicklable := true; po_make_refs := false; po_keys := false; po_max_depth := None;
     po_warn := false; po_max_iter := None; po_b85 := false; po_fail_safe := None; po_props := false;
     po_readonly := false; po_root := VNone; po_sort := false; po_ctx := None; po_numeric := false |}.
Lemma keys_clean_sample o ok (bad : pystr -> Prop) : po_fail_safe o = None -> po_props o = false -> po_numeric o = false ->
  (forall n, bad n -> exists r, n = 112%N :: r) -> keys_clean W0 K0 o ok bad.
Proof.
  intros Of Op On Hb. constructor; try congruence.
  - intros v n Hv E B. unfold key_string in E. rewrite On in E. destruct (Hb n B) as (r & ->).
    assert (NP : forall z, string_of_Z z <> 112%N :: r).
    { intros z Ez. destruct (string_of_Z_head z) as (c & r1 & E1 & [->|Hc]); rewrite E1 in Ez; inversion Ez; subst; discriminate. }
    destruct v; cbn in E; try discriminate E; inversion E.
    + destruct b; discriminate.
    + exact (NP z H0).
    + destruct (Hv s); auto.
  - intros. exact I.
Qed.
Example C13_case : keys_clean W0 K0 PO_norefs (fun _ => true) (fun n => n = u "py/id") /\
  show (enc W0 K0 PO_norefs 20 H_knot (VLoc 0)) =
  Ret "{""py/object"": ""m.Node"", ""next"": {""py/tuple"": [{""py/tuple"": [""<object>"", [""<object>"", {""py/tuple"": [1, ""<object>""]}, ""<object>"", {""k"": ""<object>"", ""<object>"": ""<object>""}]]}]}, ""set"": {""py/set"": [""<object>"", {""py/tuple"": [""<object>"", 1]}]}}"%string.
Proof.
  split; [|vm_compute; reflexivity]. apply keys_clean_sample; [reflexivity|reflexivity|reflexivity|].
  intros n ->. eexists. vm_compute. reflexivity.
Qed.

(** The hypothesis on enum members is needed: [class E(Enum): A = set()] with
    [E.A.value.add(E.A)].  Members are exempt from the test for cycles, sets have no number. *)
Definition enum_cls (c : cinfo) : cinfo :=
  {| c_name := c_name c; c_qualname := c_qualname c; c_module := c_module c; c_types_name := c_types_name c;
     c_kind := c_kind c; c_dict := c_dict c; c_slots := c_slots c; c_exclude := c_exclude c; c_enum := true;
     c_isfun := c_isfun c; c_getstate := c_getstate c; c_setstate := c_setstate c; c_newargs := c_newargs c;
     c_newargs_ex := c_newargs_ex c; c_initargs := c_initargs c; c_reduce := true; c_fields := c_fields c;
     c_deffac := c_deffac c; c_hash := c_hash c; c_callable := c_callable c; c_intstr := c_intstr c;
     c_setattr := c_setattr c |}.
Definition W_en : world :=
  {| w_cls := fun _ => enum_cls (cbase "E"); w_fun := sample_fun; w_mod := w_mod W0; w_sub := w_sub W0; w_import := w_import W0;
     w_import_top := w_import_top W0; w_sysmod := w_sysmod W0; w_getattr := fun _ _ => Exc EAttributeError;
     w_new := w_new W0; w_call := w_call W0; w_blank := w_blank W0; w_ext_callable := w_ext_callable W0; w_setstate := w_setstate W0;
     w_setter := w_setter W0; w_eval := w_eval W0; w_reg := w_reg W0; w_hflat := w_hflat W0; w_hrest := w_hrest W0;
     w_hctx_flat := w_hctx_flat W0; w_hctx_rest := w_hctx_rest W0; w_clone := w_clone W0; w_nonetype := w_nonetype W0 |}.
(** [Enum.__reduce_ex__] returns (E, (value,)). *)
Definition K_en : hooks :=
  {| k_reduce := fun _ => Ret (RTup [VType 0; VTuple [VLoc 2]]); k_getstate := k_getstate K0; k_newargs := k_newargs K0; k_newargs_ex := k_newargs_ex K0;
     k_initargs := k_initargs K0; k_iter := k_iter K0; k_attr := k_attr K0; k_dir := k_dir K0;
     k_props := k_props K0; k_eqdict := k_eqdict K0; k_members := k_members K0; k_repr := k_repr K0; k_str := k_str K0;
     k_call0 := k_call0 K0 |}.
Definition H_en : heap := [plain_inst 0 1; ODict [(VStr (u "_value_"), VLoc 2)]; OSet [VLoc 0]].
Lemma oof_bind {S A B} (m : M S A) (f : A -> M S B) s : fst (m s) = OOF -> fst (bind m f s) = OOF.
Proof. intros E. unfold bind. destruct (m s) as [r s1]. cbn [fst] in E. subst r. reflexivity. Qed.
Lemma oof_catch {S A} (m : M S A) p hd s : fst (m s) = OOF -> fst (catch m p hd s) = OOF.
Proof. intros E. unfold catch. destruct (m s) as [r s1]. cbn [fst] in E. subst r. reflexivity. Qed.
Definition en_state (s : pst) : Prop :=
  p_heap s = H_en /\ (p_objs s = [] \/ p_objs s = [VLoc 0]) /\
  forall v, In v [VLoc 0; VTuple [VLoc 2]; VLoc 2] -> cache_get v (p_cache s) = None.
Lemma enum_type n s : en_state s -> fst (flatten W_en K_en PO_norefs n (VType 0) s) = OOF \/
  exists j s', flatten W_en K_en PO_norefs n (VType 0) s = (Ret j, s') /\ en_state s'.
Proof.
  intros (Hh & Ho & Hc). destruct n as [|n]; [left; reflexivity|]. right. cbn [flatten]. unfold flatten_step.
  cbn [PO_norefs po_unpicklable po_make_refs andb]. unfold bind at 1, gets.
  destruct (cache_get (VType 0) (p_cache s)) as [j|] eqn:E; [exists j, s; split; [reflexivity|split; auto]|].
  unfold flatten_impl, flatten_obj, max_reached, in_cycle, get_flattener, push, pop, catch, modify, bind, gets, get, ret.
  cbn -[flatten]. assert (I0 : index_of (VType 0) (p_objs s) = None) by (destruct Ho as [-> | ->]; reflexivity). rewrite I0.
  cbn -[flatten]. destruct (p_depth s + 1 - 1 =? -1)%Z; eexists; eexists; (split; [reflexivity|]); (split; [exact Hh|split; [cbn; auto|]]);
    intros v Iv; (destruct Iv as [<-|[<-|[<-|[]]]]; cbn [p_reset_st set_cache p_cache cache_get set_depth]; cbn; try reflexivity; apply Hc; cbn; auto).
Qed.
Lemma enum_loops n : forall v s, In v [VLoc 0; VTuple [VLoc 2]; VLoc 2] -> en_state s ->
  fst (flatten W_en K_en PO_norefs n v s) = OOF.
Proof.
  induction n as [|n IH]; intros v s Iv (Hh & Ho & Hc); [reflexivity|].
  cbn [flatten]. unfold flatten_step. cbn [PO_norefs po_unpicklable po_make_refs andb]. unfold bind at 1, gets. rewrite (Hc v Iv).
  apply oof_bind. unfold flatten_impl. unfold bind at 1, gets. rewrite Hh.
  set (s1 := set_depth (p_depth s + 1)%Z s).
  assert (S1 : en_state s1) by (split; [exact Hh|split; [exact Ho|exact Hc]]).
  assert (F : fst (flatten_obj W_en K_en PO_norefs n (flatten W_en K_en PO_norefs n) v s1) = OOF).
  { unfold flatten_obj, max_reached. unfold bind at 1 2, gets, ret at 1. cbn [PO_norefs po_max_depth].
    apply oof_catch. unfold in_cycle. unfold bind at 1 2, get, ret at 1. pose proof S1 as (H1 & O1 & C1). rewrite H1.
    destruct Iv as [<-|[<-|[<-|[]]]].
    - cbn -[flatten]. rewrite andb_false_r. apply oof_bind. unfold get_obj, gets, bind at 1 2. rewrite H1. cbn -[flatten].
      apply oof_bind.
      assert (Y : forall s2, en_state s2 -> fst (flatten_obj_instance W_en K_en PO_norefs n (flatten W_en K_en PO_norefs n) 0 s2) = OOF).
      { intros s2 S2. pose proof S2 as (H2 & O2 & C2). unfold flatten_obj_instance, get_obj, gets. unfold bind at 1 2. rewrite H2.
        cbn -[flatten mapM]. apply oof_bind. unfold reduce_of. unfold bind at 1. cbn -[flatten mapM]. apply oof_bind. cbn [mapM].
        destruct (enum_type n s2 S2) as [E|(j & s3 & E & S3)]; [apply oof_bind; exact E|].
        unfold bind at 1. rewrite E. apply oof_bind. apply oof_bind. apply IH; [cbn; auto|exact S3]. }
      unfold mkref, log_ref. unfold bind at 1 2. destruct O1 as [O1|O1]; rewrite O1; cbn -[flatten]; apply Y.
      + split; [exact H1|split; [right; cbn; rewrite ?O1; reflexivity|exact C1]].
      + exact S1.
    - assert (I0 : index_of (VTuple [VLoc 2]) (p_objs s1) = None) by (destruct O1 as [-> | ->]; reflexivity). rewrite I0.
      cbn -[flatten]. apply oof_bind. apply oof_bind. unfold list_recurse. apply oof_bind. cbn [mapM]. apply oof_bind. apply IH; [cbn; auto|exact S1].
    - assert (I0 : index_of (VLoc 2) (p_objs s1) = None) by (destruct O1 as [-> | ->]; reflexivity). rewrite I0.
      cbn -[flatten]. apply oof_bind. unfold get_obj, gets, bind at 1 2. rewrite H1. cbn -[flatten].
      apply oof_bind. unfold list_recurse. apply oof_bind. cbn [mapM]. apply oof_bind. apply IH; [cbn; auto|exact S1]. }
  destruct Iv as [<-|[<-|[<-|[]]]]; cbn [prim_json hget H_en nth_error plain_inst]; unfold push, modify, bind at 1; apply oof_bind; exact F.
Qed.
Lemma finite_en : finite_graph W_en K_en PO_norefs H_en 2 0.
Proof.
  assert (GA : forall v, (forall l, v <> VTuple l) -> (forall l, v <> VLoc l) -> good H_en 2 v).
  { intros v H1 H2. split; destruct v; cbn; auto; try (destruct (H1 l); auto); destruct (H2 l); auto. }
  constructor; try discriminate.
  - intros l ob x G I0. destruct l as [|[|[|l]]]; cbn in G; try (destruct l; discriminate); inversion G; subst ob; cbn in I0;
      repeat (destruct I0 as [<-|I0]); try destruct I0; (split; [reflexivity|cbn; lia]).
  - intros l xs G. destruct l as [|[|[|l]]]; cbn in G; try (destruct l; discriminate); inversion G; reflexivity.
  - intros l x E. inversion E. constructor.
  - intros l x E. inversion E. split; cbn; auto.
  - intros l x E. inversion E. split; cbn; auto.
  - intros l x E. inversion E. apply GA; discriminate.
  - intros l x E. inversion E. repeat constructor; cbn; auto.
  - intros f x E. inversion E. apply GA; discriminate.
  - repeat split; discriminate.
  - left. discriminate.
  - intros. exact I.
Qed.
Theorem C13_enum_refuted :
  exists w k o h v, po_make_refs o = false /\ finite_graph w k o h 2 0 /\ good h 2 v /\
  forall n s, p_heap s = h -> fst (encode w k o n v s) = OOF.
Proof.
  exists W_en, K_en, PO_norefs, H_en, (VLoc 0). split; [reflexivity|]. split; [exact finite_en|]. split; [split; vm_compute; auto|].
  intros n s Hh. unfold encode, pickle, pflatten. unfold bind at 1 2, p_reset, modify. cbn [PO_norefs po_sort].
  unfold bind at 1, ret at 1. apply oof_bind. apply enum_loops; [cbn; auto|]. split; [exact Hh|]. split; [left; reflexivity|]. reflexivity.
Qed.
Print Assumptions C13_enum_refuted.

(** C12.  unpicklable=False *)
Theorem C12_unpicklable_false_plain :
  forall w k o h n v s text s', po_unpicklable o = false -> po_props o = false -> po_readonly o = false -> po_sort o = false ->
  (forall l ob, hget h l = Some ob -> plain_obj w (length h) ob = true) -> plain_hooks k (length h) ->
  keys_clean w k o (plain_val (length h)) (fun n => In n tag_names) ->
  p_heap s = h -> plain_val (length h) v = true ->
  encode w k o n v s = (Ret text, s') ->
  exists j, text = dumps j /\ forall t, In t tag_names -> ~ In t (doc_keys j).
Proof.
  intros w k o h n v s text s' Ou Op Or Os G PH KC Hh Hv. exact (encode_plain w k o h Or Os Ou Op G PH KC n v s text s' Hh Hv).
Qed.
Print Assumptions C12_unpicklable_false_plain.

Lemma plain_hooks_sample n : plain_hooks K0 n.
Proof. constructor; intros; try discriminate; inversion H; reflexivity. Qed.
(** Numbers, strings, bytes, tuples, a set, a shared list, an instance and a non-string key. *)
Definition H_plain : heap :=
  [ plain_inst cNode 1;
    ODict [(VStr (u "next"), VTuple [VLoc 2; VFun 1]); (VStr (u "py/id"), VInt 1); (VStr (u "set"), VLoc 3); (VInt 5, VLoc 0)];
    OList [VFloat (u "1.5"); VBytes [Ascii.zero]; VNone];
    OSet [VTuple [VLoc 0; VInt 1]] ].
Example C12_case :
  (forall l ob, hget H_plain l = Some ob -> plain_obj W0 (length H_plain) ob = true) /\ plain_hooks K0 (length H_plain) /\
  keys_clean W0 K0 PO_plain (plain_val (length H_plain)) (fun n => In n tag_names) /\
  plain_val (length H_plain) (VLoc 0) = true /\
  show (enc W0 K0 PO_plain 20 H_plain (VLoc 0)) =
  Ret "{""next"": [[1.5, {""py/b64"": ""AA==""}, null], null], ""set"": [[null, 1]], ""5"": null}"%string.
Proof.
  split; [|split; [apply plain_hooks_sample|split; [|split; [reflexivity|vm_compute; reflexivity]]]].
  - intros l ob G. do 4 (destruct l as [|l]; [inversion G; reflexivity|]). destruct l; discriminate.
  - apply keys_clean_sample; [reflexivity|reflexivity|reflexivity|]. intros n I. unfold tag_names in I. apply in_map_iff in I.
    destruct I as (x & <- & I). repeat (destruct I as [<-|I]; [eexists; vm_compute; reflexivity|]). destruct I.
Qed.
(** Outside such graphs tags do appear: a class, and the arguments of __getnewargs__. *)
Theorem C12_other_graphs_refuted :
  exists w k o h v1 v2 j1 j2, po_unpicklable o = false /\
  fst (encode w k o 20 v1 (new_pickler h)) = Ret (dumps j1) /\ In (u "py/type") (doc_keys j1) /\
  fst (encode w k o 20 v2 (new_pickler h)) = Ret (dumps j2) /\ In (u "py/newargs") (doc_keys j2).
Proof.
  exists W0, K0, PO_plain, [plain_inst cNewargs 1; ODict []], (VType cNode), (VLoc 0).
  exists (JObj [(u "py/type", JStr (u "m.Node"))]), (JObj [(u "py/newargs", JList [])]).
  vm_compute. auto 10.
Qed.
Print Assumptions C12_other_graphs_refuted.
