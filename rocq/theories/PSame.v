(** The encoder reads nothing of its state but heap, numbered objects, depth and cache, and
    more fuel does not change an answer. *)
From Verif Require Import PyStr Tags Json JsonText B64 B85 Base Heap Registry Pickler PGen.
Open Scope nat_scope.
Local Open Scope monad_scope.

Definition same (s s' : pst) : Prop :=
  p_heap s = p_heap s' /\ p_objs s = p_objs s' /\ p_depth s = p_depth s' /\ p_cache s = p_cache s'.
Lemma same_refl s : same s s.
Proof. repeat split. Qed.

(** m' answers like m whenever m answers. *)
Definition sim {A} (m m' : MP A) : Prop := forall s s', same s s' ->
  match m s with
  | (OOF, _) => True
  | (r, s1) => exists s1', m' s' = (r, s1') /\ same s1 s1'
  end.
Lemma sim_ret {A} (a : A) : sim (ret a) (ret a).
Proof. intros s s' H. exists s'. split; auto. Qed.
Lemma sim_raise {A} e : sim (raise e : MP A) (raise e).
Proof. intros s s' H. exists s'. split; auto. Qed.
Lemma sim_oof {A} (m : MP A) : sim oof m.
Proof. intros s s' H. exact I. Qed.
Lemma sim_lift {A} (r : res A) : sim (lift r) (lift r).
Proof. intros s s' H. unfold lift. destruct r; try exact I; exists s'; split; auto. Qed.
Lemma sim_bind {A B} (m m' : MP A) (f f' : A -> MP B) : sim m m' -> (forall a, sim (f a) (f' a)) -> sim (bind m f) (bind m' f').
Proof.
  intros H Hf s s' E. unfold bind. specialize (H s s' E). destruct (m s) as [[a|e|] s1]; auto.
  - destruct H as (s1' & -> & E1). apply (Hf a s1 s1' E1).
  - destruct H as (s1' & -> & E1). eauto.
Qed.
Lemma sim_gets {A} (f : pst -> A) : (forall s s', same s s' -> f s = f s') -> sim (gets f) (gets f).
Proof. intros H s s' E. unfold gets. exists s'. rewrite (H s s' E). auto. Qed.
Lemma sim_get {A} (f f' : pst -> MP A) : (forall s s' , same s s' -> sim (f s) (f' s')) -> sim (bind get f) (bind get f').
Proof. intros H s s' E. unfold bind, get. apply (H s s' E s s' E). Qed.
Lemma sim_modify (f f' : pst -> pst) : (forall s s', same s s' -> same (f s) (f' s')) -> sim (modify f) (modify f').
Proof. intros H s s' E. unfold modify. exists (f' s'). split; auto. Qed.
Lemma sim_catch {A} (m m' : MP A) p h h' : sim m m' -> (forall e, sim (h e) (h' e)) -> sim (catch m p h) (catch m' p h').
Proof.
  intros H Hh s s' E. unfold catch. specialize (H s s' E). destruct (m s) as [[a|e|] s1]; auto.
  - destruct H as (s1' & -> & E1). eauto.
  - destruct H as (s1' & -> & E1). destruct (p e); [apply (Hh e s1 s1' E1)|eauto].
Qed.
Lemma sim_mapM {A B} (f f' : A -> MP B) l : (forall a, sim (f a) (f' a)) -> sim (mapM f l) (mapM f' l).
Proof.
  intros H. induction l as [|a l IH]; cbn [mapM]; [apply sim_ret|].
  apply sim_bind; auto. intros b. apply sim_bind; auto. intros bs. apply sim_ret.
Qed.
Lemma sim_foldM {A B} (f f' : B -> A -> MP B) l : (forall b a, sim (f b a) (f' b a)) -> forall b, sim (foldM f l b) (foldM f' l b).
Proof.
  intros H. induction l as [|a l IH]; intros b; cbn [foldM]; [apply sim_ret|]. apply sim_bind; auto.
Qed.

Ltac same_t := let H := fresh in intros ? ? H; unfold same in *; destruct H as (? & ? & ? & ?);
  cbn [p_heap p_objs p_depth p_cache p_warned set_heap set_depth set_objs set_cache add_warned p_reset_st] in *;
  try congruence; repeat split; congruence.

Section same.
  Variables (w : world) (k : hooks) (o : popts).
  Ltac s1 := first
    [ apply sim_ret | apply sim_raise | apply sim_oof | apply sim_lift
    | apply sim_bind; [|intro] | apply sim_catch; [|intro] | apply sim_mapM; intro | apply sim_foldM; intros ? ?
    | (apply sim_gets; same_t) | (apply sim_modify; same_t)
    | match goal with
      | |- sim (match ?x with _ => _ end) _ => destruct x
      | |- sim (let _ := _ in _) _ => cbv zeta
      | |- sim (bind (match ?x with _ => _ end) _) _ => destruct x
      end ].
  Ltac sm := repeat s1; auto.

  Lemma sim_get_obj l : sim (get_obj l) (get_obj l).
  Proof. unfold get_obj. sm. Qed.
  Lemma sim_truthy v : sim (truthy_p w v) (truthy_p w v).
  Proof. unfold truthy_p. apply sim_gets. intros s s' (-> & _). auto. Qed.
  Lemma sim_log v : sim (log_ref v) (log_ref v).
  Proof.
    intros s s' (H1 & H2 & H3 & H4). unfold log_ref. rewrite H2. destruct (index_of v (p_objs s')).
    - exists s'. repeat split; auto.
    - eexists. split; [reflexivity|]. repeat split; simpl; auto.
  Qed.
  Lemma sim_mkref v : sim (mkref o v) (mkref o v).
  Proof. unfold mkref. apply sim_bind; [apply sim_log|]. intro. sm. Qed.
  Lemma sim_getref v : sim (getref v) (getref v).
  Proof. unfold getref. sm. Qed.
  Lemma sim_warn v : sim (pickle_warning o v) (pickle_warning o v).
  Proof. unfold pickle_warning. sm. Qed.
  Lemma sim_max : sim (max_reached o) (max_reached o).
  Proof. unfold max_reached. sm. Qed.
  Lemma sim_readonly a v : sim (is_readonly w o a v) (is_readonly w o a v).
  Proof. unfold is_readonly. sm. Qed.
  Lemma sim_skip a v : sim (readonly_skip w k o a v) (readonly_skip w k o a v).
  Proof. unfold readonly_skip. sm; apply sim_readonly. Qed.
  Lemma sim_sort v : sim (sort_attrs w o v) (sort_attrs w o v).
  Proof. unfold sort_attrs. sm. Qed.
  Lemma sim_in_cycle v m r : sim (in_cycle w v m r) (in_cycle w v m r).
  Proof.
    unfold in_cycle. apply sim_get. intros s s' (H1 & H2 & H3 & H4). rewrite H1, H2. apply sim_ret.
  Qed.
  Lemma sim_p_getattr l i a : sim (p_getattr k l i a) (p_getattr k l i a).
  Proof. unfold p_getattr. sm. Qed.
  Lemma sim_reduce_of l i : sim (reduce_of w k l i) (reduce_of w k l i).
  Proof. unfold reduce_of. sm. Qed.
  Lemma sim_p_reset : sim p_reset p_reset.
  Proof. unfold p_reset. apply sim_modify. same_t. Qed.

  Section step.
    Variables (rec rec' : val -> MP json) (fuel fuel' : nat).
    Hypothesis Hrec : forall v, sim (rec v) (rec' v).
    Hypothesis Hfuel : fuel <= fuel'.
    Ltac s2 := first [ apply Hrec | apply sim_log | apply sim_get_obj | apply sim_truthy | apply sim_mkref | apply sim_getref
      | apply sim_warn | apply sim_max | apply sim_skip | apply sim_sort | apply sim_in_cycle | apply sim_p_getattr
      | apply sim_reduce_of | apply sim_p_reset | s1].
    Ltac st := repeat s2; auto.

    Lemma sim_pflatten r v : sim (pflatten w o rec r v) (pflatten w o rec' r v).
    Proof. unfold pflatten. destruct r, (po_sort o); st. Qed.
    Lemma sim_escape v : sim (escape_key w o rec v) (escape_key w o rec' v).
    Proof. unfold escape_key. apply sim_bind; [apply sim_pflatten|intro]. st. Qed.
    Lemma sim_kv key v d : sim (flatten_key_value_pair w k o rec key v d) (flatten_key_value_pair w k o rec' key v d).
    Proof. unfold flatten_key_value_pair. st. Qed.
    Lemma sim_nskv key v d : sim (flatten_non_string_key_value_pair w o rec key v d) (flatten_non_string_key_value_pair w o rec' key v d).
    Proof. unfold flatten_non_string_key_value_pair. repeat first [apply sim_escape|s2]; auto. Qed.
    Lemma sim_skv key v d : sim (flatten_string_key_value_pair w k o rec key v d) (flatten_string_key_value_pair w k o rec' key v d).
    Proof. unfold flatten_string_key_value_pair. repeat first [apply sim_escape|s2]; auto. Qed.
    Lemma sim_items its ex d : sim (flatten_items w k o rec its ex d) (flatten_items w k o rec' its ex d).
    Proof. unfold flatten_items. destruct (po_keys o); repeat first [apply sim_kv|apply sim_skv|apply sim_nskv|s2]; auto. Qed.
    Lemma sim_plain_dict l ex d : sim (flatten_plain_dict w k o rec l ex d) (flatten_plain_dict w k o rec' l ex d).
    Proof. unfold flatten_plain_dict. repeat first [apply sim_items|s2]; auto. Qed.
    Lemma sim_clone x : sim (flatten_clone w k o rec x) (flatten_clone w k o rec' x).
    Proof. unfold flatten_clone. cbv zeta. apply sim_bind; [apply sim_items|intro]. st. Qed.
    Lemma sim_factory i d : sim (flatten_factory w k o rec i d) (flatten_factory w k o rec' i d).
    Proof. unfold flatten_factory. repeat first [apply sim_clone|s2]; auto. Qed.
    Lemma sim_dict_sub l i d : sim (flatten_dict_subclass w k o rec l i d) (flatten_dict_subclass w k o rec' l i d).
    Proof. unfold flatten_dict_subclass. repeat first [apply sim_items|apply sim_factory|apply sim_plain_dict|s2]; auto. Qed.
    Lemma sim_seq i d : sim (flatten_sequence_obj w k o rec i d) (flatten_sequence_obj w k o rec' i d).
    Proof. unfold flatten_sequence_obj. repeat first [apply sim_plain_dict|s2]; auto. Qed.
    Lemma sim_obj_attrs l i at_ ex d : sim (flatten_obj_attrs w k o rec l i at_ ex d) (flatten_obj_attrs w k o rec' l i at_ ex d).
    Proof. unfold flatten_obj_attrs. repeat first [apply sim_kv|s2]; auto. Qed.
    Lemma sim_properties l i d al : sim (flatten_properties k rec l i d al) (flatten_properties k rec' l i d al).
    Proof. unfold flatten_properties. st. Qed.
    Lemma sim_slots l i d : sim (flatten_newstyle_with_slots w k o rec l i d) (flatten_newstyle_with_slots w k o rec' l i d).
    Proof. unfold flatten_newstyle_with_slots. cbv zeta. repeat first [apply sim_properties|apply sim_obj_attrs|s2]; auto. Qed.
    Lemma sim_script sc : sim (run_fscript w o rec sc) (run_fscript w o rec' sc).
    Proof.
      induction sc as [r|e|r v kk IH]; cbn [run_fscript]; repeat first [apply sim_pflatten|apply IH|s2]; auto.
    Qed.
    Lemma sim_handler h l c : sim (call_handler w o rec h l c) (call_handler w o rec' h l c).
    Proof. unfold call_handler. cbv zeta. apply sim_bind; [apply sim_script|intro]. st. Qed.
    Lemma sim_reduce_tuple i l d : sim (flatten_reduce_tuple w rec i l d) (flatten_reduce_tuple w rec' i l d).
    Proof. unfold flatten_reduce_tuple. st. Qed.
    Lemma sim_reduce_str s : sim (flatten_reduce_str w rec s) (flatten_reduce_str w rec' s).
    Proof. unfold flatten_reduce_str. st. Qed.
    Lemma sim_iter n : forall n' l limit, n <= n' -> sim (iter_loop k rec n l limit) (iter_loop k rec' n' l limit).
    Proof.
      induction n as [|n IH]; intros n' l limit L.
      - cbn [iter_loop]. destruct limit as [[|m]|]; [|apply sim_oof|apply sim_oof]. destruct n'; apply sim_ret.
      - destruct n' as [|n']; [lia|]. cbn [iter_loop]. destruct limit as [[|m]|]; [apply sim_ret| |];
          repeat first [apply IH; lia|s2]; auto.
    Qed.
    Lemma sim_rest l i c d : sim (flatten_inst_rest w k o fuel rec l i c d) (flatten_inst_rest w k o fuel' rec' l i c d).
    Proof.
      unfold flatten_inst_rest. cbv zeta.
      repeat first [apply sim_dict_sub|apply sim_seq|apply sim_iter; exact Hfuel|apply sim_plain_dict|apply sim_slots|s2]; auto.
    Qed.
    Lemma sim_instance l : sim (flatten_obj_instance w k o fuel rec l) (flatten_obj_instance w k o fuel' rec' l).
    Proof.
      unfold flatten_obj_instance. cbv zeta.
      repeat first [apply sim_handler|apply sim_properties|apply sim_reduce_str|apply sim_reduce_tuple|apply sim_rest|s2]; auto.
    Qed.
    Lemma sim_object v : sim (flatten_object w k o fuel rec v) (flatten_object w k o fuel' rec' v).
    Proof. destruct v; cbn [flatten_object]; try (apply sim_raise); [unfold flatten_module; st|apply sim_instance]. Qed.
    Lemma sim_ref_obj v : sim (ref_obj_instance w k o fuel rec v) (ref_obj_instance w k o fuel' rec' v).
    Proof. unfold ref_obj_instance. repeat first [apply sim_object|s2]; auto. Qed.
    Lemma sim_get_flattener v : sim (get_flattener w k o fuel rec v) (get_flattener w k o fuel' rec' v).
    Proof. unfold get_flattener. unfold list_recurse. repeat first [apply sim_ref_obj|apply sim_plain_dict|s2]; auto. Qed.
    Lemma sim_flatten_obj v : sim (flatten_obj w k o fuel rec v) (flatten_obj w k o fuel' rec' v).
    Proof. unfold flatten_obj. repeat first [apply sim_get_flattener|s2]; auto. Qed.
    Lemma sim_push : sim push push.
    Proof. unfold push. apply sim_modify. same_t. Qed.
    Lemma sim_pop {A} (a : A) : sim (pop a) (pop a).
    Proof.
      unfold pop. apply sim_bind; [|intro; apply sim_ret]. apply sim_modify. intros s s' (H1 & H2 & H3 & H4).
      cbv zeta. cbn [set_depth p_depth]. rewrite H3. destruct (_ =? _)%Z; repeat split; simpl; congruence.
    Qed.
    Lemma sim_impl v : sim (flatten_impl w k o fuel rec v) (flatten_impl w k o fuel' rec' v).
    Proof. unfold flatten_impl. repeat first [apply sim_push|apply sim_pop|apply sim_flatten_obj|s2]; auto. Qed.
    Lemma sim_step v : sim (flatten_step w k o fuel rec v) (flatten_step w k o fuel' rec' v).
    Proof. unfold flatten_step. repeat first [apply sim_impl|s2]; auto. Qed.
  End step.

  Lemma sim_flatten n : forall n' v, n <= n' -> sim (flatten w k o n v) (flatten w k o n' v).
  Proof.
    induction n as [|n IH]; intros n' v L; [apply sim_oof|]. destruct n' as [|n']; [lia|].
    cbn [flatten]. apply sim_step; [|lia]. intros x. apply IH. lia.
  Qed.
  (** A call that resets the pickler does not read the rest of its state. *)
  Lemma pickle_state n n' v s s' : n <= n' -> p_heap s = p_heap s' ->
    match pickle w k o n true v s with
    | (OOF, _) => True
    | (r, s1) => exists s1', pickle w k o n' true v s' = (r, s1') /\ same s1 s1'
    end.
  Proof.
    intros L H. unfold pickle, pflatten.
    assert (X : sim ((if po_sort o then sort_attrs w o v else ret tt);;; flatten w k o n v)
                    ((if po_sort o then sort_attrs w o v else ret tt);;; flatten w k o n' v)).
    { apply sim_bind; [destruct (po_sort o); [apply sim_sort|apply sim_ret]|]. intros _. apply sim_flatten; auto. }
    apply (X (p_reset_st s) (p_reset_st s')). repeat split; auto.
  Qed.
  Lemma encode_state n n' v s s' : n <= n' -> p_heap s = p_heap s' ->
    match encode w k o n v s with
    | (OOF, _) => True
    | (r, s1) => exists s1', encode w k o n' v s' = (r, s1') /\ same s1 s1'
    end.
  Proof.
    intros L H. pose proof (pickle_state n n' v s s' L H) as X. unfold encode, bind.
    destruct (pickle w k o n true v s) as [[j|e|] s1]; auto; destruct X as (s1' & -> & E); unfold ret; eauto.
  Qed.
End same.
