(** Encoding asks the registry only about the classes of the instances in the heap (C73). *)
From Verif Require Import PyStr Tags Json JsonText B64 B85 Base Heap Registry Pickler SpecScope.
Open Scope nat_scope.
Local Open Scope monad_scope.

Section scope.
  Variables (w : world) (rg : registry) (k : hooks) (o : popts).
  Notation W := (with_registry w rg).
  Definition Good (c : nat) : Prop :=
    reg_lookup (w_sub w) rg c (importable_name (w_cls w c)) = reg_lookup (w_sub w) (w_reg w) c (importable_name (w_cls w c)).
  Definition Ok (h : heap) : Prop := forall l i, hget h l = Some (OInst i) -> Good (i_cls i).

  (** From states with such a heap both computations do the same and end in such a state. *)
  Definition sim {A} (m m' : MP A) : Prop := forall s, Ok (p_heap s) -> m' s = m s /\ Ok (p_heap (snd (m s))).
  Lemma sim_ret {A} (a : A) : sim (ret a) (ret a).
  Proof. intros s H. split; auto. Qed.
  Lemma sim_raise {A} e : sim (raise e : MP A) (raise e).
  Proof. intros s H. split; auto. Qed.
  Lemma sim_oof {A} : sim (oof : MP A) oof.
  Proof. intros s H. split; auto. Qed.
  Lemma sim_lift {A} (x : res A) : sim (lift x) (lift x).
  Proof. intros s H. split; auto. Qed.
  Lemma sim_bind {A B} (m m' : MP A) (f f' : A -> MP B) : sim m m' -> (forall a, sim (f a) (f' a)) -> sim (bind m f) (bind m' f').
  Proof.
    intros H Hf s E. unfold bind. destruct (H s E) as [-> E1]. destruct (m s) as [[a|e|] s1]; auto. apply (Hf a s1 E1).
  Qed.
  Lemma sim_gets {A} (f : pst -> A) : sim (gets f) (gets f).
  Proof. intros s H. split; auto. Qed.
  Lemma sim_heap {A} (f f' : heap -> MP A) : (forall h, Ok h -> sim (f h) (f' h)) -> sim (bind (gets p_heap) f) (bind (gets p_heap) f').
  Proof. intros H s E. apply (H (p_heap s) E s E). Qed.
  Lemma sim_get {A} (f f' : pst -> MP A) : (forall s, sim (f s) (f' s)) -> sim (bind get f) (bind get f').
  Proof. intros H s E. unfold bind, get. apply (H s s E). Qed.
  Lemma sim_modify (f : pst -> pst) : (forall s, Ok (p_heap s) -> Ok (p_heap (f s))) -> sim (modify f) (modify f).
  Proof. intros H s E. split; auto. apply H; auto. Qed.
  Lemma sim_catch {A} (m m' : MP A) p h h' : sim m m' -> (forall e, sim (h e) (h' e)) -> sim (catch m p h) (catch m' p h').
  Proof.
    intros H Hh s E. unfold catch. destruct (H s E) as [-> E1]. destruct (m s) as [[a|e|] s1]; auto.
    destruct (p e); [apply (Hh e s1 E1)|auto].
  Qed.
  Lemma sim_mapM {A B} (f f' : A -> MP B) l : (forall a, sim (f a) (f' a)) -> sim (mapM f l) (mapM f' l).
  Proof.
    intros H. induction l as [|a l IH]; cbn [mapM]; [apply sim_ret|].
    apply sim_bind; auto. intros b. apply sim_bind; auto. intros bs. apply sim_ret.
  Qed.
  Lemma sim_foldM {A B} (f f' : B -> A -> MP B) l : (forall b a, sim (f b a) (f' b a)) -> forall b, sim (foldM f l b) (foldM f' l b).
  Proof.
    intros H. induction l as [|a l IH]; intros b; cbn [foldM]; [apply sim_ret|]. apply sim_bind; auto.
  Qed.

  Lemma Ok_alloc h its : Ok h -> Ok (h ++ [ODict its]).
  Proof.
    intros H l i G. destruct (le_lt_dec (length h) l) as [L|L].
    - unfold hget in G. rewrite nth_error_app2 in G by (unfold loc in *; lia). destruct (l - length h) as [|[|]]; discriminate.
    - apply H with l. unfold hget in *. rewrite nth_error_app1 in G; auto.
  Qed.
  Lemma Ok_hset h l ob : Ok h -> (forall i, ob = OInst i -> Good (i_cls i)) -> Ok (hset h l ob).
  Proof.
    intros H C l0 i G. destruct (Nat.eq_dec l0 l) as [->|N].
    - pose proof (hget_lt _ _ _ G) as L. rewrite hset_length in L. rewrite hget_hset_same in G by auto. injection G as ->. auto.
    - rewrite hget_hset_other in G by auto. eapply H; eauto.
  Qed.
  Lemma Ok_setattr h l a v h' : Ok h -> inst_setattr (w_cls w) h l a v = Ret h' -> Ok h'.
  Proof.
    intros H. unfold inst_setattr, inst_store. destruct (hget h l) as [[| | | |i|]|] eqn:G; try discriminate.
    destruct (c_setattr _ a); try discriminate.
    repeat match goal with |- context [match ?x with _ => _ end] => destruct x eqn:? end; intros E; inversion E; subst h';
      (apply Ok_hset; auto; intros ? E2; inversion E2; subst; try discriminate; cbn [i_cls]; eapply H; eauto).
  Qed.

  Ltac okt := let s := fresh "s" in intros s; cbn [p_heap set_heap set_depth set_objs set_cache add_warned p_reset_st]; auto.
  Ltac s1 := first
    [ apply sim_ret | apply sim_raise | apply sim_oof | apply sim_lift
    | apply sim_bind; [|intro] | apply sim_catch; [|intro] | apply sim_mapM; intro | apply sim_foldM; intros ? ?
    | apply sim_gets | (apply sim_modify; okt; fail)
    | match goal with
      | |- sim (match ?x with _ => _ end) _ => destruct x
      | |- sim (let _ := _ in _) _ => cbv zeta
      | |- sim (bind (match ?x with _ => _ end) _) _ => destruct x
      end ].
  Ltac sm := repeat s1; auto.

  Lemma sim_get_obj l : sim (get_obj l) (get_obj l).
  Proof. unfold get_obj. sm. Qed.
  Lemma sim_obj {A} l (f f' : obj -> MP A) : (forall ob, (forall i, ob = OInst i -> Good (i_cls i)) -> sim (f ob) (f' ob)) ->
    sim (bind (get_obj l) f) (bind (get_obj l) f').
  Proof.
    intros H s E. unfold get_obj, bind, gets, ret, raise. destruct (hget (p_heap s) l) as [ob|] eqn:G; [|split; auto].
    apply H; auto. intros i ->. eapply E; eauto.
  Qed.
  Lemma sim_truthy v : sim (truthy_p w v) (truthy_p w v).
  Proof. unfold truthy_p. apply sim_gets. Qed.
  Lemma sim_log v : sim (log_ref v) (log_ref v).
  Proof. intros s E. split; auto. unfold log_ref. destruct (index_of v (p_objs s)); exact E. Qed.
  Lemma sim_mkref v : sim (mkref o v) (mkref o v).
  Proof. unfold mkref. apply sim_bind; [apply sim_log|]. intro. sm. Qed.
  Lemma sim_getref v : sim (getref v) (getref v).
  Proof. unfold getref. sm. Qed.
  Lemma sim_warn v : sim (pickle_warning o v) (pickle_warning o v).
  Proof. unfold pickle_warning. sm. Qed.
  Lemma sim_max : sim (max_reached o) (max_reached o).
  Proof. unfold max_reached. sm. Qed.
  Lemma sim_readonly a v : sim (is_readonly w o a v) (is_readonly w o a v).
  Proof.
    unfold is_readonly. destruct (po_root o); try apply sim_raise; try apply sim_ret. apply sim_heap. intros h H. destruct (inst_setattr _ h l a v) as [h'|e|] eqn:E; sm.
    apply sim_modify. intros s _. eapply Ok_setattr; eauto.
  Qed.
  Lemma sim_skip a v : sim (readonly_skip w k o a v) (readonly_skip w k o a v).
  Proof. unfold readonly_skip. sm; apply sim_readonly. Qed.
  Lemma sim_sort v : sim (sort_attrs w o v) (sort_attrs w o v).
  Proof.
    unfold sort_attrs, halloc. apply sim_heap. intros h H.
    repeat match goal with |- sim (match ?x with _ => _ end) _ => destruct x eqn:? end;
      try apply sim_ret; try apply sim_raise; try apply sim_oof.
    apply sim_modify. intros s _. eapply Ok_setattr; [|eauto]. apply Ok_alloc; auto.
  Qed.
  Lemma sim_in_cycle v m r : sim (in_cycle w v m r) (in_cycle w v m r).
  Proof.
    unfold in_cycle. apply sim_get. intros s. apply sim_ret.
  Qed.
  Lemma sim_p_getattr l i a : sim (p_getattr k l i a) (p_getattr k l i a).
  Proof. unfold p_getattr. sm. Qed.
  Lemma sim_reduce_of l i : sim (reduce_of w k l i) (reduce_of w k l i).
  Proof. unfold reduce_of. sm. Qed.
  Lemma sim_p_reset : sim p_reset p_reset.
  Proof. unfold p_reset. apply sim_modify. okt. Qed.

  Section step.
    Variables (rec rec' : val -> MP json) (fuel : nat).
    Hypothesis Hrec : forall v, sim (rec v) (rec' v).
    Ltac s2 := first [ apply Hrec | apply sim_log | apply sim_get_obj | apply sim_truthy | apply sim_mkref | apply sim_getref
      | apply sim_warn | apply sim_max | apply sim_skip | apply sim_sort | apply sim_in_cycle | apply sim_p_getattr
      | apply sim_reduce_of | apply sim_p_reset | s1].
    Ltac st := repeat s2; auto.

    Lemma sim_pflatten r v : sim (pflatten w o rec r v) (pflatten w o rec' r v).
    Proof. unfold pflatten. destruct r, (po_sort o); st. Qed.
    Lemma sim_escape v : sim (escape_key w o rec v) (escape_key w o rec' v).
    Proof. unfold escape_key. apply sim_bind; [apply sim_pflatten|intro]. st. Qed.
    Lemma sim_kv key v d : sim (flatten_key_value_pair w k o rec key v d) (flatten_key_value_pair w k o rec' key v d).
    Proof. unfold flatten_key_value_pair. st. Qed.
    Lemma sim_nskv key v d : sim (flatten_non_string_key_value_pair w o rec key v d) (flatten_non_string_key_value_pair w o rec' key v d).
    Proof. unfold flatten_non_string_key_value_pair. repeat first [apply sim_escape|s2]; auto. Qed.
    Lemma sim_skv key v d : sim (flatten_string_key_value_pair w k o rec key v d) (flatten_string_key_value_pair w k o rec' key v d).
    Proof. unfold flatten_string_key_value_pair. repeat first [apply sim_escape|s2]; auto. Qed.
    Lemma sim_items its ex d : sim (flatten_items w k o rec its ex d) (flatten_items w k o rec' its ex d).
    Proof. unfold flatten_items. destruct (po_keys o); repeat first [apply sim_kv|apply sim_skv|apply sim_nskv|s2]; auto. Qed.
    Lemma sim_plain_dict l ex d : sim (flatten_plain_dict w k o rec l ex d) (flatten_plain_dict w k o rec' l ex d).
    Proof. unfold flatten_plain_dict. repeat first [apply sim_items|s2]; auto. Qed.
    Lemma sim_clone x : sim (flatten_clone w k o rec x) (flatten_clone w k o rec' x).
    Proof. unfold flatten_clone. cbv zeta. apply sim_bind; [apply sim_items|intro]. st. Qed.
    Lemma sim_factory i d : sim (flatten_factory w k o rec i d) (flatten_factory w k o rec' i d).
    Proof. unfold flatten_factory. repeat first [apply sim_clone|s2]; auto. Qed.
    Lemma sim_dict_sub l i d : sim (flatten_dict_subclass w k o rec l i d) (flatten_dict_subclass w k o rec' l i d).
    Proof. unfold flatten_dict_subclass. repeat first [apply sim_items|apply sim_factory|apply sim_plain_dict|s2]; auto. Qed.
    Lemma sim_seq i d : sim (flatten_sequence_obj w k o rec i d) (flatten_sequence_obj w k o rec' i d).
    Proof. unfold flatten_sequence_obj. repeat first [apply sim_plain_dict|s2]; auto. Qed.
    Lemma sim_obj_attrs l i at_ ex d : sim (flatten_obj_attrs w k o rec l i at_ ex d) (flatten_obj_attrs w k o rec' l i at_ ex d).
    Proof. unfold flatten_obj_attrs. repeat first [apply sim_kv|s2]; auto. Qed.
    Lemma sim_properties l i d al : sim (flatten_properties k rec l i d al) (flatten_properties k rec' l i d al).
    Proof. unfold flatten_properties. st. Qed.
    Lemma sim_slots l i d : sim (flatten_newstyle_with_slots w k o rec l i d) (flatten_newstyle_with_slots w k o rec' l i d).
    Proof. unfold flatten_newstyle_with_slots. cbv zeta. repeat first [apply sim_properties|apply sim_obj_attrs|s2]; auto. Qed.
    Lemma sim_script sc : sim (run_fscript w o rec sc) (run_fscript w o rec' sc).
    Proof.
      induction sc as [r|e|r v kk IH]; cbn [run_fscript]; repeat first [apply sim_pflatten|apply IH|s2]; auto.
    Qed.
    Lemma sim_handler h l c : sim (call_handler w o rec h l c) (call_handler w o rec' h l c).
    Proof. unfold call_handler. cbv zeta. apply sim_bind; [apply sim_script|intro]. st. Qed.
    Lemma sim_reduce_tuple i l d : sim (flatten_reduce_tuple w rec i l d) (flatten_reduce_tuple w rec' i l d).
    Proof. unfold flatten_reduce_tuple. st. Qed.
    Lemma sim_reduce_str s : sim (flatten_reduce_str w rec s) (flatten_reduce_str w rec' s).
    Proof. unfold flatten_reduce_str. st. Qed.
    Lemma sim_iter n : forall l limit, sim (iter_loop k rec n l limit) (iter_loop k rec' n l limit).
    Proof.
      induction n as [|n IH]; intros l limit; cbn [iter_loop]; [destruct limit as [[|m]|]; st|].
      assert (X : forall lim, sim (ob <- get_obj l ;; match ob with OInst i => x <- lift (k_iter k l (i_pos i)) ;; match x with None => ret [] | Some v =>
          modify (fun s => set_heap (hset (p_heap s) l (OInst (set_pos i (S (i_pos i))))) s) ;;; j <- rec v ;; js <- iter_loop k rec n l lim ;; ret (j :: js) end | _ => raise EUnmodelled end)
        (ob <- get_obj l ;; match ob with OInst i => x <- lift (k_iter k l (i_pos i)) ;; match x with None => ret [] | Some v =>
          modify (fun s => set_heap (hset (p_heap s) l (OInst (set_pos i (S (i_pos i))))) s) ;;; j <- rec' v ;; js <- iter_loop k rec' n l lim ;; ret (j :: js) end | _ => raise EUnmodelled end)).
      { intros lim. apply sim_obj. intros ob G. destruct ob as [| | | |i|]; st.
        apply sim_modify. intros s H. cbn [set_heap p_heap]. apply Ok_hset; auto. intros i0 E. inversion E; subst. cbn [set_pos i_cls]. auto. }
      destruct limit as [[|m]|]; [apply sim_ret|apply X|apply X].
    Qed.
    Lemma sim_state_copy {A} ex st0 (f f' : val -> MP A) : (forall v, sim (f v) (f' v)) ->
      sim (h <- gets p_heap ;; st <- (match ex, st0 with
             | _ :: _, VLoc sl => match hget h sl with
                                  | Some (ODict its) => let (d', h') := halloc (ODict (items ex its)) h in modify (set_heap h') ;;; ret (VLoc d')
                                  | _ => ret st0 end
             | _, _ => ret st0 end) ;; f st)
          (h <- gets p_heap ;; st <- (match ex, st0 with
             | _ :: _, VLoc sl => match hget h sl with
                                  | Some (ODict its) => let (d', h') := halloc (ODict (items ex its)) h in modify (set_heap h') ;;; ret (VLoc d')
                                  | _ => ret st0 end
             | _, _ => ret st0 end) ;; f' st).
    Proof.
      intros Hf. apply sim_heap. intros h H. apply sim_bind; [|exact Hf].
      destruct ex as [|e ex]; [apply sim_ret|]. destruct st0; try apply sim_ret. destruct (hget h l) as [[| | | | |]|]; try apply sim_ret.
      cbv [halloc]. apply sim_bind; [|intro; apply sim_ret]. apply sim_modify. intros s _. cbn [set_heap p_heap]. apply Ok_alloc; auto.
    Qed.
    Lemma sim_rest l i c d : sim (flatten_inst_rest w k o fuel rec l i c d) (flatten_inst_rest w k o fuel rec' l i c d).
    Proof.
      unfold flatten_inst_rest. cbv zeta.
      repeat first [apply sim_state_copy; intro|apply sim_dict_sub|apply sim_seq|apply sim_iter|apply sim_plain_dict|apply sim_slots|s2]; auto.
    Qed.
    Lemma sim_instance l : sim (flatten_obj_instance w k o fuel rec l) (flatten_obj_instance W k o fuel rec' l).
    Proof.
      unfold flatten_obj_instance. apply sim_obj. intros ob G. destruct ob as [| | | |i|]; try apply sim_raise. cbv zeta.
      change (w_sub W) with (w_sub w). change (w_cls W) with (w_cls w). change (w_reg W) with rg. rewrite (G i eq_refl).
      destruct (reg_lookup (w_sub w) (w_reg w) _ _); [apply sim_handler|].
      change (reduce_of W) with (reduce_of w). change (@flatten_reduce_str W) with (@flatten_reduce_str w).
      change (@flatten_reduce_tuple W) with (@flatten_reduce_tuple w). change (@flatten_inst_rest W) with (@flatten_inst_rest w).
      repeat first [apply sim_properties|apply sim_reduce_str|apply sim_reduce_tuple|apply sim_rest|s2]; auto.
    Qed.
    Lemma sim_object v : sim (flatten_object w k o fuel rec v) (flatten_object W k o fuel rec' v).
    Proof. destruct v; cbn [flatten_object]; try (apply sim_raise); [|apply sim_instance]. change (flatten_module W) with (flatten_module w). unfold flatten_module; st. Qed.
    Lemma sim_ref_obj v : sim (ref_obj_instance w k o fuel rec v) (ref_obj_instance W k o fuel rec' v).
    Proof. unfold ref_obj_instance. change (in_cycle W) with (in_cycle w). repeat first [apply sim_object|s2]; auto. Qed.
    Lemma sim_get_flattener v : sim (get_flattener w k o fuel rec v) (get_flattener W k o fuel rec' v).
    Proof.
      unfold get_flattener, list_recurse. change (mktyperef W) with (mktyperef w). change (flatten_function W) with (flatten_function w).
      change (w_fun W) with (w_fun w). change (@flatten_plain_dict W) with (@flatten_plain_dict w).
      repeat first [apply sim_ref_obj|apply sim_plain_dict|s2]; auto.
    Qed.
    Lemma sim_flatten_obj v : sim (flatten_obj w k o fuel rec v) (flatten_obj W k o fuel rec' v).
    Proof. unfold flatten_obj. change (in_cycle W) with (in_cycle w). repeat first [apply sim_get_flattener|s2]; auto. Qed.
    Lemma sim_push : sim push push.
    Proof. unfold push. apply sim_modify. okt. Qed.
    Lemma sim_pop {A} (a : A) : sim (pop a) (pop a).
    Proof.
      unfold pop. apply sim_bind; [|intro; apply sim_ret]. apply sim_modify. intros s H.
      cbv zeta. destruct (_ =? _)%Z; exact H.
    Qed.
    Lemma sim_impl v : sim (flatten_impl w k o fuel rec v) (flatten_impl W k o fuel rec' v).
    Proof. unfold flatten_impl. repeat first [apply sim_push|apply sim_pop|apply sim_flatten_obj|s2]; auto. Qed.
    Lemma sim_step v : sim (flatten_step w k o fuel rec v) (flatten_step W k o fuel rec' v).
    Proof. unfold flatten_step. repeat first [apply sim_impl|s2]; auto. Qed.
  End step.

  Lemma sim_flatten n : forall v, sim (flatten w k o n v) (flatten W k o n v).
  Proof.
    induction n as [|n IH]; intros v; [apply sim_oof|]. cbn [flatten]. apply sim_step. exact IH.
  Qed.
  Lemma encode_scope n v s : Ok (p_heap s) -> encode W k o n v s = encode w k o n v s.
  Proof.
    intros H. assert (X : sim (encode w k o n v) (encode W k o n v)); [|apply X; auto].
    unfold encode, pickle. apply sim_bind; [|intro; apply sim_ret]. change (pflatten W) with (pflatten w). apply sim_pflatten. apply sim_flatten.
  Qed.
End scope.
