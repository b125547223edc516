(** Two encoders whose options differ in keys and warn (C77). *)
From Verif Require Import PyStr Tags Json JsonText B64 B85 Base Heap Registry Pickler SpecOptions.
Open Scope nat_scope.
Local Open Scope monad_scope.

Lemma prefixb_app a s : prefixb a s = true -> exists r, s = a ++ r.
Proof.
  revert s. induction a as [|c a IH]; intros s H; [exists s; reflexivity|]. destruct s as [|d s]; [discriminate|].
  cbn [prefixb] in H. apply andb_true_iff in H. destruct H as [E H]. apply N.eqb_eq in E. subst d. destruct (IH s H) as [r ->]. exists r. reflexivity.
Qed.

Section opts.
  Variables (w : world) (k : hooks) (o : popts) (kb wb : bool).
  Notation o' := (set_kw kb wb o).
  Hypothesis Os : po_sort o = false.
  Hypothesis HK : kb = po_keys o \/ (po_keys o = false /\ kb = true /\ po_readonly o = false).
  Definition Ok (h : heap) : Prop := kb = po_keys o \/ forall l ob, hget h l = Some ob -> usual_obj ob.
  Definition same (s s' : pst) : Prop :=
    p_heap s' = p_heap s /\ p_objs s' = p_objs s /\ p_depth s' = p_depth s /\ p_cache s' = p_cache s.

  Definition sim {A} (m m' : MP A) : Prop := forall s s', same s s' -> Ok (p_heap s) ->
    fst (m' s') = fst (m s) /\ same (snd (m s)) (snd (m' s')) /\ Ok (p_heap (snd (m s))).
  Lemma sim_ret {A} (a : A) : sim (ret a) (ret a).
  Proof. intros s s' H O. split; auto. Qed.
  Lemma eq_sim {A} (m m1 m2 : MP A) : m1 = m2 -> sim m m1 -> sim m m2.
  Proof. intros ->. auto. Qed.
  Lemma sim_raise {A} e : sim (raise e : MP A) (raise e).
  Proof. intros s s' H O. split; auto. Qed.
  Lemma sim_oof {A} : sim (oof : MP A) oof.
  Proof. intros s s' H O. split; auto. Qed.
  Lemma sim_lift {A} (x : res A) : sim (lift x) (lift x).
  Proof. intros s s' H O. split; auto. Qed.
  Lemma sim_bind {A B} (m m' : MP A) (f f' : A -> MP B) : sim m m' -> (forall a, sim (f a) (f' a)) -> sim (bind m f) (bind m' f').
  Proof.
    intros H Hf s s' E O. unfold bind. destruct (H s s' E O) as (E1 & E2 & E3). destruct (m s) as [r s1], (m' s') as [r' s1'].
    cbn [fst snd] in *. subst r'. destruct r as [a|e|]; auto. apply Hf; auto.
  Qed.
  Lemma sim_gets {A} (f : pst -> A) : (forall s s', same s s' -> f s' = f s) -> sim (gets f) (gets f).
  Proof. intros F s s' H O. split; auto. unfold gets. cbn [fst]. rewrite (F s s' H). reflexivity. Qed.
  Lemma sim_heap {A} (f f' : heap -> MP A) : (forall h, Ok h -> sim (f h) (f' h)) -> sim (bind (gets p_heap) f) (bind (gets p_heap) f').
  Proof. intros H s s' E O. unfold bind, gets. destruct E as (E & E'). rewrite E. apply (H (p_heap s) O s s'); auto. split; auto. Qed.
  Lemma sim_get {A} (f f' : pst -> MP A) : (forall s s', same s s' -> sim (f s) (f' s')) -> sim (bind get f) (bind get f').
  Proof. intros H s s' E O. unfold bind, get. apply (H s s'); auto. Qed.
  Lemma sim_modify (f : pst -> pst) : (forall s s', same s s' -> same (f s) (f s')) -> (forall s, Ok (p_heap s) -> Ok (p_heap (f s))) -> sim (modify f) (modify f).
  Proof. intros F H s s' E O. split; auto. split; [apply F; auto|apply H; auto]. Qed.
  Lemma sim_catch {A} (m m' : MP A) p h h' : sim m m' -> (forall e, sim (h e) (h' e)) -> sim (catch m p h) (catch m' p h').
  Proof.
    intros H Hh s s' E O. unfold catch. destruct (H s s' E O) as (E1 & E2 & E3). destruct (m s) as [r s1], (m' s') as [r' s1'].
    cbn [fst snd] in *. subst r'. destruct r as [a|e|]; auto. destruct (p e); auto. apply Hh; auto.
  Qed.
  Lemma sim_mapM {A B} (f f' : A -> MP B) l : (forall a, sim (f a) (f' a)) -> sim (mapM f l) (mapM f' l).
  Proof.
    intros H. induction l as [|a l IH]; cbn [mapM]; [apply sim_ret|].
    apply sim_bind; auto. intros b. apply sim_bind; auto. intros bs. apply sim_ret.
  Qed.
  Lemma sim_foldM {A B} (f f' : B -> A -> MP B) l : (forall b a, In a l -> sim (f b a) (f' b a)) -> forall b, sim (foldM f l b) (foldM f' l b).
  Proof.
    induction l as [|a l IH]; intros H b; cbn [foldM]; [apply sim_ret|]. apply sim_bind; [apply H; left; auto|]. intros. apply IH. intros. apply H. right; auto.
  Qed.

  Lemma Ok_alloc h its : Ok h -> (kb = po_keys o \/ usual_items its) -> Ok (h ++ [ODict its]).
  Proof.
    intros [H|H] U; [left; auto|]. destruct U as [U|U]; [left; auto|]. right. intros l ob G. destruct (le_lt_dec (length h) l) as [L|L].
    - unfold hget in G. rewrite nth_error_app2 in G by (unfold loc in *; lia). destruct (l - length h) as [|[|]]; try discriminate. injection G as <-. exact U.
    - apply H with l. unfold hget in *. rewrite nth_error_app1 in G; auto.
  Qed.
  Lemma Ok_hset h l ob : Ok h -> (kb = po_keys o \/ usual_obj ob) -> Ok (hset h l ob).
  Proof.
    intros [H|H] C; [left; auto|]. destruct C as [C|C]; [left; auto|]. right. intros l0 ob0 G. destruct (Nat.eq_dec l0 l) as [->|N].
    - pose proof (hget_lt _ _ _ G) as L. rewrite hset_length in L. rewrite hget_hset_same in G by auto. injection G as <-. auto.
    - rewrite hget_hset_other in G by auto. eapply H; eauto.
  Qed.
  Ltac oko := cbn [set_kw po_unpicklable po_make_refs po_keys po_max_depth po_warn po_max_iter po_b85 po_fail_safe po_props po_readonly po_root po_sort po_ctx po_numeric].
  Ltac same_t := let H := fresh in intros ? ? H; destruct H as (? & ? & ? & ?);
    cbn [p_heap p_objs p_depth p_cache p_warned set_heap set_depth set_objs set_cache add_warned p_reset_st] in *;
    try congruence; repeat split; cbn [p_heap p_objs p_depth p_cache p_warned set_heap set_depth set_objs set_cache add_warned p_reset_st]; congruence.
  Ltac okt := let s := fresh "s" in intros s; cbn [p_heap set_heap set_depth set_objs set_cache add_warned p_reset_st]; auto.
  Ltac s1 := first
    [ apply sim_ret | apply sim_raise | apply sim_oof | apply sim_lift
    | apply sim_bind; [|intro] | apply sim_catch; [|intro] | apply sim_mapM; intro | apply sim_foldM; intros ? ? ?
    | (apply sim_gets; same_t) | (apply sim_modify; [same_t|okt; fail])
    | match goal with
      | |- sim (match ?x with _ => _ end) (match ?x with _ => _ end) => destruct x eqn:?
      | |- sim (let _ := _ in _) _ => cbv zeta
      end ].
  Ltac sm := repeat s1; auto.

  Lemma sim_get_obj l : sim (get_obj l) (get_obj l).
  Proof. unfold get_obj. sm. Qed.
  Lemma sim_obj {A} l (f f' : obj -> MP A) : (forall ob, (kb = po_keys o \/ usual_obj ob) -> sim (f ob) (f' ob)) ->
    sim (bind (get_obj l) f) (bind (get_obj l) f').
  Proof.
    intros H s s' E O. pose proof E as (E' & _). unfold get_obj, bind, gets, ret, raise. rewrite E'. destruct (hget (p_heap s) l) as [ob|] eqn:G; [|split; auto].
    apply H; auto. destruct O as [O|O]; [left; auto|right; eapply O; eauto].
  Qed.
  Lemma sim_truthy v : sim (truthy_p w v) (truthy_p w v).
  Proof. unfold truthy_p. apply sim_gets. intros s s' (-> & _). auto. Qed.
  Lemma sim_log v : sim (log_ref v) (log_ref v).
  Proof.
    intros s s' (H1 & H2 & H3 & H4) O. unfold log_ref. rewrite H2. destruct (index_of v (p_objs s)); repeat split; simpl; auto; congruence.
  Qed.
  Lemma sim_mkref v : sim (mkref o v) (mkref o' v).
  Proof. unfold mkref. oko. apply sim_bind; [apply sim_log|]. intro. sm. Qed.
  Lemma sim_getref v : sim (getref v) (getref v).
  Proof. unfold getref. sm. Qed.
  Lemma sim_warn v : sim (pickle_warning o v) (pickle_warning o' v).
  Proof.
    unfold pickle_warning. oko. intros s s' (H1 & H2 & H3 & H4) O. destruct (po_warn o), wb; repeat split; simpl; auto; congruence.
  Qed.
  Lemma sim_max : sim (max_reached o) (max_reached o').
  Proof. unfold max_reached. oko. sm. Qed.
  Lemma sim_skip a v : sim (readonly_skip w k o a v) (readonly_skip w k o' a v).
  Proof.
    unfold readonly_skip. oko. destruct HK as [KK|(_ & _ & R)]; [|rewrite R; apply sim_ret].
    destruct (po_readonly o); [|apply sim_ret]. destruct a; try apply sim_ret. destruct (smem _ _); [|apply sim_ret].
    unfold is_readonly. oko. destruct (po_root o); try apply sim_raise; try apply sim_ret. apply sim_heap. intros h H. destruct (inst_setattr _ h l s v) as [h'|e|] eqn:E; sm.
    apply sim_modify; [same_t|]. intros s0 _. left. auto.
  Qed.
  Lemma sim_in_cycle v m r : sim (in_cycle w v m r) (in_cycle w v m r).
  Proof.
    unfold in_cycle. apply sim_get. intros s s' (H1 & H2 & H3 & H4). rewrite H1, H2. apply sim_ret.
  Qed.
  Lemma sim_p_getattr l i a : sim (p_getattr k l i a) (p_getattr k l i a).
  Proof. unfold p_getattr. sm. Qed.
  Lemma sim_reduce_of l i : sim (reduce_of w k l i) (reduce_of w k l i).
  Proof. unfold reduce_of. sm. Qed.
  Lemma sim_p_reset : sim p_reset p_reset.
  Proof. unfold p_reset. apply sim_modify; [same_t|okt]. Qed.

  Section step.
    Variables (rec rec' : val -> MP json) (fuel : nat).
    Hypothesis Hrec : forall v, sim (rec v) (rec' v).
    Ltac s2 := first [ apply Hrec | apply sim_log | apply sim_get_obj | apply sim_truthy | apply sim_mkref | apply sim_getref
      | apply sim_warn | apply sim_max | apply sim_skip | apply sim_in_cycle | apply sim_p_getattr
      | apply sim_reduce_of | apply sim_p_reset | s1].
    Ltac st := repeat s2; auto.

    Lemma sim_pflatten r v : sim (pflatten w o rec r v) (pflatten w o' rec' r v).
    Proof. unfold pflatten. oko. oko. rewrite Os. destruct r; st. Qed.
    Lemma sim_escape v : sim (escape_key w o rec v) (escape_key w o' rec' v).
    Proof. unfold escape_key. oko. apply sim_bind; [apply sim_pflatten|intro]. st. Qed.
    Lemma sim_kv key v d : sim (flatten_key_value_pair w k o rec key v d) (flatten_key_value_pair w k o' rec' key v d).
    Proof. unfold flatten_key_value_pair. oko. st. Qed.
    Lemma usual_kv key v d : usual_key key -> po_keys o = false /\ kb = true /\ po_readonly o = false ->
      sim (flatten_key_value_pair w k o rec key v d) (flatten_string_key_value_pair w k o' rec' key v d).
    Proof.
      intros (s & -> & NR & NJ) (K1 & K2 & R). unfold flatten_key_value_pair, flatten_string_key_value_pair, readonly_skip. oko. rewrite R.
      replace (prefixb JSON_KEY s || is_reserved s) with false.
      2: { symmetry. apply orb_false_iff. split.
           - destruct (prefixb JSON_KEY s) eqn:P; auto. apply prefixb_app in P. destruct P as [r E]. destruct (NJ r E).
           - unfold is_reserved. destruct (smem s RESERVED) eqn:M; auto. apply smem_In in M. destruct (NR M). }
      cbn [andb]. apply sim_heap. intros h H. destruct (negb _); [apply sim_ret|].
      intros t t' E O. apply (sim_bind (rec v) (rec' v) (fun j => ret (sset s j d)) (fun j => ret (sset s j d)) (Hrec v) (fun j => sim_ret _) t t' E O).
    Qed.
    Lemma usual_nskv its : (forall kv, In kv its -> usual_key (fst kv)) -> forall d s,
      foldM (fun dt kv => flatten_non_string_key_value_pair w o' rec' (fst kv) (snd kv) dt) its d s = (Ret d, s).
    Proof.
      induction its as [|[key v] its IH]; intros U d s; [reflexivity|]. cbn [foldM]. destruct (U (key, v) (or_introl eq_refl)) as (t & E & _).
      cbn [fst snd] in *. subst key. unfold flatten_non_string_key_value_pair at 1. unfold bind at 1, bind at 1, gets.
      destruct (negb _); (apply IH; intros; apply U; right; auto).
    Qed.
    Ltac keyq KK := match goal with
      | |- sim (if ?x && po_keys o then _ else _) _ => destruct x; cbn [andb]
      | |- sim (if po_keys o then _ else _) (if kb then ?a else ?b) => apply (eq_sim _ (if po_keys o then a else b)); [rewrite <- KK; reflexivity|]; case_eq (po_keys o); intros _
      end.
    Lemma sim_nskv key v d : kb = po_keys o -> sim (flatten_non_string_key_value_pair w o rec key v d) (flatten_non_string_key_value_pair w o' rec' key v d).
    Proof. intros KK. unfold flatten_non_string_key_value_pair. oko. repeat first [keyq KK|apply sim_escape|s2]; auto. Qed.
    Lemma sim_skv key v d : kb = po_keys o -> sim (flatten_string_key_value_pair w k o rec key v d) (flatten_string_key_value_pair w k o' rec' key v d).
    Proof. intros KK. unfold flatten_string_key_value_pair. oko. repeat first [keyq KK|apply sim_escape|s2]; auto. Qed.
    Lemma sim_items its ex d : kb = po_keys o \/ usual_items its -> sim (flatten_items w k o rec its ex d) (flatten_items w k o' rec' its ex d).
    Proof.
      intros U. unfold flatten_items. oko. pose proof HK as HK'. destruct HK' as [KK|KD].
      - match goal with |- sim _ (if kb then ?a else ?b) => apply (eq_sim _ (if po_keys o then a else b)); [rewrite <- KK; reflexivity|] end.
        case_eq (po_keys o); intros _; repeat first [apply sim_kv|apply sim_skv; exact KK|apply sim_nskv; exact KK|s2]; auto.
      - destruct U as [U|U]; [destruct KD as (A & B & _); congruence|]. destruct KD as (A & B & R). rewrite A.
        match goal with |- sim _ (if kb then ?a else ?b) => apply (eq_sim _ a); [rewrite B; reflexivity|] end.
        assert (UI : forall kv, In kv (items ex its) -> usual_key (fst kv)).
        { intros [key v] I. apply filter_In in I. destruct I as [I _]. eapply U; eauto. }
        assert (X : sim (foldM (fun dt kv => flatten_key_value_pair w k o rec (fst kv) (snd kv) dt) (items ex its) d)
          (foldM (fun dt kv => flatten_string_key_value_pair w k o' rec' (fst kv) (snd kv) dt) (items ex its) d)).
        { apply sim_foldM. intros b kv I. apply usual_kv; auto. }
        intros s s' E O. destruct (X s s' E O) as (X1 & X2 & X3). unfold bind.
        destruct (foldM _ (items ex its) d s') as [[dd|e|] s1']; cbn [fst snd] in *; rewrite ?usual_nskv by auto; auto.
    Qed.
    Lemma sim_plain_dict l ex d : sim (flatten_plain_dict w k o rec l ex d) (flatten_plain_dict w k o' rec' l ex d).
    Proof.
      unfold flatten_plain_dict. apply sim_obj. intros ob U. destruct ob; try apply sim_raise. apply sim_items. destruct U; [left|right]; auto.
    Qed.
    Lemma sim_clone x : sim (flatten_clone w k o rec x) (flatten_clone w k o' rec' x).
    Proof. unfold flatten_clone. oko. cbv zeta. oko. apply sim_bind; [apply sim_items|intro; st]. right. intros key v [E|[]]. inversion E; subst. eexists. split; [reflexivity|]. split; [vm_compute; intuition discriminate|intros r; discriminate]. Qed.
    Lemma sim_factory i d : sim (flatten_factory w k o rec i d) (flatten_factory w k o' rec' i d).
    Proof. unfold flatten_factory. oko. repeat first [apply sim_clone|s2]; auto. Qed.
    Lemma sim_dict_sub l i d : kb = po_keys o \/ usual_items (i_items i) -> sim (flatten_dict_subclass w k o rec l i d) (flatten_dict_subclass w k o' rec' l i d).
    Proof. intros U. unfold flatten_dict_subclass. cbv zeta. oko. repeat first [apply sim_items; exact U|apply sim_factory|apply sim_plain_dict|s2]; auto. Qed.
    Lemma sim_seq i d : sim (flatten_sequence_obj w k o rec i d) (flatten_sequence_obj w k o' rec' i d).
    Proof. unfold flatten_sequence_obj. oko. repeat first [apply sim_plain_dict|s2]; auto. Qed.
    Lemma sim_obj_attrs l i at_ ex d : sim (flatten_obj_attrs w k o rec l i at_ ex d) (flatten_obj_attrs w k o' rec' l i at_ ex d).
    Proof. unfold flatten_obj_attrs. oko. repeat first [apply sim_kv|s2]; auto. Qed.
    Lemma sim_properties l i d al : sim (flatten_properties k rec l i d al) (flatten_properties k rec' l i d al).
    Proof. unfold flatten_properties. oko. st. Qed.
    Lemma sim_slots l i d : sim (flatten_newstyle_with_slots w k o rec l i d) (flatten_newstyle_with_slots w k o' rec' l i d).
    Proof. unfold flatten_newstyle_with_slots. oko. cbv zeta. oko. repeat first [apply sim_properties|apply sim_obj_attrs|s2]; auto. Qed.
    Lemma sim_script sc : sim (run_fscript w o rec sc) (run_fscript w o' rec' sc).
    Proof.
      induction sc as [r|e|r v kk IH]; cbn [run_fscript]; repeat first [apply sim_pflatten|apply IH|s2]; auto.
    Qed.
    Lemma sim_handler h l c : sim (call_handler w o rec h l c) (call_handler w o' rec' h l c).
    Proof. unfold call_handler. oko. cbv zeta. oko. apply sim_bind; [apply sim_script|intro]. st. Qed.
    Lemma sim_reduce_tuple i l d : sim (flatten_reduce_tuple w rec i l d) (flatten_reduce_tuple w rec' i l d).
    Proof. unfold flatten_reduce_tuple. oko. st. Qed.
    Lemma sim_reduce_str s : sim (flatten_reduce_str w rec s) (flatten_reduce_str w rec' s).
    Proof. unfold flatten_reduce_str. oko. st. Qed.
    Lemma sim_iter n : forall l limit, sim (iter_loop k rec n l limit) (iter_loop k rec' n l limit).
    Proof.
      induction n as [|n IH]; intros l limit; cbn [iter_loop]; [destruct limit as [[|m]|]; st|].
      assert (X : forall lim, sim (ob <- get_obj l ;; match ob with OInst i => x <- lift (k_iter k l (i_pos i)) ;; match x with None => ret [] | Some v =>
          modify (fun s => set_heap (hset (p_heap s) l (OInst (set_pos i (S (i_pos i))))) s) ;;; j <- rec v ;; js <- iter_loop k rec n l lim ;; ret (j :: js) end | _ => raise EUnmodelled end)
        (ob <- get_obj l ;; match ob with OInst i => x <- lift (k_iter k l (i_pos i)) ;; match x with None => ret [] | Some v =>
          modify (fun s => set_heap (hset (p_heap s) l (OInst (set_pos i (S (i_pos i))))) s) ;;; j <- rec' v ;; js <- iter_loop k rec' n l lim ;; ret (j :: js) end | _ => raise EUnmodelled end)).
      { intros lim. apply sim_obj. intros ob G. destruct ob as [| | | |i|]; st.
        apply sim_modify; [same_t|]; intros s H. cbn [set_heap p_heap]. apply Ok_hset; auto. }
      destruct limit as [[|m]|]; [apply sim_ret|apply X|apply X].
    Qed.
    Lemma sim_state_copy {A} ex st0 (f f' : val -> MP A) : (forall v, sim (f v) (f' v)) ->
      sim (h <- gets p_heap ;; st <- (match ex, st0 with
             | _ :: _, VLoc sl => match hget h sl with
                                  | Some (ODict its) => let (d', h') := halloc (ODict (items ex its)) h in modify (set_heap h') ;;; ret (VLoc d')
                                  | _ => ret st0 end
             | _, _ => ret st0 end) ;; f st)
          (h <- gets p_heap ;; st <- (match ex, st0 with
             | _ :: _, VLoc sl => match hget h sl with
                                  | Some (ODict its) => let (d', h') := halloc (ODict (items ex its)) h in modify (set_heap h') ;;; ret (VLoc d')
                                  | _ => ret st0 end
             | _, _ => ret st0 end) ;; f' st).
    Proof.
      intros Hf. apply sim_heap. intros h H. apply sim_bind; [|exact Hf].
      destruct ex as [|e ex]; [apply sim_ret|]. destruct st0; try apply sim_ret. destruct (hget h l) as [[|its0| | | |]|] eqn:GE; try apply sim_ret.
      cbv [halloc]. apply sim_bind; [|intro; apply sim_ret]. apply sim_modify; [same_t|]; intros s _. cbn [set_heap p_heap]. apply Ok_alloc; auto. destruct H as [H|H]; [left; auto|right]. intros key v I. apply filter_In in I. destruct I as [I _]. pose proof (H _ _ GE) as U. eapply U; eauto.
    Qed.
    Lemma sim_rest l i c d : kb = po_keys o \/ usual_items (i_items i) -> sim (flatten_inst_rest w k o fuel rec l i c d) (flatten_inst_rest w k o' fuel rec' l i c d).
    Proof.
      intros U. unfold flatten_inst_rest. cbv zeta. oko.
      repeat first [apply sim_state_copy; intro|apply sim_dict_sub; exact U|apply sim_seq|apply sim_iter|apply sim_plain_dict|apply sim_slots|s2]; auto.
    Qed.
    Lemma sim_instance l : sim (flatten_obj_instance w k o fuel rec l) (flatten_obj_instance w k o' fuel rec' l).
    Proof.
      unfold flatten_obj_instance. apply sim_obj. intros ob G. destruct ob as [| | | |i|]; try apply sim_raise. cbv zeta. oko.
      destruct (reg_lookup (w_sub w) (w_reg w) _ _); [apply sim_handler|].
      repeat first [apply sim_properties|apply sim_reduce_str|apply sim_reduce_tuple|apply sim_rest; exact G|s2]; auto.
    Qed.
    Lemma sim_object v : sim (flatten_object w k o fuel rec v) (flatten_object w k o' fuel rec' v).
    Proof. destruct v; cbn [flatten_object]; try (apply sim_raise); [|apply sim_instance]. unfold flatten_module; oko; st. Qed.
    Lemma sim_ref_obj v : sim (ref_obj_instance w k o fuel rec v) (ref_obj_instance w k o' fuel rec' v).
    Proof. unfold ref_obj_instance. oko. repeat first [apply sim_object|s2]; auto. Qed.
    Lemma sim_get_flattener v : sim (get_flattener w k o fuel rec v) (get_flattener w k o' fuel rec' v).
    Proof.
      unfold get_flattener, list_recurse, flatten_function, flatten_bytestring. oko.
      repeat first [apply sim_ref_obj|apply sim_plain_dict|s2]; auto.
    Qed.
    Lemma sim_flatten_obj v : sim (flatten_obj w k o fuel rec v) (flatten_obj w k o' fuel rec' v).
    Proof. unfold flatten_obj. oko. repeat first [apply sim_get_flattener|s2]; auto. Qed.
    Lemma sim_push : sim push push.
    Proof. unfold push. oko. apply sim_modify; [same_t|okt]. Qed.
    Lemma sim_pop {A} (a : A) : sim (pop a) (pop a).
    Proof.
      unfold pop. apply sim_bind; [|intro; apply sim_ret]. apply sim_modify.
      { intros s s' (H1 & H2 & H3 & H4). cbv zeta. cbn [set_depth p_depth]. rewrite H3. destruct (_ =? _)%Z; repeat split; simpl; congruence. }
      intros s H. cbv zeta. destruct (_ =? _)%Z; exact H.
    Qed.
    Lemma sim_impl v : sim (flatten_impl w k o fuel rec v) (flatten_impl w k o' fuel rec' v).
    Proof. unfold flatten_impl, flatten_bytestring. oko. repeat first [apply sim_push|apply sim_pop|apply sim_flatten_obj|s2]; auto. Qed.
    Lemma sim_step v : sim (flatten_step w k o fuel rec v) (flatten_step w k o' fuel rec' v).
    Proof. unfold flatten_step. oko. repeat first [apply sim_impl|s2]; auto. Qed.
  End step.

  Lemma sim_flatten n : forall v, sim (flatten w k o n v) (flatten w k o' n v).
  Proof.
    induction n as [|n IH]; intros v; [apply sim_oof|]. cbn [flatten]. apply sim_step. exact IH.
  Qed.
  Lemma encode_sim n v : sim (encode w k o n v) (encode w k o' n v).
  Proof.
    unfold encode, pickle. apply sim_bind; [|intro; apply sim_ret]. apply sim_pflatten. apply sim_flatten.
  Qed.
End opts.
