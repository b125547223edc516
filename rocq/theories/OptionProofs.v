(** Which entries of lists, dicts and instances reach the document. *)
From Verif Require Import PyStr Tags Json JsonText B64 B85 Base Heap Registry Pickler PGen PDoc PStep SpecRun HeapProofs.
Open Scope nat_scope.
Local Open Scope monad_scope.

Section opt.
  Variables (w : world) (k : hooks) (o : popts).
  Hypothesis Or : po_readonly o = false.
  Hypothesis Os : po_sort o = false.
  Hypothesis HK : handlers_keep w.
  Hypothesis Of : po_fail_safe o = None.

  Lemma flatten_fun n f s j s' : po_unpicklable o = true -> po_make_refs o = true -> po_max_depth o = None ->
    flatten w k o (S n) (VFun f) s = (Ret j, s') ->
    j = if f_modfun (w_fun w f) then JObj [(FUNCTION, JStr (importable_fname (w_fun w f)))] else JNull.
  Proof.
    intros Ou Om Od H. cbn [flatten] in H. unfold flatten_step in H. rewrite Ou, Om in H. cbn [andb] in H.
    unfold flatten_impl in H. unfold bind at 1, gets in H. cbn [prim_json] in H.
    unfold push in H. unfold bind at 1, modify in H. apply bind_ret_inv in H. destruct H as (j1 & s1 & H & Hp).
    unfold pop, bind, modify, ret in Hp. inversion Hp; subst j1. clear Hp H2.
    unfold flatten_obj, max_reached in H. rewrite Od in H. unfold bind at 1, bind at 1, gets, ret at 1 in H. unfold catch in H.
    match type of H with context [match ?m ?st with _ => _ end] => destruct (m st) as [[j1|e|] s2] eqn:B end.
    2: { destruct (is_Exception e); rewrite ?Of in H; discriminate. }
    2: discriminate.
    inversion H; subst j1 s2. clear H. unfold in_cycle in B. unfold bind at 1, bind at 1, get, ret at 1 in B.
    rewrite Om in B. cbn [orb negb andb] in B. unfold get_flattener in B.
    destruct (f_modfun (w_fun w f)).
    - inversion B; subst. unfold flatten_function; rewrite Ou; reflexivity.
    - apply bind_ret_inv in B. destruct B as (r & s2 & B1 & B2). apply bind_ret_inv in B1. destruct B1 as (x & s3 & B0 & B1).
      inversion B1; subst r. apply bind_ret_inv in B2. destruct B2 as (y & s4 & _ & B2). inversion B2; subst. reflexivity.
  Qed.
  Lemma runs_length f vs js s s' : runs f vs js s s' -> length js = length vs.
  Proof. induction 1; cbn [length]; congruence. Qed.
  Lemma runs_nth f vs js s s' p v : runs f vs js s s' -> nth_error vs p = Some v ->
    exists j s1 s2, f v s1 = (Ret j, s2) /\ nth_error js p = Some j.
  Proof.
    intros R. revert p. induction R as [|v1 j1 vs js s s1 s2 E R IH]; intros [|p] H; cbn [nth_error] in *; try discriminate.
    - inversion H; subst. eauto.
    - apply IH. auto.
  Qed.
  Theorem encode_functions_list n l xs s text s' : po_unpicklable o = true -> po_make_refs o = true -> po_max_depth o = None ->
    hget (p_heap s) l = Some (OList xs) -> encode w k o (S n) (VLoc l) s = (Ret text, s') ->
    exists js, text = dumps (JList js) /\ length js = length xs /\
      forall p f, nth_error xs p = Some (VFun f) ->
        nth_error js p = Some (if f_modfun (w_fun w f) then JObj [(FUNCTION, JStr (importable_fname (w_fun w f)))] else JNull).
  Proof.
    intros Ou Om Od G H. destruct (encode_list w k o Os Of ltac:(congruence) n l xs s text s' G H) as (js & s1 & s2 & R & _ & ->).
    exists js. split; auto. split; [eapply runs_length; eauto|]. intros p f E.
    destruct (runs_nth _ _ _ _ _ _ _ R E) as (j & s3 & s4 & R1 & R2). rewrite R2. f_equal.
    destruct n as [|n]; [discriminate|]. eapply flatten_fun; eauto.
  Qed.
  Hypothesis Od : po_max_depth o <> Some 0%Z.
  Hypothesis Ok : po_keys o = false.
  Lemma names_coerce (ps : list (pystr * val)) : Forall2 (coerces (po_numeric o) k) (map fst (map (fun nv => (VStr (fst nv), snd nv)) ps)) (map fst ps).
  Proof. induction ps as [|[a b] ps IH]; cbn [map]; constructor; auto. constructor. Qed.
  Lemma filter_names (P : val * val -> bool) (ps : list (pystr * val)) :
    filter P (map (fun nv => (VStr (fst nv), snd nv)) ps) = map (fun nv => (VStr (fst nv), snd nv)) (filter (fun nv => P (VStr (fst nv), snd nv)) ps).
  Proof. induction ps as [|[a b] ps IH]; cbn [map filter fst snd]; auto. rewrite IH. destruct (P (VStr a, b)); reflexivity. Qed.
  Lemma NoDup_filter_names (P : pystr * val -> bool) ps : NoDup (map fst ps) -> NoDup (map fst (filter P ps)).
  Proof.
    induction ps as [|[a b] ps IH]; cbn [map filter fst]; auto. intros N. inversion N; subst.
    destruct (P (a, b)); cbn [map fst]; auto. constructor; auto. intros I. apply H1.
    apply in_map_iff in I. destruct I as (x & E & I). apply filter_In in I. apply in_map_iff. exists x. split; auto. apply I.
  Qed.
  Lemma map_fst_combine {A B} (a : list A) : forall b : list B, length b = length a -> map fst (combine a b) = a.
  Proof. induction a as [|x a IH]; intros [|y b] L; cbn in *; try discriminate; auto. f_equal. apply IH. lia. Qed.
  Definition named (ps : list (pystr * val)) : list (val * val) := map (fun nv => (VStr (fst nv), snd nv)) ps.
  Theorem encode_names_dict n l ps s text s' :
    hget (p_heap s) l = Some (ODict (named ps)) -> NoDup (map fst ps) ->
    (forall nv x, In nv ps -> snd nv = VLoc x -> hget (p_heap s) x <> None) ->
    encode w k o (S n) (VLoc l) s = (Ret text, s') ->
    exists ob, text = dumps (JObj ob) /\
      map fst ob = map fst (filter (fun nv => negb (is_reserved (fst nv)) && negb (anonymous w (p_heap s) (snd nv))) ps).
  Proof.
    intros G N Al H.
    destruct (encode_dict w k o Or Os HK Of Od n l (named ps) s text s'
      (map fst (filter (fun nv => negb (is_reserved (fst nv)) && negb (anonymous w (p_heap s) (snd nv))) ps))) as (js & s1 & s2 & R & _ & E); auto.
    - intros kv x I. apply in_map_iff in I. destruct I as (nv & <- & I). cbn [snd]. eauto.
    - unfold kept_entries, named. rewrite filter_names. apply names_coerce.
    - apply NoDup_filter_names. auto.
    - eexists. split; [exact E|]. apply map_fst_combine. apply runs_length in R. rewrite R.
      unfold kept_entries, named. rewrite filter_names, !map_length. reflexivity.
  Qed.
  Theorem encode_names_instance n l i a ps s text s' : po_props o = false ->
    hget (p_heap s) l = Some (OInst i) -> ordinary w (i_cls i) -> i_dict i = Some a ->
    hget (p_heap s) a = Some (ODict (named ps)) -> NoDup (map fst ps) ->
    (forall nv x, In nv ps -> snd nv = VLoc x -> hget (p_heap s) x <> None) ->
    encode w k o (S n) (VLoc l) s = (Ret text, s') ->
    exists ob, text = dumps (JObj ob) /\
      map fst ob = (if po_unpicklable o then [OBJECT] else []) ++
        map fst (filter (fun nv => negb (if in_dec (list_eq_dec N.eq_dec) (fst nv) (c_exclude (w_cls w (i_cls i))) then true else false) &&
                  (negb (is_reserved (fst nv)) && negb (anonymous w (p_heap s) (snd nv)))) ps).
  Proof.
    intros Op G Or1 Da Ga N Al H.
    match goal with |- context [filter ?P ps] => set (F := P) end.
    assert (FE : kept_entries w (p_heap s) (filter (included (c_exclude (w_cls w (i_cls i)))) (named ps)) = named (filter F ps)).
    { unfold kept_entries, named. rewrite !filter_names. f_equal. clear. induction ps as [|[x y] ps IH]; auto. cbn [filter fst snd].
      unfold included at 1, F at 1. cbn [fst snd]. destruct (in_dec (list_eq_dec N.eq_dec) x (c_exclude (w_cls w (i_cls i)))); cbn [negb andb filter]; auto.
      unfold entry_kept at 1. cbn [fst snd]. destruct (negb (is_reserved x) && _); rewrite IH; reflexivity. }
    destruct (encode_instance w k o Or Os HK Of Od n l i a (named ps) s text s' (map fst (filter F ps))) as (js & s1 & s2 & R & _ & E); auto.
    - intros kv x I. apply in_map_iff in I. destruct I as (nv & <- & I). cbn [snd]. eauto.
    - rewrite FE. apply names_coerce.
    - apply NoDup_filter_names. auto.
    - intros _ I. apply in_map_iff in I. destruct I as ([x y] & E & I). apply filter_In in I. destruct I as [_ I]. unfold F in I. cbn [fst] in I, E. subst x. change (is_reserved OBJECT) with true in I. cbn [negb andb] in I.
      rewrite andb_false_r in I. discriminate.
    - eexists. split; [exact E|]. rewrite map_app, map_fst_combine; [destruct (po_unpicklable o); reflexivity|].
      apply runs_length in R. rewrite R, FE. unfold named. rewrite !map_length. reflexivity.
  Qed.
End opt.
