(** Encoding the objects of [back_graph], one kind after the other. *)
From Verif Require Import PyStr Tags Json JsonText Base Heap Registry Pickler PGen PStep SpecPlain SpecRefs SpecFail SpecGraph SpecHoles SpecLack SpecKeys SpecRun HeapProofs PlainEncode BalanceProofs RTBase HolesProofs SpecBack.
From Coq Require Import List Permutation. Import ListNotations.
Open Scope nat_scope.
Local Open Scope monad_scope.

Section enc.
  Variables (w : world) (k : hooks) (o : popts) (h : heap).
  Hypothesis Ou : po_unpicklable o = true.
  Hypothesis Om : po_make_refs o = true.
  Hypothesis Od : po_max_depth o = None.
  Hypothesis Op : po_props o = false.
  Hypothesis Or : po_readonly o = false.
  Hypothesis Os : po_sort o = false.
  Hypothesis Ok : po_keys o = false.
  Notation goes := (goes w k o h).
  Notation goes_list := (goes_list w k o h).
  Notation goes_fields := (goes_fields w k o h).
  Notation lev := (lev w k o Ou Om Od).

  Lemma layer l ob s : hget (p_heap s) l = Some ob -> (forall b, ob <> OByteArray b) -> layered s (VLoc l).
  Proof. intros G NB. split; [reflexivity|]. split; [discriminate|]. intros l0 b0 [= <-]. rewrite G. intros [= E]. eapply NB; eauto. Qed.

  Lemma ref_goe tab l i ob : NoDup tab -> hget h l = Some ob -> (exists xs, ob = OList xs) \/ (exists d, ob = ODict d) \/ (exists j, ob = OInst j) ->
    nth_error tab i = Some l -> goes tab (VLoc l) (JObj [(u "py/id", JInt (Z.of_nat i))]) tab.
  Proof.
    intros ND G K I. exists 1. intros [|n] s L St; [lia|]. pose proof St as (A & B & C). rewrite <- A in G.
    assert (X : index_of (VLoc l) (p_objs (deeper s)) = Some i) by (cbn; rewrite C; apply index_of_map; auto).
    assert (MK : mkref o (VLoc l) (deeper s) = (Ret false, deeper s)).
    { unfold mkref, bind, log_ref. rewrite X, Ou, Om. reflexivity. }
    assert (GR : getref (VLoc l) (deeper s) = (Ret (JObj [(ID, JInt (Z.of_nat i))]), deeper s)).
    { unfold getref, bind, gets, ret. rewrite X. reflexivity. }
    exists (popped (deeper s)). split; [|apply popped_ends; auto].
    rewrite (lev n (VLoc l) s (deeper s) (Ret (Some (JObj [(ID, JInt (Z.of_nat i))])))); [reflexivity| |].
    - eapply layer; eauto. intros b ->. destruct K as [(? & [=])|[(? & [=])|(? & [=])]].
    - unfold get_flattener. rewrite (bind_eq _ _ _ _ _ (get_obj_eq l _ (deeper s) G)). cbv beta iota.
      destruct K as [(xs & ->)|[(d & ->)|(j & ->)]].
      + rewrite (bind_eq _ _ _ _ _ MK). cbv beta iota. rewrite (bind_eq _ _ _ _ _ GR). reflexivity.
      + rewrite (bind_eq _ _ _ _ _ MK). cbv beta iota. rewrite (bind_eq _ _ _ _ _ GR). reflexivity.
      + unfold ref_obj_instance. rewrite Ou, bind_assoc, (bind_eq _ _ _ _ _ MK). cbv beta iota. rewrite (bind_eq _ _ _ _ _ GR). reflexivity.
  Qed.
  Lemma list_goe tab l vs js tab' : ~ In l tab -> hget h l = Some (OList vs) -> goes_list (tab ++ [l]) vs js tab' -> goes tab (VLoc l) (JList js) tab'.
  Proof.
    intros NI G (N & Go). exists (S N). intros [|n] s L St; [lia|].
    pose proof St as (A & B & C). destruct (Go n (PStep.numbered (VLoc l) (deeper s))) as (s1 & H1 & E1); [lia|apply starts_numbered; auto|cbn; lia|].
    rewrite <- A in G. pose proof (not_numbered _ _ _ _ St NI) as NN. exists (popped s1). split; [|eapply ends_numbered; eauto].
    rewrite (lev n (VLoc l) s s1 (Ret (Some (JList js)))); [reflexivity|eapply layer; eauto; discriminate|].
    eapply get_flattener_list; eauto.
  Qed.
  Lemma dict_goe tab l d ob tab' : ~ In l tab -> hget h l = Some (ODict d) -> goes_fields (tab ++ [l]) d ob tab' -> goes tab (VLoc l) (JObj ob) tab'.
  Proof.
    intros NI G (N & Go). exists (S N). intros [|n] s L St; [lia|].
    pose proof St as (A & B & C). destruct (Go n (PStep.numbered (VLoc l) (deeper s)) []) as (s1 & H1 & E1); [lia|apply starts_numbered; auto|cbn; lia|auto|].
    rewrite <- A in G. pose proof (not_numbered _ _ _ _ St NI) as NN. exists (popped s1). split; [|eapply ends_numbered; eauto].
    rewrite (lev n (VLoc l) s s1 (Ret (Some (JObj ob)))); [reflexivity|eapply layer; eauto; discriminate|].
    eapply get_flattener_dict; eauto.
  Qed.
  Lemma inst_goe tab l i dl d ob tab' : ~ In l tab -> hget h l = Some (OInst i) -> plain_class w (i_cls i) -> i_dict i = Some dl -> hget h dl = Some (ODict d) ->
    ~ In OBJECT (map fst ob) -> goes_fields (tab ++ [l]) d ob tab' -> goes tab (VLoc l) (JObj ((u "py/object", JStr (importable_name (w_cls w (i_cls i)))) :: ob)) tab'.
  Proof.
    intros NI G PC Gi Gd NO (N & Go). exists (S N). intros [|n] s L St; [lia|]. pose proof St as (A & B & C).
    destruct (Go n (PStep.numbered (VLoc l) (deeper s)) [(OBJECT, JStr (importable_name (w_cls w (i_cls i))))]) as (s1 & H1 & E1); [lia|apply starts_numbered; auto|cbn; lia| |].
    { intros a I [<-|[]]. auto. }
    rewrite <- A in G, Gd. pose proof (not_numbered _ _ _ _ St NI) as NN. exists (popped s1). split; [|eapply ends_numbered; eauto].
    rewrite (lev n (VLoc l) s s1 (Ret (Some (JObj ((OBJECT, JStr (importable_name (w_cls w (i_cls i)))) :: ob))))); [reflexivity|eapply layer; eauto; discriminate|].
    exact (by_instance w k o Ou n l i s _ _ NN G (plain_inst_go w k o Ou Op n (flatten w k o n) l i dl d _ (PStep.numbered (VLoc l) (deeper s)) s1 PC G Gi Gd H1)).
  Qed.
  Lemma fnil_goe tab : goes_fields tab [] [] tab.
  Proof. exists 0. intros n s acc _ (A & B & C) D _. exists s. rewrite app_nil_r. unfold flatten_items. rewrite Ok. split; [reflexivity|]. split; auto. Qed.
  Lemma fcons_goe tab a v j tab1 d ob tab2 : is_reserved a = false -> ~ In a (map fst ob) -> (forall f, v <> VFun f) ->
    (forall l i, v = VLoc l -> hget h l = Some (OInst i) -> c_isfun (w_cls w (i_cls i)) = false) ->
    goes tab v j tab1 -> goes_fields tab1 d ob tab2 -> goes_fields tab ((VStr a, v) :: d) ((a, j) :: ob) tab2.
  Proof.
    intros Wn Na Nf Ni (N1 & G1) (N2 & G2). exists (Nat.max N1 N2). intros n s acc L St D Ac. destruct (G1 n s) as (s1 & H1 & E1); [lia|auto|].
    destruct (starts_ends o h _ _ _ _ St D E1) as (St1 & D1).
    assert (NK : ~ In a (map fst acc)) by (apply Ac; left; reflexivity).
    destruct (G2 n s1 (acc ++ [(a, j)])) as (s2 & H2 & E2); [lia|auto|auto| |].
    { intros b I. rewrite map_app, in_app_iff. intros [X|[X|[]]]; [exact (Ac b (or_intror I) X)|]. cbn in X. subst b. auto. }
    exists s2. split; [|eapply ends_trans; eauto]. unfold flatten_items in *. rewrite Ok in *. rewrite HeapProofs.items_nil in *.
    rewrite <- app_assoc in H2. cbn [app] in H2. cbn [foldM fst snd].
    rewrite (bind_eq _ _ _ (acc ++ [(a, j)]) s1); [exact H2|]. unfold flatten_key_value_pair. unfold bind at 1, gets.
    assert (PF : is_module_function w v || negb (is_function w (p_heap s) v) = true).
    { apply orb_true_iff. right. unfold is_function. destruct v; auto; [destruct (Nf f); reflexivity|]. rewrite (proj1 St). destruct (hget h l) as [[]|] eqn:G; auto.
      rewrite (Ni l i eq_refl G). reflexivity. }
    assert (PK : is_picklable w (p_heap s) (VStr a) v = true) by (unfold is_picklable; rewrite Wn; exact PF).
    rewrite PK. cbn [negb]. unfold readonly_skip. rewrite Or. rewrite (bind_eq _ _ s false s) by reflexivity. rewrite (bind_eq _ _ s a s) by reflexivity.
    rewrite (bind_eq _ _ _ _ _ H1). rewrite sset_new by auto. reflexivity.
  Qed.

  (** [__reduce__] *)
  Definition reduce_parts (t : nat) (args : list val) (st : val) : list val := [VType t; VTuple args; st].
  Definition state_docs (st : val) (j : json) : list json := match st with VNone => [] | _ => [j] end.
  Lemma reduce_goe tab l i t args st js jst tab1 tab2 : ~ In l tab -> hget h l = Some (OInst i) -> with_state w k h l i t args st ->
    goes_list (tab ++ [l]) args js tab1 -> goes tab1 st jst tab2 -> (st = VNone -> jst = JNull) -> (st <> VNone -> jst <> JNull) ->
    goes tab (VLoc l) (JObj [(u "py/reduce", JList ([JObj [(u "py/type", JStr (cname w t))]; JObj [(u "py/tuple", JList js)]] ++ state_docs st jst))]) tab2.
  Proof.
    intros NI G (Rd & _ & Sc) Ga Gs Jn Js.
    pose proof (cons_golist w k o h (tab ++ [l]) _ _ _ _ _ _ (type_go w k o h Ou Om Od (tab ++ [l]) t)
      (cons_golist w k o h (tab ++ [l]) _ _ _ _ _ _ (tuple_go w k o h Ou Om Od _ _ _ _ Ga)
      (cons_golist w k o h tab1 _ _ _ _ _ _ Gs
      (cons_golist w k o h tab2 _ _ _ _ _ _ (simple_go w k o h Ou Om Od tab2 VNone eq_refl)
      (cons_golist w k o h tab2 _ _ _ _ _ _ (simple_go w k o h Ou Om Od tab2 VNone eq_refl)
      (cons_golist w k o h tab2 _ _ _ _ _ _ (simple_go w k o h Ou Om Od tab2 VNone eq_refl) (nil_golist w k o h tab2))))))) as (N & Go).
    exists (S N). intros [|n] s L St; [lia|]. pose proof St as (Hh & D & Hob). pose proof (not_numbered _ _ _ _ St NI) as NN.
    destruct (Go n (PStep.numbered (VLoc l) (deeper s))) as (s1 & H1 & E1); [lia|apply starts_numbered; auto|cbn; lia|].
    exists (popped s1). split; [|eapply ends_numbered; eauto].
    destruct Rd as [R1 R2 R3 (rl & Kr & Nrl & Pd) R5 R6 R7 R8 R9].
    assert (B : flatten_obj_instance w k o n (flatten w k o n) l (PStep.numbered (VLoc l) (deeper s)) =
      (Ret (JObj [(REDUCE, JList ([JObj [(u "py/type", JStr (cname w t))]; JObj [(u "py/tuple", JList js)]] ++ state_docs st jst))]), s1)).
    { set (sn := PStep.numbered (VLoc l) (deeper s)) in *. assert (Gn : hget (p_heap sn) l = Some (OInst i)) by (cbn; rewrite Hh; exact G).
      unfold flatten_obj_instance. rewrite (bind_eq _ _ _ _ _ (get_obj_eq l (OInst i) sn Gn)). cbv beta iota zeta.
      unfold no_handler in R1. rewrite R1, Op, Ou. repeat (rewrite (bind_eq _ _ _ _ _ (eq_refl : ret _ sn = (Ret _, sn))); cbv beta).
      match goal with |- bind ?m _ _ = (Ret (JObj ?r), _) => rewrite (bind_eq m _ sn (Some (JObj r)) s1); [reflexivity|] end.
      rewrite (bind_eq _ _ sn (RTup rl) sn); [|unfold reduce_of; rewrite R2; apply catch_ret; unfold lift; rewrite Kr; reflexivity].
      cbv beta iota. unfold flatten_reduce_tuple. unfold pad6. rewrite Pd. cbv beta iota zeta. cbn [is_newobj_fun]. destruct rl as [|r0 rl0]; [congruence|]. clear Nrl. cbv beta iota.
      rewrite (bind_eq _ _ sn (truthy (w_cls w) h st) sn) by (unfold truthy_p, gets; cbn [sn PStep.numbered set_objs deeper set_depth p_heap]; rewrite Hh; reflexivity).
      assert (X : truthy (w_cls w) h st && c_getstate (w_cls w (i_cls i)) && negb (c_setstate (w_cls w (i_cls i))) && negb match c_kind (w_cls w (i_cls i)) with KDict => true | _ => false end = false).
      { destruct Sc as [->|(sd & a & -> & Ga0 & Na & Ns)]; [reflexivity|].
        destruct R7 as [T _|_ _ T|sd1 a1 _ _ _ _ [Gs0|K] _ _]; [rewrite T; reflexivity|congruence|rewrite Gs0, andb_false_r; reflexivity|rewrite K; cbn [negb]; apply andb_false_r]. }
      rewrite X. rewrite (bind_eq _ _ _ _ _ H1). unfold strip_nulls, sset. cbn [app].
      destruct st; cbn [state_docs]; try (rewrite (Jn eq_refl); reflexivity); destruct jst; try reflexivity; exfalso; apply Js; auto; discriminate. }
    rewrite <- Hh in G. pose proof (by_instance w k o Ou n l i s _ _ NN G B) as B1. cbv beta iota in B1.
    rewrite (lev n (VLoc l) s _ _ ltac:(eapply layer; eauto; discriminate) B1). reflexivity.
  Qed.
  Lemma encode_go v j tab : goes [] v j tab ->
    exists N, forall n s, N <= n -> p_heap s = h -> exists s', encode w k o n v s = (Ret (dumps j), s') /\ p_heap s' = h.
  Proof.
    intros (N & Go). exists N. intros n s L E.
    destruct (Go n (p_reset_st s) L) as (s1 & H1 & E1 & _); [split; [auto|]; split; [cbn; lia|reflexivity]|].
    exists s1. split; auto. unfold encode, pickle, pflatten. rewrite Os.
    unfold bind, p_reset, modify, ret. rewrite H1. reflexivity.
  Qed.
End enc.
