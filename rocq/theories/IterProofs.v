(** Iterators and max_iter. *)
From Verif Require Import PyStr Tags Json JsonText B64 B85 Base Heap Registry Pickler PGen PDoc PStep SpecRun HeapProofs.
Open Scope nat_scope.
Local Open Scope monad_scope.

Section iter.
  Variables (w : world) (k : hooks) (o : popts).
  Hypothesis Or : po_readonly o = false.
  Hypothesis Os : po_sort o = false.
  Hypothesis HK : handlers_keep w.

  Lemma iter_loop_ret m n l : forall s i limit js s', hget (p_heap s) l = Some (OInst i) -> In (VLoc l) (p_objs s) ->
    (0 <= p_depth s)%Z -> c_enum (w_cls w (i_cls i)) = false ->
    iter_loop k (flatten w k o m) n l limit s = (Ret js, s') ->
    exists xs, pulls k (flatten w k o m) l (i_pos i) xs js s s' /\
      hget (p_heap s') l = Some (OInst (set_pos i (i_pos i + length xs))) /\ stops k l (i_pos i) limit (length xs).
  Proof.
    assert (SP : forall i, OInst i = OInst (set_pos i (i_pos i + 0))) by (intros []; cbn; rewrite Nat.add_0_r; auto).
    induction n as [|n IH]; intros s i limit js s' G Io D En H.
    - cbn [iter_loop] in H. destruct limit as [[|q]|]; try discriminate. inversion H; subst. exists []. cbn [length].
      rewrite <- SP. split; [constructor|]. split; [auto|]. split; auto.
    - assert (X : limit = Some 0 \/ (limit <> Some 0 /\
        (ob <- get_obj l ;;
              match ob with
              | OInst i =>
                  x <- lift (k_iter k l (i_pos i)) ;;
                  match x with
                  | None => ret []
                  | Some v =>
                      modify (fun s => set_heap (hset (p_heap s) l (OInst (set_pos i (S (i_pos i))))) s) ;;;
                      j <- flatten w k o m v ;;
                      js <- iter_loop k (flatten w k o m) n l (option_map pred limit) ;;
                      ret (j :: js)
                  end
              | _ => raise EUnmodelled
              end) s = (Ret js, s'))).
      { cbn [iter_loop] in H. destruct limit as [[|q]|]; [left; auto| |]; right; (split; [discriminate|exact H]). }
      destruct X as [->|[NL X]].
      { cbn [iter_loop] in H. inversion H; subst. exists []. cbn [length].
        rewrite <- SP. split; [constructor|]. split; [auto|]. split; auto. }
      clear H. assert (G0 : get_obj l s = (Ret (OInst i), s)) by (unfold get_obj, bind, gets; rewrite G; reflexivity).
      rewrite (bind_eq _ _ _ _ _ G0) in X. cbv beta iota in X. apply bind_ret_inv in X. destruct X as (x & s0 & X0 & X).
      unfold lift in X0. inversion X0 as [[Kx E0]]. subst s0. clear X0. destruct x as [v|].
      2: { inversion X; subst. exists []. cbn [length]. rewrite <- SP. split; [constructor|]. split; auto. unfold stops.
           rewrite Nat.add_0_r. destruct limit; auto. split; [lia|auto]. }
      set (s1 := at_pos l (S (i_pos i)) s).
      assert (E1 : s1 = set_heap (hset (p_heap s) l (OInst (set_pos i (S (i_pos i))))) s) by (unfold s1, at_pos; rewrite G; auto).
      unfold bind at 1, modify in X. rewrite <- E1 in X. apply bind_ret_inv in X. destruct X as (j & s2 & X1 & X2).
      apply bind_ret_inv in X2. destruct X2 as (js1 & s3 & X2 & X3). inversion X3; subst js s3. clear X3.
      assert (G1 : hget (p_heap s1) l = Some (OInst (set_pos i (S (i_pos i))))).
      { rewrite E1. apply hget_hset_same. eapply hget_lt; eauto. }
      pose proof (flatten_ev w k o Or Os HK (eq l) m v s1) as Ev. rewrite X1 in Ev.
      assert (Lo : locked_ok w (mkEvp (fun _ => True) (eq l) (fun _ => True) (fun _ => True)) s1).
      { intros l1 <-. split; [rewrite E1; exact Io|]. unfold is_enum. rewrite G1. split; [exact En|discriminate]. }
      specialize (Ev Lo ltac:(rewrite E1; exact D)). destruct Ev as (_ & (y & Oy) & D2 & _ & Lk).
      assert (G2 := Lk l _ eq_refl G1). cbn [ev_lk] in G2.
      destruct (IH s2 (set_pos i (S (i_pos i))) (option_map pred limit) js1 s') as (xs & P & G3 & St); auto.
      + rewrite Oy. apply in_or_app. left. rewrite E1. exact Io.
      + rewrite E1 in D2. cbn [set_heap p_depth] in D2. lia.
      + exists (v :: xs). cbn [set_pos i_pos] in *. split; [econstructor; eauto|]. rewrite set_pos_pos in G3. cbn [length].
        replace (i_pos i + S (length xs)) with (S (i_pos i) + length xs) by lia. split; auto.
        unfold stops in *. destruct limit as [q|]; cbn [option_map] in St.
        * assert (q <> 0) by congruence. destruct St as [S1 S2]. split; [lia|]. destruct S2 as [->|S2]; [left; lia|right].
          replace (i_pos i + S (length xs)) with (S (i_pos i) + length xs) by lia. exact S2.
        * replace (i_pos i + S (length xs)) with (S (i_pos i) + length xs) by lia. exact St.
  Qed.

  Hypothesis Of : po_fail_safe o = None.
  Hypothesis Od : po_max_depth o <> Some 0%Z.
  Theorem flatten_iterator n l i s j s' : po_props o = false -> fresh o (VLoc l) s -> (-1 <= p_depth s)%Z ->
    hget (p_heap s) l = Some (OInst i) -> bare_iterator w (i_cls i) ->
    flatten w k o (S n) (VLoc l) s = (Ret j, s') ->
    exists xs js s1 s2, pulls k (flatten w k o n) l (i_pos i) xs js s1 s2 /\
      p_heap s1 = p_heap s /\ p_objs s1 = p_objs s ++ [VLoc l] /\ p_heap s' = p_heap s2 /\
      j = JObj ((if po_unpicklable o then [(OBJECT, JStr (importable_name (w_cls w (i_cls i))))] else [])
                          ++ [(ITERATOR, JList js)]) /\
      hget (p_heap s2) l = Some (OInst (set_pos i (i_pos i + length xs))) /\
      stops k l (i_pos i) (po_max_iter o) (length xs).
  Proof.
    intros Op Fr Ds G [B1 B2 B3 B4 B5 B6 B7 B8] H.
    destruct (inst_ret w k o Of n l i s j s' Fr G H) as (s1 & Hh & H1). clear H.
    set (s0 := numbered (VLoc l) (deeper s)) in *.
    assert (G0 : get_obj l s0 = (Ret (OInst i), s0)).
    { unfold get_obj, bind, gets. change (p_heap s0) with (p_heap s). rewrite G. reflexivity. }
    unfold flatten_obj_instance in H1. rewrite (bind_eq _ _ _ _ _ G0) in H1. cbv beta iota zeta in H1.
    rewrite B2, Op in H1. unfold bind at 1, ret at 1 in H1. unfold reduce_of in H1. rewrite B3 in H1.
    assert (H2 : flatten_inst_rest w k o n (flatten w k o n) l i (importable_name (w_cls w (i_cls i))) [] s0 = (Ret j, s1)).
    { destruct (po_unpicklable o); exact H1. }
    clear H1. unfold flatten_inst_rest in H2. cbv zeta in H2. rewrite B4, B5, B6, B7, B1 in H2. cbn [andb negb] in H2.
    unfold bind at 1, ret at 1 in H2. unfold bind at 1, ret at 1 in H2. unfold bind at 1, ret at 1 in H2. unfold bind at 1, ret at 1 in H2.
    unfold bind at 1, gets in H2.
    assert (Z : forall ex : list pystr, match ex with [] => ret VNone | _ :: _ => ret VNone end = ret (S := pst) VNone) by (intros []; auto).
    rewrite Z in H2. unfold bind at 1, ret at 1 in H2. unfold truthy_p in H2. unfold bind at 1, gets in H2. cbn [truthy andb] in H2.
    apply bind_ret_inv in H2. destruct H2 as (js & s2 & H2 & H3). inversion H3; subst j s2. clear H3.
    destruct (iter_loop_ret n n l s0 i (po_max_iter o) js s1) as (xs & P & G3 & St); auto.
    - unfold s0, numbered. cbn [set_objs p_objs]. apply in_or_app. right. left. auto.
    - unfold s0, numbered, deeper. cbn [set_objs set_depth p_depth]. lia.
    - exists xs, js, s0, s1. split; auto. split; [reflexivity|]. split; [reflexivity|]. split; [exact Hh|]. split; auto.
      destruct (po_unpicklable o); reflexivity.
  Qed.
  Theorem encode_iterator n l i s text s' : po_props o = false -> hget (p_heap s) l = Some (OInst i) -> bare_iterator w (i_cls i) ->
    encode w k o (S n) (VLoc l) s = (Ret text, s') ->
    exists xs js s1 s2, pulls k (flatten w k o n) l (i_pos i) xs js s1 s2 /\ p_heap s1 = p_heap s /\
      text = dumps (JObj ((if po_unpicklable o then [(OBJECT, JStr (importable_name (w_cls w (i_cls i))))] else [])
                          ++ [(ITERATOR, JList js)])) /\
      hget (p_heap s') l = Some (OInst (set_pos i (i_pos i + length xs))) /\
      stops k l (i_pos i) (po_max_iter o) (length xs).
  Proof.
    intros Op G B H. apply encode_ret in H; auto. destruct H as (j & H & ->).
    destruct (flatten_iterator n l i (p_reset_st s) j s' Op (fresh_start o (VLoc l) s Od) (Z.le_refl _) G B H)
      as (xs & js & s1 & s2 & P & E1 & _ & E2 & -> & X & St).
    exists xs, js, s1, s2. rewrite E2. auto.
  Qed.
End iter.
