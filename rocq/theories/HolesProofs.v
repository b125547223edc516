(** Encoding graphs in which some objects are replaced. *)
From Verif Require Import PyStr Tags Json JsonText Base Heap Registry Pickler PGen PStep SpecPlain SpecRefs SpecFail SpecHoles SpecRun SpecKeys HeapProofs PlainEncode BalanceProofs RTBase.
From Coq Require Import List Permutation. Import ListNotations.
Open Scope nat_scope.
Local Open Scope monad_scope.

Section holes.
  Variables (w : world) (k : hooks) (o : popts) (h : heap).
  Hypothesis Ou : po_unpicklable o = true.
  Hypothesis Om : po_make_refs o = true.
  Hypothesis Od : po_max_depth o = None.
  Hypothesis Op : po_props o = false.
  Hypothesis Or : po_readonly o = false.
  Hypothesis Os : po_sort o = false.
  Hypothesis Ok : po_keys o = false.
  Notation fs := (po_fail_safe o).
  Notation written := (written w k fs h).
  Notation writtens := (writtens w k fs h).
  Notation fields_written := (fields_written w k fs h).

  Lemma step_on n v : flatten w k o (S n) v = flatten_impl w k o n (flatten w k o n) v.
  Proof. cbn [flatten]. unfold flatten_step. rewrite Ou, Om. reflexivity. Qed.
  (** what a value that is not written at once goes through *)
  Definition layered (s : pst) (v : val) : Prop :=
    prim_json v = None /\ (forall b, v <> VBytes b) /\ (forall l b, v = VLoc l -> hget (p_heap s) l <> Some (OByteArray b)).
  Lemma lev n v s s1 r : layered s v -> get_flattener w k o n (flatten w k o n) v (deeper s) = (r, s1) ->
    flatten w k o (S n) v s =
    match r with
    | Ret (Some j) => (Ret j, popped s1)
    | Ret None => (j <- (pickle_warning o v ;;; ret JNull) ;; pop j) s1
    | Exc e => match fs with
               | Some f => if is_Exception e then (j <- lift (f e) ;; pop j) s1 else (Exc e, s1)
               | None => (Exc e, s1)
               end
    | OOF => (OOF, s1)
    end.
  Proof.
    intros (Hp & Nb & Nba) H. rewrite step_on.
    assert (X : (push;;; j0 <- flatten_obj w k o n (flatten w k o n) v;; pop j0) s =
      match r with
      | Ret (Some j) => (Ret j, popped s1)
      | Ret None => (j <- (pickle_warning o v ;;; ret JNull) ;; pop j) s1
      | Exc e => match fs with
                 | Some f => if is_Exception e then (j <- lift (f e) ;; pop j) s1 else (Exc e, s1)
                 | None => (Exc e, s1)
                 end
      | OOF => (OOF, s1)
      end).
    { unfold push. unfold bind at 1, modify. change (set_depth (p_depth s + 1)%Z s) with (deeper s).
      unfold bind at 1. unfold flatten_obj, max_reached. rewrite Od. unfold bind at 1 2, gets, ret at 1.
      unfold catch, in_cycle. unfold bind at 1 2, get, ret at 1. rewrite Om. cbn [orb negb andb].
      unfold bind at 1. rewrite H. destruct r as [[j|]|e|]; [reflexivity| | |reflexivity].
      - unfold bind, ret, pickle_warning. destruct (po_warn o); reflexivity.
      - destruct (is_Exception e) eqn:X; destruct fs as [f|] eqn:Of; try reflexivity. }
    unfold flatten_impl. unfold bind at 1, gets. destruct v; cbn [prim_json] in *; try discriminate; try exact X.
    - destruct (Nb b). reflexivity.
    - destruct (hget (p_heap s) l) as [[]|] eqn:G; try exact X. destruct (Nba l b); auto.
  Qed.

  Definition ends (tab' : list loc) (s s' : pst) : Prop :=
    p_heap s' = h /\ ((0 <= p_depth s)%Z -> p_depth s' = p_depth s /\ p_objs s' = map VLoc tab').
  Definition starts (tab : list loc) (s : pst) : Prop := p_heap s = h /\ (-1 <= p_depth s)%Z /\ p_objs s = map VLoc tab.
  Definition goes (tab : list loc) (v : val) (j : json) (tab' : list loc) : Prop :=
    exists N, forall n s, N <= n -> starts tab s -> exists s', flatten w k o n v s = (Ret j, s') /\ ends tab' s s'.
  Definition goes_list (tab : list loc) (vs : list val) (js : list json) (tab' : list loc) : Prop :=
    exists N, forall n s, N <= n -> starts tab s -> (0 <= p_depth s)%Z ->
      exists s', mapM (flatten w k o n) vs s = (Ret js, s') /\ ends tab' s s'.
  Definition goes_fields (tab : list loc) (d : list (val * val)) (ob : jobj) (tab' : list loc) : Prop :=
    exists N, forall n s acc, N <= n -> starts tab s -> (0 <= p_depth s)%Z -> (forall a, In a (map fst ob) -> ~ In a (map fst acc)) ->
      exists s', flatten_items w k o (flatten w k o n) d [] acc s = (Ret (acc ++ ob), s') /\ ends tab' s s'.

  Lemma popped_ends tab' s s1 : (-1 <= p_depth s)%Z -> p_heap s1 = h -> p_depth s1 = (p_depth s + 1)%Z -> p_objs s1 = map VLoc tab' ->
    ends tab' s (popped s1).
  Proof.
    intros D A B C. unfold popped. cbv zeta. rewrite B. replace (p_depth s + 1 - 1)%Z with (p_depth s) by lia. cbn [set_depth p_depth].
    destruct (Z.eqb_spec (p_depth s) (-1)) as [E|E]; split; auto; intros; try lia; auto.
  Qed.
  Lemma ends_deeper tab' s s1 : (-1 <= p_depth s)%Z -> ends tab' (deeper s) s1 -> ends tab' s (popped s1).
  Proof.
    intros D (A & B). destruct B as (B & C); [cbn; lia|]. apply popped_ends; auto.
  Qed.
  Lemma ends_numbered tab' l s s1 : (-1 <= p_depth s)%Z -> ends tab' (PStep.numbered (VLoc l) (deeper s)) s1 -> ends tab' s (popped s1).
  Proof.
    intros D (A & B). destruct B as (B & C); [cbn; lia|]. apply popped_ends; auto.
  Qed.
  Lemma starts_deeper tab s : starts tab s -> starts tab (deeper s).
  Proof. intros (A & B & C). split; auto. split; [cbn; lia|auto]. Qed.
  Lemma starts_numbered tab l s : starts tab s -> starts (tab ++ [l]) (PStep.numbered (VLoc l) (deeper s)).
  Proof.
    intros (A & B & C). split; auto. split; [cbn; lia|]. cbn [PStep.numbered set_objs deeper set_depth p_objs]. rewrite C, map_app. reflexivity.
  Qed.
  Lemma not_numbered tab l s : starts tab s -> ~ In l tab -> ~ In (VLoc l) (p_objs s).
  Proof. intros (_ & _ & ->) N I. apply in_map_iff in I. destruct I as (x & E & I). injection E as ->. auto. Qed.
  Lemma starts_ends tab tab' s s' : starts tab s -> (0 <= p_depth s)%Z -> ends tab' s s' -> starts tab' s' /\ (0 <= p_depth s')%Z.
  Proof. intros (A & B & C) D (E & F). destruct (F D) as (G & H). split; [split; auto; split; auto; lia|lia]. Qed.
  Lemma ends_trans tab1 tab2 s s1 s2 : (0 <= p_depth s)%Z -> ends tab1 s s1 -> ends tab2 s1 s2 -> ends tab2 s s2.
  Proof. intros D (A & B) (C & E). destruct (B D) as (B1 & B2). split; auto. intros _. destruct E as (E1 & E2); [lia|]. split; congruence. Qed.
  Lemma get_obj_eq l ob s : hget (p_heap s) l = Some ob -> get_obj l s = (Ret ob, s).
  Proof. intros G. unfold get_obj, bind, gets. rewrite G. reflexivity. Qed.

  (** instances *)
  Lemma by_instance n l i s r s1 : ~ In (VLoc l) (p_objs s) -> hget (p_heap s) l = Some (OInst i) ->
    flatten_obj_instance w k o n (flatten w k o n) l (PStep.numbered (VLoc l) (deeper s)) = (r, s1) ->
    get_flattener w k o n (flatten w k o n) (VLoc l) (deeper s) =
    (match r with Ret j => Ret (Some j) | Exc e => Exc e | OOF => OOF end, s1).
  Proof.
    intros N G H. unfold get_flattener. rewrite (bind_eq _ _ _ _ _ (get_obj_eq l (OInst i) (deeper s) G)). cbv beta iota.
    unfold ref_obj_instance. rewrite Ou, bind_assoc. rewrite (bind_eq _ _ _ _ _ (mkref_fresh o (VLoc l) (deeper s) N)). cbv beta iota.
    unfold flatten_object, bind. rewrite H. destruct r; reflexivity.
  Qed.
  Ltac sk s := repeat (rewrite (bind_eq _ _ _ _ _ (eq_refl : ret _ s = (Ret _, s))); cbv beta).
  Lemma inst_start n rec l i s : hget (p_heap s) l = Some (OInst i) ->
    reg_lookup (w_sub w) (w_reg w) (i_cls i) (importable_name (w_cls w (i_cls i))) = None ->
    c_reduce (w_cls w (i_cls i)) = false ->
    flatten_obj_instance w k o n rec l s = flatten_inst_rest w k o n rec l i (importable_name (w_cls w (i_cls i))) [] s.
  Proof.
    intros G L A. unfold flatten_obj_instance. rewrite (bind_eq _ _ _ _ _ (get_obj_eq l (OInst i) s G)). cbv beta iota zeta.
    rewrite L, Op, Ou. sk s.
    match goal with |- bind ?m _ _ = _ => assert (R : m s = (Ret None, s)) by (unfold reduce_of; rewrite A; reflexivity);
      rewrite (bind_eq _ _ _ _ _ R); clear R end. reflexivity.
  Qed.
  Lemma plain_inst_go n rec l i dl d ob s s1 : plain_class w (i_cls i) -> hget (p_heap s) l = Some (OInst i) -> i_dict i = Some dl ->
    hget (p_heap s) dl = Some (ODict d) ->
    flatten_items w k o rec d [] [(OBJECT, JStr (importable_name (w_cls w (i_cls i))))] s = (Ret ob, s1) ->
    flatten_obj_instance w k o n rec l s = (Ret (JObj ob), s1).
  Proof.
    intros [A1 A2 A3 A4 A5 A6 A7 A8 A9] G Gd Gh H. rewrite (inst_start n rec l i s G A2 A3).
    unfold flatten_inst_rest. cbv zeta. rewrite A4, A5, A6, A7, A8, Ou. cbn [andb negb]. sk s.
    rewrite (bind_eq _ _ _ _ _ (eq_refl : gets p_heap s = (Ret _, s))). cbv beta. sk s.
    rewrite (bind_eq _ _ s false s); [|reflexivity]. cbn [andb]. rewrite A1, Gd. unfold flatten_plain_dict. rewrite bind_assoc.
    rewrite (bind_eq _ _ _ _ _ (get_obj_eq dl (ODict d) s Gh)). cbv beta iota. cbn [sset].
    rewrite (bind_eq _ _ _ _ _ H). reflexivity.
  Qed.
  Lemma warn_ends v s : exists s', pickle_warning o v s = (Ret tt, s') /\ p_heap s' = p_heap s /\ p_depth s' = p_depth s /\ p_objs s' = p_objs s.
  Proof. unfold pickle_warning. destruct (po_warn o); eexists; repeat split. Qed.
  Lemma prim_go tab v j : prim_json v = Some j -> goes tab v j tab.
  Proof.
    intros P. exists 1. intros [|n] s L (A & B & C); [lia|]. exists s. split; [|split; auto].
    rewrite step_on. unfold flatten_impl, bind at 1, gets. destruct v; try discriminate; cbn in P |- *; injection P as <-; reflexivity.
  Qed.
  Lemma nil_golist tab : goes_list tab [] [] tab.
  Proof. exists 0. intros n s _ (A & B & C) D. exists s. split; [reflexivity|]. split; auto. Qed.
  Lemma cons_golist tab v j tab1 vs js tab2 : goes tab v j tab1 -> goes_list tab1 vs js tab2 -> goes_list tab (v :: vs) (j :: js) tab2.
  Proof.
    intros (N1 & G1) (N2 & G2).
    exists (Nat.max N1 N2). intros n s L St D. destruct (G1 n s) as (s1 & H1 & E1); [lia|auto|].
    destruct (starts_ends _ _ _ _ St D E1) as (St1 & D1). destruct (G2 n s1) as (s2 & H2 & E2); [lia|auto|auto|].
    exists s2. split; [|eapply ends_trans; eauto]. cbn [mapM]. rewrite (bind_eq _ _ _ _ _ H1), (bind_eq _ _ _ _ _ H2). reflexivity.
  Qed.
  Lemma type_go tab c : goes tab (VType c) (JObj [(u "py/type", JStr (importable_name (w_cls w c)))]) tab.
  Proof.
    exists 1. intros [|n] s L St; [lia|]. pose proof St as (A & B & C). exists (popped (deeper s)). split.
    + rewrite (lev n (VType c) s (deeper s) (Ret (Some (mktyperef w c)))); [reflexivity| |reflexivity].
      split; [reflexivity|]; split; discriminate.
    + apply popped_ends; auto.
  Qed.
  Lemma tuple_go tab vs js tab' : goes_list tab vs js tab' -> goes tab (VTuple vs) (JObj [(u "py/tuple", JList js)]) tab'.
  Proof.
    intros (N & G). exists (S N). intros [|n] s L St; [lia|].
    pose proof St as (A & B & C). destruct (G n (deeper s)) as (s1 & H1 & E1); [lia|apply starts_deeper; auto|cbn; lia|].
    exists (popped s1). split; [|apply ends_deeper; auto].
    rewrite (lev n (VTuple vs) s s1 (Ret (Some (JObj [(TUPLE, JList js)])))); [reflexivity|split; [reflexivity|]; split; discriminate|].
    unfold get_flattener, list_recurse. rewrite bind_assoc, (bind_eq _ _ _ _ _ H1), Ou. reflexivity.
  Qed.
  Lemma simple_go tab v : simple v = true -> goes tab v (simple_doc v) tab.
  Proof.
    induction v as [| | | | | |vs IHv| | | | | | |] using val_ind'; intros P; cbn in P; try discriminate; try (apply prim_go; reflexivity).
    cbn [simple_doc]. apply tuple_go. induction IHv as [|v vs Hv Hvs IH]; [apply nil_golist|]. cbn in P. apply andb_true_iff in P as [P1 P2].
    cbn [map]. eapply cons_golist; eauto.
  Qed.
  Lemma call_go n l i c args js s s1 : hget (p_heap s) l = Some (OInst i) ->
    reg_lookup (w_sub w) (w_reg w) (i_cls i) (importable_name (w_cls w (i_cls i))) = None -> c_reduce (w_cls w (i_cls i)) = true ->
    k_reduce k l = Ret (RTup [VType c; VTuple args]) ->
    mapM (flatten w k o n) [VType c; VTuple args; VNone; VNone; VNone; VNone] s = (Ret (js ++ [JNull; JNull; JNull; JNull]), s1) -> length js = 2 ->
    flatten_obj_instance w k o n (flatten w k o n) l s = (Ret (JObj [(REDUCE, JList js)]), s1).
  Proof.
    intros G L0 A K H Lj. unfold flatten_obj_instance. rewrite (bind_eq _ _ _ _ _ (get_obj_eq l (OInst i) s G)). cbv beta iota zeta.
    rewrite L0, Op, Ou. sk s.
    rewrite (bind_eq _ _ s (Some (JObj [(REDUCE, JList js)])) s1); [reflexivity|].
    rewrite (bind_eq _ _ s (RTup [VType c; VTuple args]) s); [|unfold reduce_of; rewrite A; apply catch_ret; unfold lift; rewrite K; reflexivity].
    cbv beta iota. unfold flatten_reduce_tuple. change (pad6 [VType c; VTuple args]) with [VType c; VTuple args; VNone; VNone; VNone; VNone].
    cbv beta iota zeta. cbn [is_newobj_fun].
    rewrite (bind_eq _ _ s false s) by reflexivity. cbn [andb]. rewrite (bind_eq _ _ _ _ _ H).
    destruct js as [|j1 [|j2 [|]]]; try discriminate Lj. cbn [app]. unfold strip_nulls. cbn.
    reflexivity.
  Qed.
  Lemma call_case tab l j : ~ In l tab -> hole w k fs h l j -> goes tab (VLoc l) j (tab ++ [l]) \/ forall c args, ~ by_call w k h l c args.
  Proof.
    intros NI Ho. assert (D : (exists c args, by_call w k h l c args /\ j = JObj [(u "py/reduce", JList [JObj [(u "py/type", JStr (importable_name (w_cls w c)))]; simple_doc (VTuple args)])]) \/ forall c args, ~ by_call w k h l c args).
    { destruct Ho as [i e f j G R X F E|i hd G L0 Hd|i e G L0 A1 A2 A3 A4 A5 K T|c args Bc]; [right|right|right|left; eauto];
        intros c args [(i' & G' & L' & R') K' _]; rewrite G in G'; injection G' as <-; try congruence. destruct R; congruence. }
    destruct D as [(c & args & [(i & G & L0 & A) K Sa] & ->)|D]; [left|right; exact D].
    pose proof (cons_golist (tab ++ [l]) _ _ _ _ _ _ (type_go (tab ++ [l]) c)
      (cons_golist (tab ++ [l]) _ _ _ _ _ _ (simple_go (tab ++ [l]) (VTuple args) Sa)
      (cons_golist (tab ++ [l]) _ _ _ _ _ _ (simple_go (tab ++ [l]) VNone eq_refl)
      (cons_golist (tab ++ [l]) _ _ _ _ _ _ (simple_go (tab ++ [l]) VNone eq_refl)
      (cons_golist (tab ++ [l]) _ _ _ _ _ _ (simple_go (tab ++ [l]) VNone eq_refl)
      (cons_golist (tab ++ [l]) _ _ _ _ _ _ (simple_go (tab ++ [l]) VNone eq_refl) (nil_golist (tab ++ [l])))))))) as (N & Go).
    exists (S N). intros [|n] s L St; [lia|]. pose proof St as (Hh & D & Hob). pose proof (not_numbered _ _ _ St NI) as NN.
    destruct (Go n (PStep.numbered (VLoc l) (deeper s))) as (s1 & H1 & E1); [lia|apply starts_numbered; auto|cbn; lia|].
    rewrite <- Hh in G. exists (popped s1). split; [|eapply ends_numbered; eauto].
    pose proof (call_go n l i c args [JObj [(u "py/type", JStr (importable_name (w_cls w c)))]; simple_doc (VTuple args)] (PStep.numbered (VLoc l) (deeper s)) s1 G L0 A K H1 eq_refl) as B.
    pose proof (by_instance n l i s _ _ NN G B) as B1. cbv beta iota in B1.
    rewrite (lev n (VLoc l) s _ _ ltac:(split; [reflexivity|]; split; [discriminate|]; intros l0 b0 [= <-]; rewrite G; discriminate) B1). reflexivity.
  Qed.
  Lemma hole_go tab l j : ~ In l tab -> hole w k fs h l j -> goes tab (VLoc l) j (tab ++ [l]).
  Proof.
    intros NI Ho. destruct (call_case tab l j NI Ho) as [C|Nc]; [exact C|]. exists 1. intros [|n] s L St; [lia|]. pose proof St as (Hh & D & Hob).
    pose proof (not_numbered _ _ _ St NI) as NN. pose proof (starts_numbered tab l s St) as (S1 & S2 & S3).
    destruct Ho as [i e f j G R X F E|i hd G L0 Hd|i e G L0 A1 A2 A3 A4 A5 K T|c args Bc].
    4:{ destruct (Nc c args Bc). }
    - rewrite <- Hh in G.
      pose proof (raises_body w k o Ou Op n (flatten w k o n) l i e (PStep.numbered (VLoc l) (deeper s)) G R) as B.
      pose proof (by_instance n l i s _ _ NN G B) as B1. cbv beta iota in B1.
      rewrite (lev n (VLoc l) s _ _ ltac:(split; [reflexivity|]; split; [discriminate|]; intros l0 b0 [= <-]; rewrite G; discriminate) B1).
      rewrite F, X. unfold bind, lift. rewrite E. exists (popped (PStep.numbered (VLoc l) (deeper s))). split; [reflexivity|].
      apply popped_ends; auto.
    - rewrite <- Hh in G. destruct (warn_ends (VLoc l) (PStep.numbered (VLoc l) (deeper s))) as (s2 & W1 & W2 & W3 & W4).
      assert (B : flatten_obj_instance w k o n (flatten w k o n) l (PStep.numbered (VLoc l) (deeper s)) = (Ret JNull, s2)).
      { unfold flatten_obj_instance. rewrite (bind_eq _ _ _ _ _ (get_obj_eq l (OInst i) (PStep.numbered (VLoc l) (deeper s)) G)). cbv beta iota zeta.
        rewrite L0. unfold call_handler. rewrite Hd. cbn [run_fscript]. unfold bind at 1, ret at 1. cbv beta iota.
        rewrite (bind_eq _ _ _ _ _ W1). reflexivity. }
      pose proof (by_instance n l i s _ _ NN G B) as B1. cbv beta iota in B1.
      rewrite (lev n (VLoc l) s _ _ ltac:(split; [reflexivity|]; split; [discriminate|]; intros l0 b0 [= <-]; rewrite G; discriminate) B1).
      exists (popped s2). split; [reflexivity|]. apply popped_ends; [exact D|congruence|rewrite W3; reflexivity|congruence].
    - rewrite <- Hh in G. destruct (warn_ends (VLoc l) (PStep.numbered (VLoc l) (deeper s))) as (s2 & W1 & W2 & W3 & W4).
      assert (B : flatten_obj_instance w k o n (flatten w k o n) l (PStep.numbered (VLoc l) (deeper s)) = (Ret JNull, s2)).
      { rewrite (inst_start n (flatten w k o n) l i (PStep.numbered (VLoc l) (deeper s)) G L0 A1).
        unfold flatten_inst_rest. cbv zeta. rewrite A2, A3, A4, A5, Ou. cbn [andb negb]. sk (PStep.numbered (VLoc l) (deeper s)).
        match goal with |- bind ?m _ _ = _ => assert (R : m (PStep.numbered (VLoc l) (deeper s)) = (Ret None, PStep.numbered (VLoc l) (deeper s)))
          by (unfold catch, bind, lift; rewrite K, T; reflexivity) end.
        rewrite (bind_eq _ _ _ _ _ R). cbv beta iota. rewrite (bind_eq _ _ _ _ _ W1). reflexivity. }
      pose proof (by_instance n l i s _ _ NN G B) as B1. cbv beta iota in B1.
      rewrite (lev n (VLoc l) s _ _ ltac:(split; [reflexivity|]; split; [discriminate|]; intros l0 b0 [= <-]; rewrite G; discriminate) B1).
      exists (popped s2). split; [reflexivity|]. apply popped_ends; [exact D|congruence|rewrite W3; reflexivity|congruence].
  Qed.

  Lemma written_nodup h0 : (forall tab v j tab', SpecHoles.written w k fs h0 tab v j tab' -> NoDup tab -> NoDup tab') /\ (forall tab vs js tab', SpecHoles.writtens w k fs h0 tab vs js tab' -> NoDup tab -> NoDup tab') /\ (forall tab d ob tab', SpecHoles.fields_written w k fs h0 tab d ob tab' -> NoDup tab -> NoDup tab').
  Proof.
    assert (SN : forall tab (l : loc), ~ In l tab -> NoDup tab -> NoDup (tab ++ [l])).
    { intros tab l N ND. apply (Permutation.Permutation_NoDup (Permutation.Permutation_cons_append tab l)). constructor; auto. }
    apply written_mutind; auto.
  Qed.
  Lemma index_of_map tab l i : NoDup tab -> nth_error tab i = Some l -> index_of (VLoc l) (map VLoc tab) = Some i.
  Proof.
    revert i. induction tab as [|x tab IH]; intros [|i] ND E; cbn in E; try discriminate; inversion ND; subst; cbn [map index_of].
    - injection E as ->. destruct (val_eqb_spec (VLoc l) (VLoc l)); [reflexivity|congruence].
    - destruct (val_eqb_spec (VLoc l) (VLoc x)) as [[= ->]|NE]; [apply nth_error_In in E; contradiction|]. rewrite (IH i); auto.
  Qed.
  (** The same documents for a graph whose dicts have other keys that become the same strings. *)
  Variable hc : heap.
  Hypothesis Hc : keys_as w k (po_numeric o) h hc.
  Lemma as_obj l ob : hget hc l = Some ob -> exists ob0, hget h l = Some ob0 /\ obj_as w k (po_numeric o) h ob0 ob.
  Proof.
    unfold hget. pose proof Hc as X. unfold keys_as in X. revert X. generalize (obj_as w k (po_numeric o) h). clear. intros R X. revert l. induction X as [|x y h0 hc0 A F IH]; intros [|l] G; cbn in G |- *; try discriminate G; [injection G as <-; eauto|eauto].
  Qed.
  Lemma as_same l ob : hget hc l = Some ob -> (forall d, ob <> ODict d) -> hget h l = Some ob.
  Proof. intros G N. destruct (as_obj l ob G) as (ob0 & G0 & [E|(d & d' & E1 & E2 & _)]); [congruence|]. destruct (N d'); auto. Qed.
  Lemma entries_refl d : entries_as w k (po_numeric o) h d d.
  Proof. induction d as [|kv d IH]; [constructor|]. apply ea_cons; auto. split; [reflexivity|left; reflexivity]. Qed.
  Lemma as_dict_of l d : hget hc l = Some (ODict d) -> exists d0, hget h l = Some (ODict d0) /\ entries_as w k (po_numeric o) h d0 d.
  Proof.
    intros G. destruct (as_obj l _ G) as (ob0 & G0 & [E|(d1 & d' & E1 & [= <-] & F)]); [|subst; eauto]. exists d. split; [congruence|].
    apply entries_refl.
  Qed.
  Lemma as_hole l j : hole w k fs hc l j -> hole w k fs h l j.
  Proof.
    intros [i e f j0 G R X F E|i hd G L0 Hd|i e G L0 A1 A2 A3 A4 A5 K T|c args [(i & G & L0 & A) K Sa]]; apply as_same in G; try discriminate;
      [eapply ho_fails|eapply ho_none|eapply ho_unpicklable|apply ho_call]; eauto. split; eauto.
  Qed.
  Definition goes_as (tab : list loc) (d : list (val * val)) (ob : jobj) (tab' : list loc) : Prop :=
    forall d0, entries_as w k (po_numeric o) h d0 d -> goes_fields tab d0 ob tab'.
  Lemma goes_skip tab d ob tab' e : entry_kept w h e = false -> goes_fields tab d ob tab' -> goes_fields tab (e :: d) ob tab'.
  Proof.
    intros E (N & G). exists N. intros n s acc Ln St D Ac. destruct (G n s acc Ln St D Ac) as (s' & H & En). exists s'. split; auto.
    unfold flatten_items in *. rewrite Ok in *. rewrite items_nil in *. cbn [foldM]. rewrite (bind_eq _ _ s acc s); [exact H|].
    destruct e as [key v]. cbn [fst snd]. unfold flatten_key_value_pair. unfold bind at 1, gets. rewrite (proj1 St), is_picklable_kept, E. reflexivity.
  Qed.
  Lemma goes_skips tab d0 d ob tab' : entries_as w k (po_numeric o) h d0 d -> (forall d1, entries_as w k (po_numeric o) h d1 d -> match d1, d with [], [] => True | e1 :: r1, e :: r => entry_as k (po_numeric o) e1 e /\ entries_as w k (po_numeric o) h r1 r | _, _ => False end -> goes_fields tab d1 ob tab') -> goes_fields tab d0 ob tab'.
  Proof.
    intros Ea H. induction Ea as [|e e' d d' A Ea IH|e d d' A Ea IH].
    - apply H; [constructor|exact Logic.I].
    - apply H; [constructor; auto|auto].
    - apply goes_skip; auto.
  Qed.
  Lemma all_go_as : (forall tab v j tab', SpecHoles.written w k fs hc tab v j tab' -> NoDup tab -> goes tab v j tab') /\ (forall tab vs js tab', SpecHoles.writtens w k fs hc tab vs js tab' -> NoDup tab -> goes_list tab vs js tab') /\ (forall tab d ob tab', SpecHoles.fields_written w k fs hc tab d ob tab' -> NoDup tab -> goes_as tab d ob tab').
  Proof.
    assert (SN : forall tab (l : loc), ~ In l tab -> NoDup tab -> NoDup (tab ++ [l])).
    { intros tab l N ND. apply (Permutation.Permutation_NoDup (Permutation.Permutation_cons_append tab l)). constructor; auto. }
    assert (LV : forall l ob s, hget (p_heap s) l = Some ob -> (forall b, ob <> OByteArray b) -> layered s (VLoc l)).
    { intros l ob s G NB. split; [reflexivity|]. split; [discriminate|]. intros l0 b0 [= <-]. rewrite G. intros [= E]. eapply NB; eauto. }
    destruct (written_nodup hc) as (ND1 & ND2 & ND3).
    apply (written_mutind w k fs hc (fun tab v j tab' => NoDup tab -> goes tab v j tab')
      (fun tab vs js tab' => NoDup tab -> goes_list tab vs js tab') (fun tab d ob tab' => NoDup tab -> goes_as tab d ob tab')).
    - intros. apply prim_go. reflexivity.
    - intros. apply prim_go. reflexivity.
    - intros. apply prim_go. reflexivity.
    - intros. apply prim_go. reflexivity.
    - intros. apply prim_go. reflexivity.
    - intros. apply type_go.
    - intros tab vs js tab' W IH ND. apply tuple_go; auto.
    - (* set *) intros tab l vs js tab' G W IH ND. apply as_same in G; [|discriminate]. destruct (IH ND) as (N & Go). exists (S N). intros [|n] s L St; [lia|].
      pose proof St as (A & B & C). destruct (Go n (deeper s)) as (s1 & H1 & E1); [lia|apply starts_deeper; auto|cbn; lia|].
      rewrite <- A in G. exists (popped s1). split; [|apply ends_deeper; auto].
      rewrite (lev n (VLoc l) s s1 (Ret (Some (JObj [(SET_, JList js)])))); [reflexivity|eapply LV; eauto; discriminate|].
      unfold get_flattener. rewrite (bind_eq _ _ _ _ _ (get_obj_eq l _ (deeper s) G)). cbv beta iota.
      unfold list_recurse. rewrite bind_assoc, (bind_eq _ _ _ _ _ H1), Ou. reflexivity.
    - (* reference *) intros tab l i obc G N1c N2c N3c I ND. destruct (as_obj l obc G) as (ob & G0 & Oa). clear G. rename G0 into G.
      assert (N1 : forall x, ob <> OSet x) by (intros x ->; destruct Oa as [<-|(d1 & d2 & [=] & _)]; eapply N1c; eauto).
      assert (N2 : forall x, ob <> OByteArray x) by (intros x ->; destruct Oa as [<-|(d1 & d2 & [=] & _)]; eapply N2c; eauto).
      assert (N3 : forall x, ob <> OIter x) by (intros x ->; destruct Oa as [<-|(d1 & d2 & [=] & _)]; eapply N3c; eauto). clear Oa N1c N2c N3c. exists 1. intros [|n] s L St; [lia|]. pose proof St as (A & B & C). rewrite <- A in G.
      assert (In (VLoc l) (p_objs (deeper s))).
      { cbn. rewrite C. apply in_map. eapply nth_error_In; eauto. }
      assert (X : index_of (VLoc l) (p_objs (deeper s)) = Some i) by (cbn; rewrite C; apply index_of_map; auto).
      assert (MK : mkref o (VLoc l) (deeper s) = (Ret false, deeper s)).
      { unfold mkref, bind, log_ref. rewrite X, Ou, Om. reflexivity. }
      assert (GR : getref (VLoc l) (deeper s) = (Ret (JObj [(ID, JInt (Z.of_nat i))]), deeper s)).
      { unfold getref, bind, gets, ret. rewrite X. reflexivity. }
      exists (popped (deeper s)). split; [|apply popped_ends; auto].
      rewrite (lev n (VLoc l) s (deeper s) (Ret (Some (JObj [(ID, JInt (Z.of_nat i))])))); [reflexivity|eapply LV; eauto|].
      unfold get_flattener. rewrite (bind_eq _ _ _ _ _ (get_obj_eq l _ (deeper s) G)). cbv beta iota.
      destruct ob as [xs|xs|d|bs|i0|xs]; [|destruct (N1 xs); reflexivity| |destruct (N2 bs); reflexivity| |destruct (N3 xs); reflexivity].
      + rewrite (bind_eq _ _ _ _ _ MK). cbv beta iota. rewrite (bind_eq _ _ _ _ _ GR). reflexivity.
      + rewrite (bind_eq _ _ _ _ _ MK). cbv beta iota. rewrite (bind_eq _ _ _ _ _ GR). reflexivity.
      + unfold ref_obj_instance. rewrite Ou, bind_assoc, (bind_eq _ _ _ _ _ MK). cbv beta iota. rewrite (bind_eq _ _ _ _ _ GR). reflexivity.
    - (* list *) intros tab l vs js tab' NI G W IH ND. apply as_same in G; [|discriminate]. destruct (IH (SN _ _ NI ND)) as (N & Go). exists (S N). intros [|n] s L St; [lia|].
      pose proof St as (A & B & C). destruct (Go n (PStep.numbered (VLoc l) (deeper s))) as (s1 & H1 & E1); [lia|apply starts_numbered; auto|cbn; lia|].
      rewrite <- A in G. pose proof (not_numbered _ _ _ St NI) as NN. exists (popped s1). split; [|eapply ends_numbered; eauto].
      rewrite (lev n (VLoc l) s s1 (Ret (Some (JList js)))); [reflexivity|eapply LV; eauto; discriminate|].
      eapply get_flattener_list; eauto.
    - (* dict *) intros tab l dc ob tab' NI Gc W IH ND. destruct (as_dict_of l dc Gc) as (d & G & Fa). destruct (IH (SN _ _ NI ND) d Fa) as (N & Go). exists (S N). intros [|n] s L St; [lia|].
      pose proof St as (A & B & C). destruct (Go n (PStep.numbered (VLoc l) (deeper s)) []) as (s1 & H1 & E1); [lia|apply starts_numbered; auto|cbn; lia|auto|].
      rewrite <- A in G. pose proof (not_numbered _ _ _ St NI) as NN. exists (popped s1). split; [|eapply ends_numbered; eauto].
      rewrite (lev n (VLoc l) s s1 (Ret (Some (JObj ob)))); [reflexivity|eapply LV; eauto; discriminate|].
      eapply get_flattener_dict; eauto.
    - (* instance *) intros tab l i dl dc ob tab' NI G PC Gi Gdc W IH ND. apply as_same in G; [|discriminate]. destruct (as_dict_of dl dc Gdc) as (d & Gd & Fa). destruct (IH (SN _ _ NI ND) d Fa) as (N & Go). exists (S N). intros [|n] s L St; [lia|].
      pose proof St as (A & B & C).
      destruct (Go n (PStep.numbered (VLoc l) (deeper s)) [(OBJECT, JStr (importable_name (w_cls w (i_cls i))))]) as (s1 & H1 & E1); [lia|apply starts_numbered; auto|cbn; lia| |].
      { intros a I [<-|[]]. revert I. clear - W. change (u "py/object") with OBJECT. revert W. generalize (tab ++ [l]). clear tab. intros tab W.
        induction W as [|tab a v j tab1 d ob tab2 Wn _ _ _ _ _ IHW]; [auto|]. cbn [map fst]. intros [E|I]; [subst a; discriminate|auto]. }
      rewrite <- A in G, Gd. pose proof (not_numbered _ _ _ St NI) as NN. exists (popped s1). split; [|eapply ends_numbered; eauto].
      rewrite (lev n (VLoc l) s s1 (Ret (Some (JObj ((OBJECT, JStr (importable_name (w_cls w (i_cls i)))) :: ob))))); [reflexivity|eapply LV; eauto; discriminate|].
      exact (by_instance n l i s _ _ NN G (plain_inst_go n (flatten w k o n) l i dl d _ (PStep.numbered (VLoc l) (deeper s)) s1 PC G Gi Gd H1)).
    - (* hole *) intros tab l j NI Ho ND. apply hole_go; auto using as_hole.
    - intros. apply nil_golist.
    - intros tab v j tab1 vs js tab2 W1 IH1 W2 IH2 ND. eapply cons_golist; eauto.
    - intros tab ND d00 Fa0. apply (goes_skips tab d00 [] _ _ Fa0). intros [|e1 r1] _ []. exists 0. intros n s acc _ (A & B & C) D _. exists s. rewrite app_nil_r. unfold flatten_items. rewrite Ok. split; [reflexivity|]. split; auto.
    - intros tab a v j tab1 dc ob tab2 Wn Na Nf Ni W1 IH1 W2 IH2 ND d00 Fa0. apply (goes_skips tab d00 _ _ _ Fa0). clear Fa0. intros [|[key v0] d] _ X0; [destruct X0|]. destruct X0 as ((Ev & Ek) & Fd). cbn [fst snd] in Ev, Ek. subst v0.
      assert (Ka : coerces (po_numeric o) k key a) by (destruct Ek as [->|(a0 & [= <-] & Ka)]; [constructor|exact Ka]).
      destruct (IH1 ND) as (N1 & G1). destruct (IH2 (ND1 _ _ _ _ W1 ND) d Fd) as (N2 & G2).
      exists (Nat.max N1 N2). intros n s acc L St D Ac. destruct (G1 n s) as (s1 & H1 & E1); [lia|auto|].
      destruct (starts_ends _ _ _ _ St D E1) as (St1 & D1).
      assert (NK : ~ In a (map fst acc)) by (apply Ac; left; reflexivity).
      destruct (G2 n s1 (acc ++ [(a, j)])) as (s2 & H2 & E2); [lia|auto|auto| |].
      { intros b I. rewrite map_app, in_app_iff. intros [X|[X|[]]]; [exact (Ac b (or_intror I) X)|]. cbn in X. subst b. auto. }
      exists s2. split; [|eapply ends_trans; eauto]. unfold flatten_items in *. rewrite Ok in *. rewrite items_nil in *.
      rewrite <- app_assoc in H2. cbn [app] in H2. cbn [foldM fst snd].
      rewrite (bind_eq _ _ _ (acc ++ [(a, j)]) s1); [exact H2|]. unfold flatten_key_value_pair. unfold bind at 1, gets.
      assert (PF : is_module_function w v || negb (is_function w (p_heap s) v) = true).
      { apply orb_true_iff. right. unfold is_function. destruct v; auto; [destruct (Nf f); reflexivity|]. rewrite (proj1 St). destruct (hget h l) as [[]|] eqn:G; auto.
        destruct (hget hc l) as [obc|] eqn:Gc.
        - destruct (as_obj l obc Gc) as (ob0 & G0 & Oa). rewrite G in G0. injection G0 as <-. destruct Oa as [<-|(d1 & d2 & [=] & _)]. rewrite (Ni l i eq_refl Gc). reflexivity.
        - exfalso. apply nth_error_None in Gc. pose proof (nth_error_Some h l) as X. unfold hget in G. rewrite G in X. assert (Le : length h = length hc) by (pose proof Hc as X2; unfold keys_as in X2; revert X2; generalize (obj_as w k (po_numeric o) h); clear; intros R X2; induction X2 as [|x y p q A F IH]; cbn; [reflexivity|rewrite IH; reflexivity]). rewrite <- Le in Gc.
          assert (l < length h) by (apply X; discriminate). lia. }
      assert (PK : is_picklable w (p_heap s) key v = true).
      { unfold is_picklable. destruct key as [| | | |ks| | | | | | | | |]; auto. inversion Ka; subst; [|match goal with X : spelled_by_repr _ _ |- _ => destruct X end..].
        rewrite wire_reserved in Wn. rewrite Wn. exact PF. }
      rewrite PK. cbn [negb]. unfold readonly_skip. rewrite Or. rewrite (bind_eq _ _ s false s) by reflexivity. rewrite (bind_eq _ _ s a s) by (unfold lift; rewrite (proj2 (key_string_coerces k o key a) Ka); reflexivity).
      rewrite (bind_eq _ _ _ _ _ H1). rewrite sset_new by auto. reflexivity.
  Qed.
  Theorem encode_written_as v j tab : SpecHoles.written w k fs hc [] v j tab ->
    exists N, forall n s, N <= n -> p_heap s = h -> exists s', encode w k o n v s = (Ret (dumps j), s') /\ p_heap s' = h.
  Proof.
    intros W. destruct all_go_as as (G & _). destruct (G _ _ _ _ W ltac:(constructor)) as (N & Go). exists N. intros n s L E.
    destruct (Go n (p_reset_st s) L) as (s1 & H1 & E1 & _); [split; [auto|]; split; [cbn; lia|reflexivity]|].
    exists s1. split; auto. unfold encode, pickle, pflatten. rewrite Os.
    unfold bind, p_reset, modify, ret. rewrite H1. reflexivity.
  Qed.
End holes.

Lemma keys_as_refl w k nk h : keys_as w k nk h h.
Proof. unfold keys_as. generalize h at 1. intros h0. induction h as [|ob h IH]; constructor; auto. left. reflexivity. Qed.
Section same.
  Variables (w : world) (k : hooks) (o : popts) (h : heap).
  Hypothesis Ou : po_unpicklable o = true.
  Hypothesis Om : po_make_refs o = true.
  Hypothesis Od : po_max_depth o = None.
  Hypothesis Op : po_props o = false.
  Hypothesis Or : po_readonly o = false.
  Notation fs := (po_fail_safe o).
  Lemma all_go : po_keys o = false -> (forall tab v j tab', written w k fs h tab v j tab' -> NoDup tab -> goes w k o h tab v j tab') /\ (forall tab vs js tab', writtens w k fs h tab vs js tab' -> NoDup tab -> goes_list w k o h tab vs js tab') /\ (forall tab d ob tab', fields_written w k fs h tab d ob tab' -> NoDup tab -> goes_fields w k o h tab d ob tab').
  Proof.
    intros Ok. destruct (all_go_as w k o h Ou Om Od Op Or Ok h (keys_as_refl w k (po_numeric o) h)) as (A & B & C). split; [exact A|]. split; [exact B|].
    intros tab d ob tab' W N. apply (C tab d ob tab' W N). apply entries_refl.
  Qed.
  Theorem encode_written : po_sort o = false -> po_keys o = false -> forall v j tab, written w k fs h [] v j tab ->
    exists N, forall n s, N <= n -> p_heap s = h -> exists s', encode w k o n v s = (Ret (dumps j), s') /\ p_heap s' = h.
  Proof. intros Os Ok v j tab. apply encode_written_as; auto. apply keys_as_refl. Qed.
End same.
