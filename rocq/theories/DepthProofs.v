(** max_depth: how deep documents get, and that encoding ends. *)
From Verif Require Import PyStr Tags Json JsonText B64 B85 Base Heap Registry Pickler PGen SpecDepth.
Open Scope nat_scope.
Local Open Scope monad_scope.

Section depth.
  Variables (w : world) (k : hooks) (o : popts) (h0 : heap) (m B K N : nat).
  Hypothesis DB : depth_bounded w k o h0 m B K N.
  Notation cls := (w_cls w).
  Definition caught (e : exn) : bool :=
    is_AttributeError e || is_KeyError e || match po_fail_safe o with Some _ => is_Exception e | None => false end.
  Definition dk (d : Z) : Prop := (d < Z.of_nat m)%Z.
  Notation Ck := (mkEvp (fun _ => True) (fun _ => False) (fun _ => True) dk).
  Notation tw := (twp w False caught Ck True).
  Notation EvR := (EvR w False Ck).
  Notation At a := (fun (j : json) => jdepth j <= a).

  Lemma jd_list a js : Forall (At a) js -> jdepth (JList js) <= S a.
  Proof. intros H. cbn [jdepth]. apply le_n_S. induction H; cbn [map fold_right list_max]; [lia|]. fold (list_max (map jdepth l)) in *. lia. Qed.
  Lemma jd_obj a (ob : jobj) : Forall (fun kv => jdepth (snd kv) <= a) ob -> jdepth (JObj ob) <= S a.
  Proof. intros H. cbn [jdepth]. apply le_n_S. induction H; cbn [map fold_right list_max]; [lia|]. fold (list_max (map (fun kv : pystr * json => jdepth (snd kv)) l)) in *. lia. Qed.
  Lemma jd_prim v j : prim_json v = Some j -> jdepth j = 0.
  Proof. destruct v; cbn; intros H; inversion H; auto. Qed.
  Lemma script_adds_ok a sc : script_adds a (a + K) sc -> script_ok Ck (fun _ => True) (At a) (At (a + K)) sc.
  Proof. induction sc as [[j|]|e|r v kk IH]; simpl; auto. intros (-> & H). split; auto. Qed.

  (** at the bound only the representation is written *)
  Lemma no_enum h v : hev cls h0 h -> is_enum w h v = false.
  Proof.
    intros [[_ F] H]. unfold is_enum. destruct v; auto. destruct (hget h l) as [[]|] eqn:G; auto.
    destruct (hget h0 l) as [ob|] eqn:G0; [|apply nth_error_None in G0; destruct (F l _ G0 G) as (its & E); discriminate].
    destruct (H l ob G0) as [G1|(i1 & p & -> & _ & _ & G1)]; rewrite G in G1; inversion G1; subst.
    - eapply (db_enum _ _ _ _ _ _ _ _ DB); eauto.
    - apply (db_enum _ _ _ _ _ _ _ _ DB l i1 G0).
  Qed.
  Lemma d_bound n rec s v : hev cls h0 (p_heap s) -> p_depth s = Z.of_nat m -> prim_json v = None ->
    match flatten_obj w k o n rec v s with
    | (Ret j, s') => s' = s /\ jdepth j <= B
    | (Exc e, s') => s' = s /\ caught e = false
    | (OOF, _) => False
    end.
  Proof.
    intros Hv D P. unfold flatten_obj, max_reached. rewrite (db_max _ _ _ _ _ _ _ _ DB).
    unfold bind at 1, bind at 1, gets, ret at 1. rewrite D, Z.eqb_refl.
    unfold catch, in_cycle, bind at 1, bind at 1, get, ret at 1. rewrite P. cbn [orb andb].
    assert (En : is_enum w (p_heap s) v = false).
    { apply no_enum. auto. }
    rewrite En. cbn [negb]. unfold bind, lift.
    pose proof (db_repr _ _ _ _ _ _ _ _ DB v) as R. destruct (py_repr k v) as [x|e|] eqn:Ep.
    - split; auto. simpl. lia.
    - unfold repr_contained in R. unfold caught. destruct (is_Exception e) eqn:X.
      + destruct (po_fail_safe o) as [f|] eqn:F.
        * destruct (R eq_refl) as (j & Ej). rewrite Ej. split; auto. eapply (db_fail _ _ _ _ _ _ _ _ DB); eauto.
        * split; auto. rewrite R. reflexivity.
      + split; auto. destruct e; try discriminate; destruct (po_fail_safe o); auto.
    - auto.
  Qed.

  Lemma impl_prim n rec s v : (prim_json v = None -> (forall b, v <> VBytes b) ->
      tw (push;;; j <- flatten_obj w k o n rec v;; pop j) s (fun j _ => jdepth j <= B)) ->
    tw (flatten_impl w k o n rec v) s (fun j _ => jdepth j <= B).
  Proof.
    intros L. pose proof (db_B _ _ _ _ _ _ _ _ DB) as B2. unfold flatten_impl.
    eapply tw_bind with (Q1 := fun x s1 => x = p_heap s /\ s1 = s); [apply tw_gets; auto|]. intros x s1 _ [-> ->].
    assert (X : forall b, jdepth (flatten_bytestring o b) = 1) by (intros b; unfold flatten_bytestring; destruct (po_b85 o); reflexivity).
    destruct v; cbn [prim_json] in *; try (apply tw_ret; simpl; lia); try (apply L; [auto|discriminate]).
    - apply tw_ret. rewrite X. lia.
    - destruct (hget (p_heap s) l) as [[]|]; try (apply L; [auto|discriminate]). apply tw_ret. cbn [jdepth map list_max fold_right snd].
      rewrite X. lia.
  Qed.
  Lemma step_on n v : flatten w k o (S n) v = flatten_impl w k o n (flatten w k o n) v.
  Proof. cbn [flatten]. unfold flatten_step. rewrite (db_unpicklable _ _ _ _ _ _ _ _ DB), (db_refs _ _ _ _ _ _ _ _ DB). reflexivity. Qed.
  Lemma L0 n s v : hev cls h0 (p_heap s) -> p_depth s = (Z.of_nat m - 1)%Z -> (0 <= p_depth s)%Z ->
    tw (flatten w k o (S n) v) s (fun j _ => jdepth j <= B).
  Proof.
    intros Hv D D0. rewrite step_on. apply impl_prim. intros P _. unfold twp, push, bind, modify.
    pose proof (d_bound n (flatten w k o n) (set_depth (p_depth s + 1)%Z s) v Hv ltac:(cbn [set_depth p_depth]; lia) P) as X.
    destruct (flatten_obj w k o n (flatten w k o n) v (set_depth (p_depth s + 1)%Z s)) as [[j|e|] s1]; [| |destruct X].
    - destruct X as [-> J]. unfold pop, bind, modify, ret. cbn [set_depth p_depth].
      replace (p_depth s + 1 - 1 =? -1)%Z with false by (symmetry; apply Z.eqb_neq; lia).
      replace (p_depth s + 1 - 1)%Z with (p_depth s) by lia.
      replace (set_depth (p_depth s) (set_depth (p_depth s + 1)%Z s)) with s by (destruct s; reflexivity).
      split; [apply EvR_refl|exact J].
    - destruct X as [-> C]. split; [split|exact Logic.I]; [|congruence].
      split; [apply hev_refl|]. split; [exists []; cbn; rewrite app_nil_r; auto|]. split; [cbn; lia|auto].
  Qed.

  (** one level further up *)
  Lemma d_obj n a s v : B <= a -> N < n ->
    hev cls h0 (p_heap s) -> RecOK w False caught Ck True h0 (fun _ _ => True) (At a) (flatten w k o n) s -> prim_json v = None ->
    tw (flatten_obj w k o n (flatten w k o n) v) s (fun j _ => jdepth j <= a + K).
  Proof.
    intros Ba Nn Hv RO Hp. destruct DB as [Hm Hu Hr Hro Hso Hen Hre Hfa Hfr Hsc HB HK Hrt Hend].
    assert (Ct : forall e, is_AttributeError e || is_KeyError e = true -> caught e = true).
    { intros e H. unfold caught. rewrite H. reflexivity. }
    assert (Cf : forall f e, po_fail_safe o = Some f -> is_Exception e = true -> caught e = true).
    { intros f e F X. unfold caught. rewrite F, X. apply orb_true_r. }
    assert (Any : forall xs : list val, Forall (fun _ => True) xs) by (intros; apply Forall_forall; auto).
    assert (Le1 : forall (n : pystr) j, jdepth j <= a -> jdepth j <= S a) by (intros; lia).
    assert (Sc : forall h ctx l n, script_ok Ck (fun _ => True) (At a) (At (a + K))
       (w_hflat w h ctx l (if po_unpicklable o then [(OBJECT, JStr n)] else []))).
    { intros. apply script_adds_ok. apply Hsc; auto. destruct (po_unpicklable o); simpl; lia. }
    assert (OB : forall ob : jobj, Forall (fun kv => jdepth (snd kv) <= S a) ob -> jdepth (JObj ob) <= a + K).
    { intros ob H. apply jd_obj in H. lia. }
    assert (LI : forall js, Forall (At a) js -> jdepth (JList js) <= S a) by apply jd_list.
    assert (O1 : forall ob : jobj, Forall (fun kv => jdepth (snd kv) <= a) ob -> jdepth (JObj ob) <= S a) by apply jd_obj.
    assert (PJ : forall v j, jdepth j <= a \/ prim_json v = Some j -> jdepth j <= a).
    { intros v1 j [H|H]; auto. rewrite (jd_prim _ _ H). lia. }
    assert (IE : True -> iter_ends k o n).
    { intros _. destruct Hend as [H|(q & E & L)]; [left; exists N; auto|right; exists q; split; auto; lia]. }
    apply (g_flatten_obj w k o False caught Ck True h0) with
      (V := fun _ _ => True) (Vq := fun _ => True) (Vc := fun _ => True) (D := At a) (D' := At (a + K))
      (E1 := fun _ j => jdepth j <= a) (E := fun _ j => jdepth j <= S a);
      auto; try (intros; simpl; lia); try exact (hooks_raise_any w k o); try (intros; eauto; fail).
    - intros f e j F E. specialize (Hfa f e j F E). lia.
    - intros Cy.
      apply (g_get_flattener w k o False caught Ck True h0) with
        (V := fun _ _ => True) (Vq := fun _ => True) (Vc := fun _ => True) (D := At a) (D' := At (a + K))
        (E1 := fun _ j => jdepth j <= a) (E := fun _ j => jdepth j <= S a);
        auto; try (intros; simpl; lia); try exact (hooks_raise_any w k o); try (intros; eauto; fail).
      + intros js H. specialize (LI js H). lia.
      + intros f. unfold flatten_function. destruct (po_unpicklable o); simpl; lia.
      + intros l [].
  Qed.
  Lemma bound_step q : B + K * q + K = B + K * S q.
  Proof. lia. Qed.
  Lemma d_level q : forall n s v, hev cls h0 (p_heap s) -> q + N < n -> (0 <= p_depth s < Z.of_nat m)%Z -> (Z.of_nat m - 1 - p_depth s <= Z.of_nat q)%Z ->
    tw (flatten w k o n v) s (fun j _ => jdepth j <= B + K * q).
  Proof.
    induction q as [|q IH]; intros n s v Hv Hn D Q; (destruct n as [|n]; [lia|]).
    - eapply tw_mono; [apply L0; auto; lia|]. intros j s1 _ H. cbv beta in *. lia.
    - destruct (Z.eq_dec (p_depth s) (Z.of_nat m - 1)) as [E|E].
      + eapply tw_mono; [apply L0; auto; lia|]. intros j s1 _ H. cbv beta in *. lia.
      + rewrite step_on. unfold flatten_impl. pose proof (db_B _ _ _ _ _ _ _ _ DB) as B2.
        assert (L : prim_json v = None ->
          tw (push;;; j <- flatten_obj w k o n (flatten w k o n) v;; pop j) s (fun j _ => jdepth j <= B + K * S q)).
        { intros P. apply tw_level with (Q := At (B + K * S q)); [lia| |intros []| |]; cbn [ev_dk]; unfold dk; [|lia|lia].
          rewrite <- bound_step. apply d_obj; [lia|lia|auto| |exact P]. split; [auto|].
          intros v1 s1 ((He & _ & D1 & _) & (_ & D2)) _. cbn [set_depth p_depth ev_dk] in *. unfold dk in D2. apply IH; try lia. eapply hev_trans; [exact Hv|exact He]. }
        eapply tw_bind with (Q1 := fun x s1 => x = p_heap s /\ s1 = s); [apply tw_gets; auto|]. intros x s1 _ [-> ->].
        assert (X : forall b, jdepth (flatten_bytestring o b) = 1) by (intros b; unfold flatten_bytestring; destruct (po_b85 o); reflexivity).
        destruct v; cbn [prim_json] in *; try (apply tw_ret; simpl; lia); try (apply L; auto; fail).
        * apply tw_ret. rewrite X. lia.
        * destruct (hget (p_heap s) l) as [[]|]; try (apply L; auto; fail). apply tw_ret. cbn [jdepth map list_max fold_right snd].
          rewrite X. lia.
  Qed.

  (** the whole call *)
  Theorem pickle_depth n v s : p_heap s = h0 -> m + N < n ->
    match pickle w k o n true v s with
    | (Ret j, _) => jdepth j <= B + K * m
    | (Exc _, _) => True
    | (OOF, _) => False
    end.
  Proof.
    intros Hh Hn. destruct n as [|n]; [lia|]. pose proof (db_B _ _ _ _ _ _ _ _ DB) as B2.
    unfold pickle, pflatten. unfold bind at 1. unfold p_reset, modify.
    cbv beta iota. rewrite (db_sort _ _ _ _ _ _ _ _ DB). unfold bind at 1, ret at 1. cbv beta iota.
    set (s0 := p_reset_st s). assert (Hv : hev cls h0 (p_heap s0)) by (change (p_heap s0) with (p_heap s); rewrite Hh; apply hev_refl).
    pose (goal := fun x : res json * pst => match x with
      | (Ret j, _) => jdepth j <= B + K * m
      | (Exc _, _) => True
      | (OOF, _) => False
      end).
    change (goal (flatten w k o (S n) v s0)). rewrite step_on.
    assert (L : prim_json v = None -> goal ((push;;; j <- flatten_obj w k o n (flatten w k o n) v;; pop j) s0)).
    { intros P. unfold push, bind, modify. cbv beta iota. change (p_depth s0 + 1)%Z with 0%Z.
      assert (X : goal (flatten_obj w k o n (flatten w k o n) v (set_depth 0%Z s0))).
      { assert (Em : m = 0 \/ exists q, m = S q) by (destruct m as [|q]; [auto|right; exists q; auto]). destruct Em as [Em|(m' & Em)].
        - pose proof (d_bound n (flatten w k o n) (set_depth 0%Z s0) v Hv ltac:(rewrite Em; reflexivity) P) as X. unfold goal.
          destruct (flatten_obj w k o n (flatten w k o n) v (set_depth 0%Z s0)) as [[j|e|] s1]; [|auto|apply X]. destruct X. lia.
        - assert (X : tw (flatten_obj w k o n (flatten w k o n) v) (set_depth 0%Z s0) (fun j _ => jdepth j <= B + K * m' + K)).
          { apply d_obj; [lia|lia|auto| |exact P]. split; [auto|]. 
            intros v1 s1 ((He & _ & D1 & _) & (_ & D2)) _. cbn [set_depth p_depth ev_dk] in *. unfold dk in D2. rewrite Em in D2. apply d_level; rewrite ?Em; try lia. eapply hev_trans; [exact Hv|exact He]. }
          rewrite bound_step, <- Em in X. unfold goal. unfold twp in X.
          destruct (flatten_obj w k o n (flatten w k o n) v (set_depth 0%Z s0)) as [[j|e|] s1]; [|auto|apply X; auto].
          destruct X as [_ X]. exact X. }
      fold (set_depth 0%Z s0). destruct (flatten_obj w k o n (flatten w k o n) v (set_depth 0%Z s0)) as [[j|e|] s1]; auto.
    }
    unfold flatten_impl, bind, gets. cbv beta iota.
    assert (X : forall b, jdepth (flatten_bytestring o b) = 1) by (intros b; unfold flatten_bytestring; destruct (po_b85 o); reflexivity).
    destruct v; cbn [prim_json] in *; try (apply L; auto; fail); unfold ret, goal; try (cbn [jdepth]; lia).
    - rewrite X. lia.
    - destruct (hget (p_heap s0) l) as [[]|]; try (apply L; auto; fail). cbn [jdepth map list_max fold_right snd]. rewrite X. lia.
  Qed.
End depth.
