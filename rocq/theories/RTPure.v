(** Round trip, part 3: immutable values, which also serve as dict keys with keys=True. *)
From Verif Require Import PyStr Tags Json JsonText JsonTextProofs B64 B85 Base Heap Registry LoadClass Pickler Unpickler SpecGraph.
From Verif Require Import CodecProofs PlainProofs WP RTBase RTStep.

(** ** JSON text is ASCII *)
Section ascii.
  Open Scope N_scope.
  Definition asc (c : N) : Prop := 32 <= c < 127.
  Lemma asc_forallb s : forallb (fun c => (32 <=? c) && (c <? 127)) s = true -> Forall asc s.
  Proof. rewrite forallb_forall, Forall_forall. intros H c Hc. apply H in Hc. unfold asc. lia. Qed.
  Lemma asc_digit c : is_digit c = true -> asc c.
  Proof. unfold is_digit, asc. lia. Qed.
  Lemma asc_digits s : Forall (fun c => is_digit c = true) s -> Forall asc s.
  Proof. apply Forall_impl. apply asc_digit. Qed.
  Lemma asc_Z z : Forall asc (string_of_Z z).
  Proof.
    unfold string_of_Z. destruct (Z.to_int z) as [d|d]; [|constructor; [unfold asc; lia|]]; apply asc_digits, uint_chars_digits.
  Qed.
  Lemma asc_span s d t : span_digits s = (d, t) -> Forall asc d.
  Proof. intros H. apply span_digits_spec in H as (_ & H & _). apply asc_digits; auto. Qed.
  Lemma asc_frac s d t : pfrac s = (d, t) -> Forall asc d.
  Proof.
    destruct s as [|c s]; simpl; intros H; [injection H as <- <-; constructor|].
    destruct (c =? 46) eqn:E; [|injection H as <- <-; constructor].
    destruct (span_digits s) as [d' t'] eqn:S. apply asc_span in S.
    destruct d'; injection H as <- <-; constructor; auto. apply N.eqb_eq in E. subst. unfold asc. lia.
  Qed.
  Lemma asc_exp s d t : pexp s = (d, t) -> Forall asc d.
  Proof.
    destruct s as [|c s]; simpl; intros H; [injection H as <- <-; constructor|].
    destruct ((c =? 101) || (c =? 69)) eqn:E; [|injection H as <- <-; constructor].
    destruct s as [|g s]; [injection H as <- <-; constructor|].
    destruct ((g =? 43) || (g =? 45)) eqn:G.
    - destruct (span_digits s) as [d' t'] eqn:S. apply asc_span in S.
      destruct d'; injection H as <- <-; constructor; [|constructor; auto]; unfold asc; lia.
    - destruct (span_digits (g :: s)) as [d' t'] eqn:S. apply asc_span in S.
      destruct d'; injection H as <- <-; constructor; auto. unfold asc; lia.
  Qed.
  Lemma asc_unsigned s d t : punsigned s = Some (d, t) -> Forall asc d.
  Proof.
    destruct s as [|c s]; unfold punsigned; intros H; [discriminate|].
    destruct (c =? 48) eqn:E; [injection H as <- <-; constructor; [unfold asc; lia|constructor]|].
    destruct (is_digit c); [|discriminate]. assert (H' : span_digits (c :: s) = (d, t)) by congruence.
    eapply asc_span; eauto.
  Qed.
  Lemma asc_float t : float_ok t = true -> Forall asc t.
  Proof.
    unfold float_ok. rewrite !orb_true_iff, !seqb_eq. intros [[[->| ->]| ->]|H].
    1-3: apply asc_forallb; reflexivity.
    destruct (pnum t) as [[j r]|] eqn:P; [|discriminate]. unfold pnum in P. destruct (psign t) as [neg s1].
    unfold pnum_body in P. destruct (punsigned s1) as [[ip s2]|] eqn:U; [|discriminate].
    destruct (pfrac s2) as [fp s3] eqn:F. destruct (pexp s3) as [ep s4] eqn:X.
    apply asc_unsigned in U. apply asc_frac in F. apply asc_exp in X.
    assert (FE : Forall asc (fp ++ ep)) by (apply Forall_app; auto).
    destruct (fp ++ ep) as [|c fe]; injection P as <- <-; [discriminate|]. destruct s4; [|discriminate].
    apply seqb_eq in H. rewrite H. apply Forall_app; split; [|apply Forall_app; auto].
    destruct neg; [constructor; [unfold asc; lia|constructor] | constructor].
  Qed.
  Lemma asc_hex n : n < 16 -> asc (hexdigit n).
  Proof. unfold hexdigit, asc. destruct (n <? 10) eqn:E; lia. Qed.
  Lemma asc_u n : Forall asc (esc_u n).
  Proof.
    unfold esc_u, hex4. repeat (constructor; [first [apply asc_hex, N.mod_lt; lia | unfold asc; lia]|]). constructor.
  Qed.
  Lemma asc_esc c : Forall asc (esc_char c).
  Proof.
    unfold esc_char. repeat match goal with |- context [if ?b then _ else _] => destruct b eqn:? end;
      try apply Forall_app; try split; try apply asc_u; repeat (constructor; [unfold asc; lia|]); constructor.
  Qed.
  Lemma asc_str s : Forall asc (dump_str s).
  Proof.
    unfold dump_str. constructor; [unfold asc; lia|]. apply Forall_app; split; [|constructor; [unfold asc; lia|constructor]].
    unfold dump_body. induction s; simpl; [constructor|]. apply Forall_app; split; auto. apply asc_esc.
  Qed.
  Lemma asc_inter l : Forall (Forall asc) l -> Forall asc (intersperse COMMA l).
  Proof.
    induction 1 as [|x l Hx Hl IH]; [constructor|]. destruct l as [|y l]; [exact Hx|].
    cbn [intersperse]. apply Forall_app; split; auto. apply Forall_app; split; auto.
    repeat (constructor; [unfold asc; lia|]). constructor.
  Qed.
  Lemma dumps_ascii j : jwf j = true -> Forall asc (dumps j).
  Proof.
    induction j as [|b|z|t|s|l IH|o IH] using json_ind'; intros W; cbn [dumps].
    - apply asc_forallb; reflexivity.
    - destruct b; apply asc_forallb; reflexivity.
    - apply asc_Z.
    - apply asc_float; auto.
    - apply asc_str.
    - constructor; [unfold asc; lia|]. apply Forall_app; split; [|constructor; [unfold asc; lia|constructor]].
      apply asc_inter. cbn [jwf] in W. rewrite forallb_forall in W. rewrite Forall_forall in *. intros x Hx.
      apply in_map_iff in Hx as (y & <- & Hy). apply IH; auto.
    - constructor; [unfold asc; lia|]. apply Forall_app; split; [|constructor; [unfold asc; lia|constructor]].
      apply asc_inter. cbn [jwf] in W. apply andb_true_iff in W as [_ W]. rewrite forallb_forall in W.
      rewrite Forall_forall in *. intros x Hx. apply in_map_iff in Hx as ([a y] & <- & Hy).
      apply Forall_app; split; [apply asc_str|]. constructor; [unfold asc; lia|]. constructor; [unfold asc; lia|].
      specialize (W _ Hy). apply andb_true_iff in W as [_ W]. apply (IH _ Hy); auto.
  Qed.
End ascii.

Open Scope nat_scope.
Local Open Scope monad_scope.

Lemma json_key_ok j : jwf j = true -> str_ok (JSON_KEY ++ dumps j) = true.
Proof.
  intros W. apply ascii_str_ok. apply Forall_app; split.
  - apply asc_forallb; reflexivity.
  - apply dumps_ascii; auto.
Qed.
Lemma json_key_prefix j : prefixb JSON_KEY (JSON_KEY ++ dumps j) = true.
Proof. apply prefixb_app. Qed.
Lemma json_key_skip j : skipn (length JSON_KEY) (JSON_KEY ++ dumps j) = dumps j.
Proof. rewrite skipn_app, skipn_all, Nat.sub_diag. reflexivity. Qed.
Lemma dumps_inj j1 j2 : jwf j1 = true -> jwf j2 = true -> dumps j1 = dumps j2 -> j1 = j2.
Proof. intros A B E. apply loads_dumps in A. apply loads_dumps in B. congruence. Qed.
Lemma json_key_not_reserved x : is_reserved (JSON_KEY ++ x) = false.
Proof. reflexivity. Qed.
Lemma reserved_not_json a : is_reserved a = true -> prefixb JSON_KEY a = false.
Proof.
  intros H. destruct (prefixb JSON_KEY a) eqn:E; auto. apply prefixb_inv in E as [r ->].
  rewrite json_key_not_reserved in H. discriminate.
Qed.

Lemma set_depth_id s d : set_depth (p_depth s) (set_depth d s) = s.
Proof. destruct s; reflexivity. Qed.

Section pure.
  Variables (w : world) (k : hooks) (keys : bool) (cl : list (pystr * val)) (h : heap) (po : popts) (uo : uopts).
  Notation cls := (w_cls w).
  Notation supported := (supported w k keys cl h).
  Hypothesis Ou : po_unpicklable po = true.
  Hypothesis Or : po_make_refs po = true.
  Hypothesis Od : po_max_depth po = None.

  Lemma flatten_S n v : flatten w k po (S n) v = flatten_impl w k po n (flatten w k po n) v.
  Proof. cbn [flatten]. unfold flatten_step. rewrite Ou, Or. reflexivity. Qed.

  (** Below the top level, a value that is not primitive goes through push and pop;
      [_flatten_obj] without depth limit, fail_safe and cycles is the flattener itself. *)
  Lemma wp_flatten_obj n rec v s (Q : json -> pst -> Prop) : 
    wp (get_flattener w k po n rec v) s (fun r s1 => exists j, r = Some j /\ Q j s1) ->
    wp (flatten_obj w k po n rec v) s Q.
  Proof.
    intros H. unfold flatten_obj. apply wp_bind. unfold max_reached. apply wp_bind, wp_gets, wp_ret. rewrite Od.
    apply wp_catch. apply wp_bind. unfold in_cycle. apply wp_bind, wp_get, wp_ret. rewrite Or. cbn [negb orb andb].
    apply wp_bind. eapply wp_mono; [exact H|]. intros r s1 _ (j & -> & HQ). apply wp_ret. exact HQ.
  Qed.
  Lemma wp_flatten_push n v s (Q : json -> pst -> Prop) : (0 <= p_depth s)%Z -> prim_json v = None ->
    (forall b, v <> VBytes b) -> (forall l b, v = VLoc l -> hget (p_heap s) l <> Some (OByteArray b)) ->
    wp (get_flattener w k po n (flatten w k po n) v) (set_depth (p_depth s + 1)%Z s)
       (fun r s1 => exists j, r = Some j /\ p_depth s1 = (p_depth s + 1)%Z /\ Q j (set_depth (p_depth s) s1)) ->
    wp (flatten w k po (S n) v) s Q.
  Proof.
    intros D P B A H. rewrite flatten_S.
    apply (wp_eq _ (push ;;; j <- flatten_obj w k po n (flatten w k po n) v ;; pop j)).
    { unfold flatten_impl, bind at 1, gets. rewrite P. destruct v; try reflexivity; try (exfalso; eapply B; reflexivity).
      destruct (hget (p_heap s) l) as [[]|] eqn:E; try reflexivity. exfalso. eapply A; eauto. }
    apply wp_bind, wp_modify, wp_bind. apply wp_flatten_obj. eapply wp_mono; [exact H|].
    intros r s1 _ (j & -> & Hd & HQ). exists j. split; auto. unfold pop. apply wp_bind, wp_modify, wp_ret.
    destruct s1; simpl in *. subst. replace (p_depth s + 1 - 1)%Z with (p_depth s) by lia.
    destruct (Z.eqb_spec (p_depth s) (-1)); [lia|]. exact HQ.
  Qed.

  Definition tdoc (tag : pystr) (j : json) : json := JObj [(tag, j)].
  Fixpoint pdoc (v : val) : json :=
    match v with
    | VBool b => JBool b
    | VInt z => JInt z
    | VFloat t => JFloat t
    | VStr s => JStr s
    | VBytes b => flatten_bytestring po b
    | VTuple l => tdoc TUPLE (JList (map pdoc l))
    | VType c => mktyperef w c
    | VFun f => tdoc FUNCTION (JStr (importable_fname (w_fun w f)))
    | _ => JNull
    end.
  Fixpoint vdepth (v : val) : nat :=
    match v with
    | VTuple l => list_max (map (fun x => S (vdepth x)) l)
    | _ => 0
    end.

  Lemma vdepth_cons x l : vdepth (VTuple (x :: l)) = Nat.max (S (vdepth x)) (vdepth (VTuple l)).
  Proof. reflexivity. Qed.

  Lemma supported_tuple l x : supported (VTuple l) -> In x l -> supported x.
  Proof. intros S H. eapply supported_sub; eauto. constructor; auto. Qed.

  Lemma flatten_pure n : forall v s, pure v = true -> supported v -> (0 <= p_depth s)%Z ->
    wp (flatten w k po n v) s (fun j s' => j = pdoc v /\ s' = s /\ vdepth v < n).
  Proof.
    induction n as [|n IH]; intros v s P S D; [exact I|].
    assert (PJ : forall j0, prim_json v = Some j0 -> j0 = pdoc v -> vdepth v = 0 ->
       wp (flatten w k po (Datatypes.S n) v) s (fun j s' => j = pdoc v /\ s' = s /\ vdepth v < Datatypes.S n)).
    { intros j0 E E2 E3. rewrite flatten_S. unfold wp, flatten_impl, bind, gets.
      destruct v; try discriminate; simpl in E; injection E as <-; simpl; repeat split; lia. }
    destruct v; try discriminate; try (eapply PJ; reflexivity); clear PJ.
    - rewrite flatten_S. unfold wp. rewrite flatten_impl_bytes. repeat split. simpl. lia.
    - apply wp_flatten_push; auto; try (intros; discriminate).
      cbn [get_flattener]. unfold list_recurse. apply wp_bind, wp_bind.
      assert (D1 : (0 <= p_depth (set_depth (p_depth s + 1)%Z s))%Z) by (simpl; lia).
      apply wp_mono with (Q := fun js s1 => js = map pdoc l /\ s1 = set_depth (p_depth s + 1)%Z s /\ vdepth (VTuple l) < Datatypes.S n).
      + revert D1. generalize (set_depth (p_depth s + 1)%Z s). intros s0 D0. simpl in P.
        assert (S' : forall x, In x l -> supported x) by (intros; eapply supported_tuple; eauto). clear S.
        induction l as [|x l IHl]; cbn [mapM].
        * apply wp_ret. repeat split; auto. simpl. lia.
        * simpl in P. apply andb_true_iff in P as [P1 P2]. apply wp_bind.
          eapply wp_mono; [apply IH; auto; apply S'; left; auto|]. intros jx s5 _ (-> & -> & L).
          apply wp_bind. eapply wp_mono; [apply IHl; auto; intros; apply S'; right; auto|].
          intros js s6 _ (-> & -> & L1). apply wp_ret. split; [reflexivity|]. split; [reflexivity|].
          rewrite vdepth_cons. lia.
      + intros js s1 _ (-> & -> & L). apply wp_ret, wp_ret. rewrite Ou. eexists. split; [reflexivity|].
        split; [reflexivity|]. split; [reflexivity|]. split; auto. apply set_depth_id.
    - apply wp_flatten_push; auto; try (intros; discriminate). apply wp_ret. eexists. split; [reflexivity|].
      split; [reflexivity|]. split; [reflexivity|]. split; [apply set_depth_id | simpl; lia].
    - apply wp_flatten_push; auto; try (intros; discriminate). cbn [get_flattener].
      destruct (supported_node _ _ _ _ _ _ S) as (M & _). simpl in M. rewrite M. apply wp_ret. eexists.
      split; [reflexivity|]. split; [reflexivity|].
      split; [unfold flatten_function; rewrite Ou; reflexivity|]. split; [apply set_depth_id | simpl; lia].
  Qed.

  Lemma pdoc_wf v : pure v = true -> supported v -> jwf (pdoc v) = true.
  Proof.
    induction v as [|x|x|x|x|x|l IH|x|x|x|x|x|x|x] using val_ind'; intros P S; try discriminate; auto;
      pose proof (supported_node _ _ _ _ _ _ S) as N; simpl in N; auto.
    - apply jwf_bytes.
    - cbn [pdoc tdoc jwf map fst nodupb forallb]. replace (str_ok TUPLE) with true by reflexivity. cbn [negb smem existsb andb].
      rewrite andb_true_r. apply forallb_forall. intros j Hj. apply in_map_iff in Hj as (v & <- & Hv).
      rewrite Forall_forall in IH. simpl in P. rewrite forallb_forall in P. apply IH; auto. eapply supported_tuple; eauto.
    - destruct N as [N _]. unfold pdoc, mktyperef. cbn [jwf map fst nodupb forallb]. rewrite N. reflexivity.
    - destruct N as (_ & N & _). unfold pdoc, tdoc. cbn [jwf map fst nodupb forallb]. rewrite N. reflexivity.
  Qed.

  Lemma loadclass_run (t : ust) name v : u_classes t = cl -> loadclass w cl (JStr name) = Ret v ->
    exists lg, u_loadclass w (JStr name) t = (Ret v, us_log lg t).
  Proof.
    intros C L. unfold u_loadclass, bind, gets, log, modify, lift, ret. rewrite C, L.
    destruct (from_classes cl name); destruct t; simpl; eexists; reflexivity.
  Qed.
  Lemma restore_type_doc m c t : u_classes t = cl ->
    loadclass w cl (JStr (importable_name (cls c))) = Ret (VType c) ->
    exists lg, restore w uo (S m) (mktyperef w c) t = (Ret (VType c), us_log lg t).
  Proof.
    intros C L. destruct (loadclass_run t _ _ C L) as [lg E]. exists lg.
    change (restore w uo (S m) (mktyperef w c) t) with (restore_type w [(TYPE_, JStr (importable_name (cls c)))] t).
    unfold restore_type. change (jfield TYPE_ [(TYPE_, JStr (importable_name (cls c)))]) with (JStr (importable_name (cls c))).
    rewrite (bind_eq _ _ _ _ _ E). reflexivity.
  Qed.
  Lemma restore_fun_doc m f t : u_classes t = cl ->
    loadclass w cl (JStr (importable_fname (w_fun w f))) = Ret (VFun f) ->
    exists lg, restore w uo (S m) (tdoc FUNCTION (JStr (importable_fname (w_fun w f)))) t = (Ret (VFun f), us_log lg t).
  Proof.
    intros C L. destruct (loadclass_run t _ _ C L) as [lg E]. exists lg. exact E.
  Qed.
  Lemma us_log_log a b t : us_log a (us_log b t) = us_log a t.
  Proof. reflexivity. Qed.
  Lemma us_log_id t : us_log (u_log t) t = t.
  Proof. destruct t; reflexivity. Qed.

  Lemma restore_pure v : forall m t, pure v = true -> supported v -> u_classes t = cl -> vdepth v < m ->
    exists lg, restore w uo m (pdoc v) t = (Ret v, us_log lg t).
  Proof.
    induction v as [|x|x|x|x|x|l IH|x|x|x|x|x|x|x] using val_ind'; intros m t P S C L; try discriminate;
      destruct m as [|m]; try lia;
      try (exists (u_log t); rewrite us_log_id; reflexivity).
    - exists (u_log t). rewrite us_log_id. apply restore_bytes_doc.
    - cbn [pdoc]. change (restore w uo (Datatypes.S m) (tdoc TUPLE (JList (map pdoc l))) t) with
        (restore_tuple (restore w uo m) [(TUPLE, JList (map pdoc l))] t).
      assert (G : exists lg, mapM (restore w uo m) (map pdoc l) t = (Ret l, us_log lg t)).
      { simpl in P. assert (S' : forall x, In x l -> supported x) by (intros; eapply supported_tuple; eauto).
        clear S. revert t C. induction l as [|x l IHl]; intros t C.
        - exists (u_log t). rewrite us_log_id. reflexivity.
        - simpl in P. apply andb_true_iff in P as [P1 P2]. inversion IH as [|? ? IH1 IH2]; subst.
          rewrite vdepth_cons in L. cbn [map mapM].
          destruct (IH1 m t) as [lg E]; auto; [apply S'; left; auto | lia |].
          rewrite (bind_eq _ _ _ _ _ E).
          destruct (IHl IH2 P2) with (t := us_log lg t) as [lg2 E2]; auto; [lia | intros; apply S'; right; auto|].
          rewrite (bind_eq _ _ _ _ _ E2). exists lg2. reflexivity. }
      destruct G as [lg G]. exists lg. unfold restore_tuple. apply catch_ret.
      change (jfield TUPLE [(TUPLE, JList (map pdoc l))]) with (JList (map pdoc l)).
      rewrite (bind_eq _ _ t (map pdoc l) t) by reflexivity. rewrite (bind_eq _ _ _ _ _ G). reflexivity.
    - destruct (supported_node _ _ _ _ _ _ S) as [_ N]. apply restore_type_doc; auto.
    - destruct (supported_node _ _ _ _ _ _ S) as (_ & _ & N). apply restore_fun_doc; auto.
  Qed.

  Lemma pdoc_inj v1 v2 t : u_classes t = cl -> pure v1 = true -> pure v2 = true -> supported v1 -> supported v2 ->
    pdoc v1 = pdoc v2 -> v1 = v2.
  Proof.
    intros C P1 P2 S1 S2 E.
    destruct (restore_pure v1 (S (vdepth v1 + vdepth v2)) t P1 S1 C) as [l1 E1]; [lia|].
    destruct (restore_pure v2 (S (vdepth v1 + vdepth v2)) t P2 S2 C) as [l2 E2]; [lia|].
    congruence.
  Qed.
  Lemma pure_hashable h' v : pure v = true -> hashable cls h' v = true.
  Proof.
    induction v as [|x|x|x|x|x|l IH|x|x|x|x|x|x|x] using val_ind'; intros P; try discriminate; auto.
    simpl in *. rewrite forallb_forall in *. rewrite Forall_forall in IH. auto.
  Qed.
  Lemma pure_vmatch h' b R v : pure v = true -> vmatch h h' b R v v.
  Proof.
    induction v as [|x|x|x|x|x|l IH|x|x|x|x|x|x|x] using val_ind'; intros P; try discriminate; try (constructor; reflexivity).
    apply vm_tuple. simpl in P. induction l as [|x l IHl]; constructor; simpl in P; apply andb_true_iff in P as [? ?]; inversion IH; auto.
  Qed.
End pure.
