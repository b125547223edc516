(** Round trip, part 12: every supported value comes back, by induction on the nesting depth. *)
From Verif Require Import PyStr Tags Json JsonText JsonTextProofs B64 B85 Base Heap Registry LoadClass Pickler Unpickler SpecGraph.
From Verif Require Import CodecProofs PlainProofs WP RTBase RTStep RTPure RTDesc SpecRefs RTWalk RTCont RTOrder RTKinds RTInst RTObj RTShapes RTLate.
Open Scope nat_scope.
Local Open Scope monad_scope.

Section main.
  Variables (w : world) (k : hooks) (keys : bool) (cl : list (pystr * val)) (h : heap) (bs : nat).
  Variables (po : popts) (uo : uopts).
  Hypothesis Ou : po_unpicklable po = true.
  Hypothesis Or : po_make_refs po = true.
  Hypothesis Od : po_max_depth po = None.
  Hypothesis Op : po_props po = false.
  Hypothesis Oro : po_readonly po = false.
  Hypothesis Os : po_sort po = false.
  Hypothesis Ok : po_keys po = keys.
  Hypothesis Uk : uo_keys uo = keys.
  Hypothesis Uv : uo_v1 uo = false.
  Notation cls := (w_cls w).
  Notation shape := (shape w k keys cl h).
  Notation supported := (supported w k keys cl h).
  Notation Inv := (Inv cl h bs).
  Notation front := (front w k keys cl h bs).
  Notation adv := (adv w k keys cl h bs).
  Notation delivers := (delivers w k keys cl h bs po uo).
  Notation PP := (PP w k keys cl h bs po uo).

  Section level.
    Variables (n m : nat).
    Hypothesis IH : forall m0, 2 * n <= m0 -> PP n m0.
    Hypothesis Hm : 2 * n + 1 <= m.
    Notation fl := (flatten w k po n).

    Definition by_flattener (v : val) (s : pst) (t : ust) : Prop :=
      wp (get_flattener w k po n fl v) s (fun r s1 => exists j, r = Some j /\ delivers (S m) v s t j s1).

    Lemma rt_instance l i all s t : hget h l = Some (OInst i) -> shape l all -> supported (VLoc l) -> Inv s t -> front s t (VLoc l) ->
      by_flattener (VLoc l) s t.
    Proof.
      intros H SH SU I F. assert (IHm : PP n m) by (apply IH; lia). assert (Hnm : n <= m) by lia. assert (Hm1 : 1 <= m) by lia.
      pose proof SH as SH0.
      inversion SH as [? ? C|? ? C|? ? C|? ? C
        |? i0 a cs args kw C c KP CO NR NS CT CD AT AO SL DF
        |? i0 sl cs args kw C c KP CO NR NS CT CD ID CS ND AO INS UN EX DF
        |? i0 cs args kw C c KP CO NR NS CT CE DO NK FK SL DD
        |? i0 a cs args kw C c KK CO NR NS CT CF CE AT SL DF
        |? i0 st cs args kw C c CO NR OS CT SS KT WS DF
        |? i0 sd a cs args kw C c KP CO NR OS CT SS CD HSD AO DF
        |? i0 xa sb b0 cs args kw C c KP CO NR OS CT SS PS DF
        |? i0 cs args kw C c KT CO NR NS CT NE CD ID IS DF EL
        |? i0 hd pre vs C LC HA
        |? i0 f args mkrec st li xs di d C RD]; try congruence;
        rewrite H in C; injection C as <-; subst all; try subst c; unfold by_flattener;
        try (assert (ORD : ordinary w k l i) by (split; [apply CO|exact NR])).
      - eapply (rt_inst w k keys cl h bs po uo Ou Or Op Ok Uk Uv n m IHm Hnm Hm1 l i cs args kw _ None false); eauto; try discriminate.
        + congruence. + intros; apply in_or_app; auto.
        + eapply contents_plain; eauto.
      - eapply (rt_inst w k keys cl h bs po uo Ou Or Op Ok Uk Uv n m IHm Hnm Hm1 l i cs args kw _ None false); eauto; try discriminate.
        + congruence. + intros; apply in_or_app; auto.
        + eapply contents_slots; eauto. rewrite present_snd. reflexivity.
      - eapply (rt_inst w k keys cl h bs po uo Ou Or Op Ok Uk Uv n m IHm Hnm Hm1 l i cs args kw _ (fac_class w i) false); eauto; try discriminate.
        + congruence. + rewrite fac_class_args. exact CO. + intros; apply in_or_app; auto.
        + intros f E. unfold fac_class in E. unfold factory_args. unfold factory_ok in FK.
          destruct (i_fac i) as [[]|] eqn:EF; try discriminate. destruct (c_deffac (cls (i_cls i))) eqn:DF; [|discriminate].
          injection E as <-. split; [|auto]. rewrite !in_app_iff. right; right; right; left; left; auto.
        + eapply contents_dictsub with (m' := m - 1); eauto; try lia. apply IH. lia.
      - eapply (rt_inst w k keys cl h bs po uo Ou Or Op Ok Uk Uv n m IHm Hnm Hm1 l i cs args kw _ None true); eauto; try discriminate.
        + destruct KK as [KK|[KK _]]; congruence. + intros; apply in_or_app; auto.
        + eapply contents_seq; eauto.
      - eapply (rt_inst w k keys cl h bs po uo Ou Or Op Ok Uk Uv n m IHm Hnm Hm1 l i cs args kw _ None false); eauto; try discriminate.
        + intros; apply in_or_app; auto.
        + eapply contents_state; eauto.
      - eapply (rt_inst w k keys cl h bs po uo Ou Or Op Ok Uk Uv n m IHm Hnm Hm1 l i cs args kw _ None false); eauto; try discriminate.
        + congruence. + intros; apply in_or_app; auto.
        + eapply contents_dstate; eauto.
      - eapply (rt_inst w k keys cl h bs po uo Ou Or Op Ok Uk Uv n m IHm Hnm Hm1 l i cs args kw _ None false); eauto; try discriminate.
        + congruence. + intros; apply in_or_app; auto.
        + eapply contents_pstate; eauto.
      - eapply rt_tupleobj; eauto.
      - eapply rt_handled; eauto.
      - eapply rt_reduce; eauto.
    Qed.

    Lemma rt_flattener v s t : supported v -> Inv s t -> front s t v -> prim_json v = None -> (forall b, v <> VBytes b) ->
      (forall l b, v = VLoc l -> hget h l <> Some (OByteArray b)) -> by_flattener v s t.
    Proof.
      intros SU I F PJ NB NA. assert (IHm : PP n m) by (apply IH; lia). assert (Hnm : n <= m) by lia.
      pose proof (supported_node _ _ _ _ _ _ SU) as NO.
      assert (PURE : pure v = true -> vdepth v < S m -> get_flattener w k po n fl v s = (Ret (Some (pdoc w po v)), s) -> by_flattener v s t).
      { intros P L E. unfold by_flattener, wp. rewrite E. eexists. split; [reflexivity|].
        split; [eapply pdoc_wf; eauto|]. split; [split; [apply de_pure; auto|intros _; apply walk_pure; auto]|].
        destruct (restore_pure w k keys cl h po uo v (S m) t) as [lg R]; auto; [apply I|].
        exists v, (us_log lg t). split; auto. split; [apply adv_log; auto|]. apply pure_vmatch; auto. }
      destruct v; try discriminate PJ; try (exfalso; eapply NB; reflexivity); try contradiction NO.
      - unfold by_flattener. eapply rt_tuple; eauto.
      - apply PURE; auto. simpl. lia.
      - apply PURE; auto; [simpl; lia|]. destruct NO as (M & _). cbn [get_flattener]. rewrite M. unfold flatten_function. rewrite Ou. reflexivity.
      - unfold by_flattener. eapply rt_module; eauto.
      - destruct NO as [[all SH] _]. inversion SH as [? ? C|? ? C|? ? C|? ? C|? ? ? ? ? ? C|? ? ? ? ? ? C|? ? ? ? ? C|? ? ? ? ? ? C|? ? ? ? ? ? C|? ? ? ? ? ? ? C|? ? ? ? ? ? ? ? C|? ? ? ? ? C|? ? ? ? ? C|? ? ? ? ? ? ? ? ? ? C];
          try (eapply rt_instance; eauto; fail).
        + unfold by_flattener. eapply rt_list; eauto.
        + unfold by_flattener. eapply rt_dict; eauto.
        + unfold by_flattener. eapply rt_setobj; eauto.
        + exfalso. eapply NA; eauto.
    Qed.

    Lemma rt_level : PP (S n) (S m).
    Proof.
      intros v s t SU I F.
      destruct (pure v) eqn:P; [apply (rt_pure w k keys cl h bs po uo Ou Or Od n m); auto; lia|].
      assert (NPA : prim_json v = None /\ forall b, v <> VBytes b) by (destruct v; try discriminate; split; auto; discriminate).
      destruct NPA as [NP NB].
      destruct (match v with VLoc l => match hget h l with Some (OByteArray _) => true | _ => false end | _ => false end) eqn:E.
      - destruct v; try discriminate. destruct (hget h l) as [[]|] eqn:G; try discriminate. eapply rt_bytearray; eauto.
      - assert (NA : forall l b, v = VLoc l -> hget h l <> Some (OByteArray b)) by (intros l b -> C; rewrite C in E; discriminate).
        eapply deliver_push; eauto. intros s0 I0 F0. apply rt_flattener; auto.
    Qed.
  End level.

  Theorem rt_all : forall n m, 2 * n <= m -> PP n m.
  Proof.
    induction n as [|n IHn]; intros m L; [intros v s t _ _ _; exact I|].
    destruct m as [|m]; [lia|]. apply rt_level; [exact IHn|lia].
  Qed.

  (** A whole encoding: the pickler starts at depth -1. *)
  Definition start (wn : list val) : pst := mkPst h [] 0%Z [] wn.
  Lemma front_start wn t v : front (start wn) t v.
  Proof. intros i l H. destruct i; discriminate. Qed.

  Theorem rt_top n m v s t : p_heap s = h -> p_objs s = [] -> p_depth s = (-1)%Z -> supported v -> 2 * n <= m -> Inv (start []) t ->
    wp (flatten w k po n v) s (fun j s' => p_heap s' = h /\ exists s1, delivers m v (start []) t j s1).
  Proof.
    intros HP HO HD SU L I. destruct n as [|n]; [exact Logic.I|]. destruct m as [|m]; [lia|].
    pose proof (rt_all n) as IH.
    set (s0 := mkPst h [] 0%Z (p_cache s) (p_warned s)).
    assert (CH : forall j s1, delivers (S m) v s0 t j s1 -> p_heap s1 = h /\ exists s2, delivers (S m) v (start []) t j s2).
    { intros j s1 (W & DS & v' & t' & R & A & M). split; [apply A|]. exists s1. split; auto. split; [exact DS|]. exists v', t'. split; auto. split; auto.
      destruct A as [A1 A2 A3 A4 A5 A6 A7 A8 A9]. constructor; auto. }
    assert (I0 : Inv s0 t) by (destruct I as [A1 A2 A3 A4 A5 A6 A7]; constructor; auto).
    assert (CASE : forall j, flatten w k po (S n) v s = (Ret j, s) -> flatten w k po (S n) v s0 = (Ret j, s0) ->
         wp (flatten w k po (S n) v) s0 (fun j s' => delivers (S m) v s0 t j s') ->
         wp (flatten w k po (S n) v) s (fun j s' => p_heap s' = h /\ exists s1, delivers (S m) v (start []) t j s1)).
    { intros j E E0 R. unfold wp in *. rewrite E0 in R. rewrite E. apply CH in R. split; [auto|apply R]. }
    assert (PURE : pure v = true -> wp (flatten w k po (S n) v) s0 (fun j s' => delivers (S m) v s0 t j s')).
    { intros P. apply (rt_pure w k keys cl h bs po uo Ou Or Od n m); auto. lia. }
    assert (REST : prim_json v = None -> (forall b, v <> VBytes b) -> (forall l b, v = VLoc l -> hget h l <> Some (OByteArray b)) ->
         wp (flatten w k po (S n) v) s (fun j s' => p_heap s' = h /\ exists s1, delivers (S m) v (start []) t j s1)).
    { intros P B A. rewrite (flatten_S w k po Ou Or).
      apply (wp_eq _ (push ;;; j <- flatten_obj w k po n (flatten w k po n) v ;; pop j)).
      { unfold flatten_impl, bind at 1, gets. rewrite P. destruct v; try reflexivity; try (exfalso; eapply B; reflexivity).
        rewrite HP. destruct (hget h l) as [[]|] eqn:E; try reflexivity. exfalso. eapply A; eauto. }
      apply wp_bind, wp_modify, wp_bind. apply (wp_flatten_obj w k po Or Od).
      assert (ES : set_depth (p_depth s + 1)%Z s = s0).
      { unfold s0. destruct s; cbn in *. subst. reflexivity. }
      rewrite ES. eapply wp_mono; [apply (rt_flattener n m IH ltac:(lia) v s0 t SU I0); auto|].
      - intros i l H. destruct i; discriminate.
      - intros r s1 _ (j & -> & D). exists j. split; auto. unfold pop. apply wp_bind, wp_modify, wp_ret.
        apply CH in D as (H1 & D). split; auto.
        destruct (Z.eqb (p_depth (set_depth (p_depth s1 - 1)%Z s1)) (-1)); exact H1. }
    destruct v; try (apply REST; [reflexivity|discriminate|discriminate]);
      try (eapply CASE; [rewrite (flatten_S w k po Ou Or); reflexivity|rewrite (flatten_S w k po Ou Or); reflexivity|apply PURE; reflexivity]).
    destruct (hget h l) as [[]|] eqn:G; try (apply REST; [reflexivity|discriminate|intros lx bx Ex; injection Ex as <-; congruence]).
    eapply CASE.
    - rewrite (flatten_S w k po Ou Or). eapply flatten_impl_bytearray. rewrite HP. exact G.
    - rewrite (flatten_S w k po Ou Or). eapply flatten_impl_bytearray. exact G.
    - eapply rt_bytearray; eauto.
  Qed.
End main.

(** ** Encode, then decode *)
Definition class_table (w : world) (c : option carg) : list (pystr * val) :=
  match c with Some c => register_classes w c [] | None => [] end.

Section api.
  Variables (w : world) (k : hooks) (po : popts) (uo : uopts) (classes : option carg) (h : heap).
  Hypothesis Ou : po_unpicklable po = true.
  Hypothesis Or : po_make_refs po = true.
  Hypothesis Od : po_max_depth po = None.
  Hypothesis Op : po_props po = false.
  Hypothesis Oro : po_readonly po = false.
  Hypothesis Os : po_sort po = false.
  Hypothesis Uk : uo_keys uo = po_keys po.
  Hypothesis Uv : uo_v1 uo = false.

  Theorem roundtrip n v s : p_heap s = h -> supported w k (po_keys po) (class_table w classes) h v ->
    match encode w k po n v s with
    | (Ret text, s') => p_heap s' = h /\
        forall m t, 2 * n <= m -> exists v' t', decode w uo m classes text t = (Ret v', t') /\
          is_copy w k (po_keys po) h (u_heap t') (length (u_heap t)) v v' /\
          (forall x, x < length (u_heap t) -> hget (u_heap t') x = hget (u_heap t) x)
    | (Exc _, _) => False
    | (OOF, _) => True
    end.
  Proof.
    intros HP SU. set (cl := class_table w classes) in *. set (keys := po_keys po) in *.
    set (s0 := p_reset_st s).
    assert (INIT : forall t, Inv cl h (length (u_heap t)) (start h []) (mkUst (u_heap t) [] [] (u_prox t) [] cl (u_log t))).
    { intros t. constructor; simpl; auto; try lia; try constructor.
      - discriminate.
      - destruct n0; discriminate. }
    assert (TOP : forall m t, 2 * n <= m -> wp (flatten w k po n v) s0 (fun j s' => p_heap s' = h /\ exists s1,
        delivers w k keys cl h (length (u_heap t)) po uo m v (start h []) (mkUst (u_heap t) [] [] (u_prox t) [] cl (u_log t)) j s1)).
    { intros m t L. eapply (rt_top w k keys cl h); eauto. }
    assert (E : encode w k po n v s = (j <- flatten w k po n v ;; ret (dumps j)) s0).
    { unfold encode, pickle, pflatten. rewrite Os. reflexivity. }
    rewrite E. clear E. unfold bind. pose proof (TOP (2 * n) (new_unpickler []) ltac:(lia)) as T0. unfold wp in T0.
    destruct (flatten w k po n v s0) as [[j|e|] s'] eqn:EF; [|contradiction|exact Logic.I].
    unfold ret. split; [apply T0|]. destruct T0 as (_ & s1 & W & _). intros m t L.
    specialize (TOP m t L). unfold wp in TOP. rewrite EF in TOP. destruct TOP as (_ & s2 & _ & _ & v' & t' & R & A & M).
    set (t0 := mkUst (u_heap t) [] [] (u_prox t) [] cl (u_log t)) in *.
    assert (SW : u_swaps t' = []) by (rewrite (a_swaps _ _ _ _ _ _ _ _ _ _ _ _ A); reflexivity).
    unfold decode. rewrite loads_dumps by exact W.
    assert (UN : unpickle w uo m true classes j t = (Ret v', us_swaps [] t')).
    { unfold unpickle. rewrite (bind_eq _ _ t tt (mkUst (u_heap t) [] [] (u_prox t) [] [] (u_log t))) by reflexivity.
      rewrite (bind_eq _ _ _ tt t0) by (unfold t0, cl, class_table; destruct classes; reflexivity).
      rewrite (bind_eq _ _ _ _ _ R). unfold swap_proxies. rewrite (bind_eq _ _ t' tt (us_swaps [] t')); [reflexivity|].
      rewrite (bind_eq _ _ t' [] t') by (rewrite <- SW; reflexivity). reflexivity. }
    eexists v', _. split; [rewrite (bind_eq _ _ _ _ _ UN); reflexivity|]. simpl. split; [|intros x Hx; apply (a_heap _ _ _ _ _ _ _ _ _ _ _ _ A); auto; intros []].
    pose proof (a_inv _ _ _ _ _ _ _ _ _ _ _ _ A) as I. exists (rel s2 t'). split; [|split; [|split]].
    - intros l x y. eapply rel_fun; eauto.
    - intros x y l. eapply rel_inj; eauto.
    - intros l l' (i & RE & RD). destruct (a_new _ _ _ _ _ _ _ _ _ _ _ _ A i l) as (l2 & D2 & OM); [simpl; lia|exact RE|].
      rewrite RD in D2. injection D2 as <-. exact OM.
    - exact M.
  Qed.

  (** Reading the document, references are to objects met before. *)
  Theorem references n v s : p_heap s = h -> supported w k (po_keys po) (class_table w classes) h v -> unhandled w h ->
    match encode w k po n v s with
    | (Ret text, _) => exists j tr, loads text = Some j /\ events (po_keys po) j tr /\ (forall z, occurs (po_keys po) z j -> In (Ref z) tr) /\ backward tr
    | (Exc _, _) => False
    | (OOF, _) => True
    end.
  Proof.
    intros HP SU NU. set (cl := class_table w classes) in *. set (keys := po_keys po) in *.
    set (s0 := p_reset_st s).
    assert (TOP : wp (flatten w k po n v) s0 (fun j s' => p_heap s' = h /\ exists s1,
        delivers w k keys cl h 0 po uo (2 * n) v (start h []) (mkUst [] [] [] [] [] cl []) j s1)).
    { eapply (rt_top w k keys cl h); eauto. constructor; simpl; auto; try lia; try constructor.
      - discriminate.
      - destruct n0; discriminate. }
    assert (E : encode w k po n v s = (j <- flatten w k po n v ;; ret (dumps j)) s0).
    { unfold encode, pickle, pflatten. rewrite Os. reflexivity. }
    rewrite E. clear E. unfold bind. unfold wp in TOP.
    destruct (flatten w k po n v s0) as [[j|e|] s'] eqn:EF; [|contradiction|exact Logic.I].
    destruct TOP as (_ & s1 & W & [_ WK] & _). unfold ret. destruct (WK NU) as (tr & EV & CO).
    exists j, tr. split; [apply loads_dumps; auto|]. split; auto. split; [intros z; apply (proj1 (occurs_all keys z)); auto|]. apply counts_backward in CO. tauto.
  Qed.
End api.
