(** A pickler that has finished a document is as new; a document read by a new unpickler without
    reset leaves nothing to be swapped. *)
From Verif Require Import PyStr Tags Json JsonText JsonTextProofs B64 B85 Base Heap Registry LoadClass Pickler Unpickler Session SpecGraph.
From Verif Require Import CodecProofs PlainProofs WP PGen PTerm PSame RTBase RTStep RTPure RTCont RTLate RTMain RTProps.
From Coq Require Import List ZArith Lia.
Import ListNotations.
Open Scope nat_scope.
Local Open Scope monad_scope.

Definition quiet (s : pst) : Prop := p_objs s = [] /\ p_depth s = (-1)%Z /\ p_cache s = [].
Lemma quiet_new h : quiet (new_pickler h).
Proof. repeat split. Qed.
Lemma quiet_heap h s : quiet s -> quiet (set_heap h s).
Proof. intros (A & B & C). repeat split; assumption. Qed.
Lemma quiet_same s : quiet s -> p_reset_st s = s.
Proof. intros (A & B & C). destruct s; cbn in *. subst. reflexivity. Qed.
(** in such a state the flag does not matter *)
Lemma quiet_flag w k o n r v s : quiet s -> encode_r w k o n r v s = encode_r w k o n true v s.
Proof.
  intros Q. destruct r; [reflexivity|]. unfold encode_r, pickle, pflatten.
  assert (E : forall A (f : MP A), (ret tt ;;; f) s = (p_reset ;;; f) s).
  { intros A f. unfold p_reset. rewrite (bind_eq _ _ s tt s) by reflexivity. rewrite (bind_eq _ _ s tt (p_reset_st s)) by reflexivity.
    rewrite quiet_same by exact Q. reflexivity. }
  unfold bind at 1. rewrite E. reflexivity.
Qed.

Section quiet.
  Variables (w : world) (k : hooks) (po : popts) (uo : uopts) (cl : list (pystr * val)) (h : heap).
  Hypothesis Ou : po_unpicklable po = true.
  Hypothesis Or : po_make_refs po = true.
  Hypothesis Od : po_max_depth po = None.
  Hypothesis Op : po_props po = false.
  Hypothesis Oro : po_readonly po = false.
  Hypothesis Os : po_sort po = false.
  Hypothesis Uk : uo_keys uo = po_keys po.
  Hypothesis Uv : uo_v1 uo = false.

  Lemma flatten_quiet n v s : p_heap s = h -> quiet s -> supported w k (po_keys po) cl h v ->
    wp (flatten w k po n v) s (fun _ s' => quiet s').
  Proof.
    intros HP Q SU. destruct n as [|n]; [exact I|].
    set (s0 := mkPst h [] 0%Z (p_cache s) (p_warned s)).
    set (t0 := mkUst [] [] [] [] [] cl []).
    assert (I0 : Inv cl h 0 s0 t0).
    { constructor; simpl; auto; try lia; try constructor.
      - discriminate.
      - destruct n0; discriminate. }
    rewrite (flatten_S w k po Ou Or). unfold flatten_impl. apply wp_bind, wp_gets.
    assert (REST : prim_json v = None -> (forall b, v <> VBytes b) -> (forall l b, v = VLoc l -> hget h l <> Some (OByteArray b)) ->
       wp (push ;;; j <- flatten_obj w k po n (flatten w k po n) v ;; pop j) s (fun _ s' => quiet s')).
    { intros P B A. apply wp_bind, wp_modify, wp_bind. apply (wp_flatten_obj w k po Or Od).
      assert (ES : set_depth (p_depth s + 1)%Z s = s0).
      { unfold s0. destruct Q as (Q1 & Q2 & Q3). destruct s; cbn in *. subst. reflexivity. }
      rewrite ES. eapply wp_mono; [apply (rt_flattener w k (po_keys po) cl h 0 po uo Ou Or Od Op Oro Os eq_refl Uk Uv n (2 * n + 1)
        (fun m0 L => rt_all w k (po_keys po) cl h 0 po uo Ou Or Od Op Oro Os eq_refl Uk Uv n m0 L) (le_n _) v s0 t0 SU I0); auto|].
      - intros i l H. destruct i; discriminate.
      - intros r s1 _ (j & -> & (_ & _ & v' & t' & _ & AD & _)). exists j. split; auto. unfold pop. apply wp_bind, wp_modify, wp_ret.
        pose proof (a_depth _ _ _ _ _ _ _ _ _ _ _ _ AD) as D. cbn [s0 p_depth] in D. cbn [set_depth p_depth]. rewrite D.
        change (0 - 1 =? -1)%Z with true. cbv iota. repeat split. }
    destruct v; cbn [prim_json]; try (apply wp_ret; exact Q); try (apply REST; [reflexivity|discriminate|discriminate]).
    rewrite HP. destruct (hget h l) as [[]|] eqn:G; try (apply REST; [reflexivity|discriminate|intros lx bx Ex; injection Ex as <-; congruence]).
    apply wp_ret. exact Q.
  Qed.
  Lemma encode_quiet n r v s text s' : p_heap s = h -> quiet s -> supported w k (po_keys po) cl h v ->
    encode_r w k po n r v s = (Ret text, s') -> quiet s'.
  Proof.
    intros HP Q SU E. rewrite (quiet_flag w k po n r v s Q) in E. unfold encode_r, pickle, pflatten in E. rewrite Os in E.
    unfold bind at 1 in E. rewrite (bind_eq _ _ s tt (p_reset_st s)) in E by reflexivity. rewrite (quiet_same s Q) in E.
    rewrite (bind_eq _ _ s tt s) in E by reflexivity.
    pose proof (flatten_quiet n v s HP Q SU) as X. unfold wp in X.
    destruct (flatten w k po n v s) as [[j|e|] s1]; try discriminate. inversion E; subst. exact X.
  Qed.
End quiet.

(** An unpickler without history, reading without reset. *)
Lemma decode_first w k po uo classes h dm N v : rt_case w k po uo classes h dm N v ->
  exists text n0 m0,
    (forall n s, n0 <= n -> p_heap s = h -> exists s', encode w k po n v s = (Ret text, s')) /\
    forall m t r, m0 <= m -> u_objs t = [] -> u_idx t = [] -> u_swaps t = [] -> u_classes t = [] ->
      exists v' t', decode_r w uo m r classes text t = (Ret v', t') /\
        fst (decode w uo m classes text t) = Ret v' /\ u_heap (snd (decode w uo m classes text t)) = u_heap t' /\
        is_copy w k (po_keys po) h (u_heap t') (length (u_heap t)) v v' /\ u_swaps t' = [].
Proof.
  intros ((Ou & Or & Od & Op & Oro & Os & Uk & Uv) & SU & FG & G).
  assert (D1 : 1 <= dm) by (destruct G as [_ Gv]; destruct v; cbn [PTerm.vdepth] in Gv; lia).
  set (n0 := S (budget h dm N)).
  pose proof (encode_ends w k po h dm N Oro Os (or_introl (conj Ou Or)) FG D1 n0 v (new_pickler h) eq_refl G (le_n _)) as E.
  set (cl := class_table w classes) in *.
  assert (INIT : forall t, Inv cl h (length (u_heap t)) (start h []) (mkUst (u_heap t) [] [] (u_prox t) [] cl (u_log t))).
  { intros t. constructor; simpl; auto; try lia; try constructor.
    - discriminate.
    - destruct n; discriminate. }
  assert (TOP : forall m t, 2 * n0 <= m -> wp (flatten w k po n0 v) (new_pickler h) (fun j s' => p_heap s' = h /\ exists s1,
      delivers w k (po_keys po) cl h (length (u_heap t)) po uo m v (start h []) (mkUst (u_heap t) [] [] (u_prox t) [] cl (u_log t)) j s1)).
  { intros m t L. eapply (rt_top w k (po_keys po) cl h); eauto. }
  assert (EQ : encode w k po n0 v (new_pickler h) = (j <- flatten w k po n0 v ;; ret (dumps j)) (new_pickler h)).
  { unfold encode, pickle, pflatten. rewrite Os. reflexivity. }
  destruct (flatten w k po n0 v (new_pickler h)) as [[j|e|] s'] eqn:EF.
  2: { specialize (TOP (2 * n0) (new_unpickler []) (le_n _)). unfold wp in TOP. rewrite EF in TOP. destruct TOP. }
  2: { rewrite EQ in E. unfold bind in E. rewrite EF in E. destruct E; reflexivity. }
  assert (EE : encode w k po n0 v (new_pickler h) = (Ret (dumps j), s')) by (rewrite EQ; unfold bind; rewrite EF; reflexivity).
  exists (dumps j), n0, (2 * n0). split.
  { intros n s L Hs. pose proof (encode_state w k po n0 n v (new_pickler h) s L (eq_sym Hs)) as X. rewrite EE in X.
    destruct X as (s2 & E2 & _). exists s2. exact E2. }
  intros m t r L U1 U2 U3 U4. specialize (TOP m t L). unfold wp in TOP. rewrite EF in TOP.
  destruct TOP as (_ & s2 & W & _ & v' & t' & R & A & M).
  set (t0 := mkUst (u_heap t) [] [] (u_prox t) [] cl (u_log t)) in *.
  assert (SW : u_swaps t' = []) by (rewrite (a_swaps _ _ _ _ _ _ _ _ _ _ _ _ A); reflexivity).
  assert (T' : us_swaps [] t' = t') by (destruct t'; cbn in *; subst; reflexivity).
  assert (UN : forall r, unpickle w uo m r classes j t = (Ret v', t')).
  { intros r0. unfold unpickle.
    assert (X : (if r0 then u_reset else ret tt) t = (Ret tt, mkUst (u_heap t) [] [] (u_prox t) [] [] (u_log t))).
    { destruct r0; [reflexivity|]. unfold ret. destruct t; cbn in *. subst. reflexivity. }
    rewrite (bind_eq _ _ t tt _ X).
    rewrite (bind_eq _ _ _ tt t0) by (unfold t0, cl, class_table; destruct classes; reflexivity).
    rewrite (bind_eq _ _ _ _ _ R). rewrite (bind_eq _ _ t' tt t'); [reflexivity|]. destruct r0; [|reflexivity].
    unfold swap_proxies. rewrite (bind_eq _ _ t' [] t') by (rewrite <- SW; reflexivity).
    transitivity (@Ret unit tt, us_swaps [] t'); [reflexivity|rewrite T'; reflexivity]. }
  exists v', t'. unfold decode_r, decode. rewrite loads_dumps by exact W. split; [apply UN|].
  rewrite (bind_eq _ _ _ _ _ (UN true)). split; [reflexivity|]. split; [reflexivity|]. split; [|exact SW].
  pose proof (a_inv _ _ _ _ _ _ _ _ _ _ _ _ A) as I. exists (rel s2 t'). split; [|split; [|split]].
  - intros l x y. eapply rel_fun; eauto.
  - intros x y l. eapply rel_inj; eauto.
  - intros l l' (i & RE & RD). destruct (a_new _ _ _ _ _ _ _ _ _ _ _ _ A i l) as (l2 & D2 & OM); [simpl; lia|exact RE|].
    rewrite RD in D2. injection D2 as <-. exact OM.
  - exact M.
Qed.
