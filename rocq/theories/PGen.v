(** Invariants of every run of the pickler.

    [twp m s Q]: run in state s, m changes the pickler's state only in the ways allowed by
    [EvR]/[EvE], a returned value satisfies Q, and (if [halts]) m does not run out of fuel.
    This file derives twp for [flatten_obj_instance] and the dict and list flatteners from
    twp of the recursive call, for predicates on documents closed under the encoder's
    constructions.  Used with several instances: termination, no modification of the input,
    the shape of documents, balanced depth. *)
From Verif Require Import PyStr Tags Json JsonText B64 B85 Base Heap Registry Pickler.
Open Scope nat_scope.
Local Open Scope monad_scope.

(** The heap only grows and only iterators move forward. *)
Definition hev (cls : nat -> cinfo) (h h' : heap) : Prop :=
  (length h <= length h' /\ forall l ob, length h <= l -> hget h' l = Some ob -> exists its, ob = ODict its) /\
  forall l ob, hget h l = Some ob ->
    hget h' l = Some ob \/
    exists i p, ob = OInst i /\ c_kind (cls (i_cls i)) = KIter /\ i_pos i <= p /\ hget h' l = Some (OInst (set_pos i p)).
Lemma hev_refl cls h : hev cls h h.
Proof. split; auto. split; auto. intros l ob L G. apply hget_lt in G. unfold loc in *. lia. Qed.
Lemma set_pos_pos i p q : set_pos (set_pos i p) q = set_pos i q.
Proof. reflexivity. Qed.
Lemma hev_trans cls a b c : hev cls a b -> hev cls b c -> hev cls a c.
Proof.
  intros [[L1 F1] H1] [[L2 F2] H2]. split; [split; [lia|]|].
  { intros l ob L G. destruct (le_lt_dec (length b) l) as [X|X]; [eauto|].
    destruct (hget b l) as [ob1|] eqn:G1; [|apply nth_error_None in G1; unfold loc in *; lia].
    destruct (F1 l ob1 L G1) as (its & ->). destruct (H2 l _ G1) as [G2|(i & p & E & _)]; [|discriminate].
    exists its. congruence. }
  intros l ob G.
  destruct (H1 l ob G) as [G1|(i & p & -> & K1 & P1 & G1)].
  - destruct (H2 l ob G1) as [G2|(i & p & -> & K2 & P2 & G2)]; eauto 10.
  - destruct (H2 l _ G1) as [G2|(i2 & p2 & E & K2 & P2 & G2)]; [right; eauto 10|].
    inversion E; subst i2. right. exists i, p2. cbn [set_pos i_pos] in P2. rewrite set_pos_pos in G2.
    repeat split; auto. lia.
Qed.
Lemma hev_alloc cls h its : hev cls h (h ++ [ODict its]).
Proof.
  split; [split; [rewrite app_length; lia|]|].
  { intros l ob L G. exists its. pose proof (hget_lt _ _ _ G) as G1. rewrite app_length in G1. cbn [length] in G1.
    assert (l = length h) by (unfold loc in *; lia). subst l. rewrite hget_app_new in G. congruence. } intros l x G. left. rewrite hget_app_old; auto. eapply hget_lt; eauto.
Qed.
Lemma hev_pos cls h l i : hget h l = Some (OInst i) -> c_kind (cls (i_cls i)) = KIter ->
  hev cls h (hset h l (OInst (set_pos i (S (i_pos i))))).
Proof.
  intros G K. split; [split; [rewrite hset_length; lia|]|]; [intros x ob L Gx; apply hget_lt in Gx; rewrite hset_length in Gx; unfold loc in *; lia|]. intros x ob Gx. destruct (Nat.eq_dec l x) as [<-|N].
  - right. rewrite G in Gx. inversion Gx; subst ob. exists i, (S (i_pos i)). repeat split; auto.
    apply hget_hset_same. eapply hget_lt; eauto.
  - left. rewrite hget_hset_other; auto.
Qed.
Lemma hev_get cls h h' l ob : hev cls h h' -> hget h l = Some ob -> (forall i, ob <> OInst i) -> hget h' l = Some ob.
Proof. intros [_ H] G N. destruct (H l ob G) as [|(i & p & -> & _)]; auto. destruct (N i); auto. Qed.
Lemma hev_inst cls h h' l i : hev cls h h' -> hget h l = Some (OInst i) ->
  exists p, i_pos i <= p /\ hget h' l = Some (OInst (set_pos i p)).
Proof.
  intros [_ H] G. destruct (H l _ G) as [E|(j & p & E & _ & P & E')].
  - exists (i_pos i). split; auto. destruct i; exact E.
  - inversion E; subst j. eauto.
Qed.

(** Values stored in an object. *)
Definition obj_vals (ob : obj) : list val :=
  match ob with
  | OList xs | OSet xs => xs
  | ODict d => map fst d ++ map snd d
  | OByteArray _ => []
  | OInst i => match i_dict i with Some d => [VLoc d] | None => [] end ++ map snd (i_slots i)
               ++ map fst (i_items i) ++ map snd (i_items i) ++ i_elems i
               ++ match i_fac i with Some f => [f] | None => [] end
  | OIter l => [VLoc l]
  end.
Lemma obj_vals_pos i p : obj_vals (OInst (set_pos i p)) = obj_vals (OInst i).
Proof. reflexivity. Qed.
Lemma in_fst_map {A B} (x : A * B) l : In x l -> In (fst x) (map fst l).
Proof. apply in_map. Qed.
Lemma in_snd_map {A B} (x : A * B) l : In x l -> In (snd x) (map snd l).
Proof. apply in_map. Qed.
Lemma dget_In k d v : dget k d = Some v -> In v (map snd d).
Proof.
  induction d as [|[k' v'] d IH]; simpl; [discriminate|]. destruct (key_eqb k k'); intros E; [inversion E|]; auto.
Qed.

(** What holds of cached documents, which objects stay as they are, which exceptions may
    come out, which depths are not left. *)
Record evp := mkEvp { ev_ck : val * json -> Prop; ev_lk : loc -> Prop; ev_xk : exn -> Prop; ev_dk : Z -> Prop }.
Definition plain (P : val * json -> Prop) : evp := mkEvp P (fun _ => False) (fun _ => True) (fun _ => True).

Section ev.
  Variables (w : world) (bal : Prop) (caught : exn -> bool) (Ck : evp).
  (** What a run may do to the state. *)
  Definition EvW (s s' : pst) : Prop :=
    hev (w_cls w) (p_heap s) (p_heap s') /\ (exists x, p_objs s' = p_objs s ++ x) /\
    (p_depth s <= p_depth s')%Z /\ (Forall (ev_ck Ck) (p_cache s) -> Forall (ev_ck Ck) (p_cache s')) /\
    (forall l ob, ev_lk Ck l -> hget (p_heap s) l = Some ob -> hget (p_heap s') l = Some ob).
  Definition depth_kept (s s' : pst) : Prop :=
    (bal -> p_depth s' = p_depth s) /\ (ev_dk Ck (p_depth s) -> ev_dk Ck (p_depth s')).
  Definition EvR (s s' : pst) : Prop := EvW s s' /\ depth_kept s s'.
  Definition EvE (e : exn) (s s' : pst) : Prop :=
    (EvW s s' /\ (caught e = true -> depth_kept s s')) /\ ev_xk Ck e.
  Lemma depth_same s s' : p_depth s' = p_depth s -> depth_kept s s'.
  Proof. intros E. split; rewrite E; auto. Qed.
  Lemma depth_kept_trans a b c : depth_kept a b -> depth_kept b c -> depth_kept a c.
  Proof. intros [B1 D1] [B2 D2]. split; [intros B; rewrite B2, B1; auto|auto]. Qed.
  Lemma EvW_refl s : EvW s s.
  Proof. split; [apply hev_refl|]. split; [exists []; rewrite app_nil_r; auto|]. split; [lia|auto]. Qed.
  Lemma EvR_refl s : EvR s s.
  Proof. split; [apply EvW_refl|apply depth_same; auto]. Qed.
  Lemma EvE_refl e s : ev_xk Ck e -> EvE e s s.
  Proof. split; [split; [apply EvW_refl|intros; apply depth_same; auto]|auto]. Qed.
  Lemma EvW_trans a b c : EvW a b -> EvW b c -> EvW a c.
  Proof.
    intros (H1 & (x & O1) & D1 & C1 & L1) (H2 & (y & O2) & D2 & C2 & L2). split; [eapply hev_trans; eauto|].
    split; [exists (x ++ y); rewrite O2, O1, app_assoc; auto|]. split; [lia|auto].
  Qed.
  Lemma EvR_trans a b c : EvR a b -> EvR b c -> EvR a c.
  Proof. intros [W1 B1] [W2 B2]. split; [eapply EvW_trans; eauto|eapply depth_kept_trans; eauto]. Qed.
  Lemma EvRE_trans e a b c : EvR a b -> EvE e b c -> EvE e a c.
  Proof. intros [W1 B1] [[W2 B2] X]. split; auto. split; [eapply EvW_trans; eauto|]. intros Ce. eapply depth_kept_trans; eauto. Qed.
  Lemma EvE_R e a b : EvE e a b -> caught e = true -> EvR a b.
  Proof. intros [[W B] _] Ce. split; auto. Qed.
  Lemma EvR_hev a b : EvR a b -> hev (w_cls w) (p_heap a) (p_heap b).
  Proof. intros [(H & _) _]. auto. Qed.

  Variable halts : Prop.
  Definition twp {A} (m : MP A) (s : pst) (Q : A -> pst -> Prop) : Prop :=
    match m s with
    | (Ret a, s') => EvR s s' /\ Q a s'
    | (Exc e, s') => EvE e s s'
    | (OOF, _) => ~ halts
    end.
  Lemma tw_ret {A} (a : A) s (Q : A -> pst -> Prop) : Q a s -> twp (ret a) s Q.
  Proof. intros H. split; [apply EvR_refl|auto]. Qed.
  Lemma tw_raise {A} e s (Q : A -> pst -> Prop) : ev_xk Ck e -> twp (raise e) s Q.
  Proof. apply EvE_refl. Qed.
  Lemma tw_lift {A} (r : res A) s (Q : A -> pst -> Prop) : (halts -> r <> OOF) -> (forall e, r = Exc e -> ev_xk Ck e) ->
    (forall a, r = Ret a -> Q a s) -> twp (lift r) s Q.
  Proof.
    intros N X H. unfold twp, lift. destruct r; [split; [apply EvR_refl|auto]|apply EvE_refl; auto|]. intros h. apply (N h); auto.
  Qed.
  Lemma tw_bind {A B} (m : MP A) (f : A -> MP B) s Q1 (Q : B -> pst -> Prop) :
    twp m s Q1 -> (forall a s1, EvR s s1 -> Q1 a s1 -> twp (f a) s1 Q) -> twp (bind m f) s Q.
  Proof.
    unfold twp, bind. intros H1 H2. destruct (m s) as [[a|e|] s1]; auto. destruct H1 as [R1 q1].
    specialize (H2 a s1 R1 q1). destruct (f a s1) as [[b|e|] s2]; auto.
    - destruct H2 as [R2 q2]. split; auto. eapply EvR_trans; eauto.
    - eapply EvRE_trans; eauto.
  Qed.
  Lemma tw_shift {A} (m : MP A) s s1 (Q : A -> pst -> Prop) : EvR s s1 -> twp m s1 Q ->
    match m s1 with
    | (Ret a, s') => EvR s s' /\ Q a s'
    | (Exc e, s') => EvE e s s'
    | (OOF, _) => ~ halts
    end.
  Proof.
    unfold twp. intros R X. destruct (m s1) as [[a|e|] s2]; auto.
    - destruct X. split; auto. eapply EvR_trans; eauto.
    - eapply EvRE_trans; eauto.
  Qed.
  Lemma tw_gets {A} (f : pst -> A) s (Q : A -> pst -> Prop) : Q (f s) s -> twp (gets f) s Q.
  Proof. intros H. split; [apply EvR_refl|auto]. Qed.
  Lemma tw_get s (Q : pst -> pst -> Prop) : Q s s -> twp get s Q.
  Proof. intros H. split; [apply EvR_refl|auto]. Qed.
  Lemma tw_modify (f : pst -> pst) s (Q : unit -> pst -> Prop) : EvR s (f s) -> Q tt (f s) -> twp (modify f) s Q.
  Proof. intros R H. split; auto. Qed.
  Lemma tw_catch {A} (m : MP A) p h s (Q : A -> pst -> Prop) :
    (forall e, p e = true -> caught e = true) -> twp m s Q ->
    (forall e s1, EvR s s1 -> p e = true -> twp (h e) s1 Q) -> twp (catch m p h) s Q.
  Proof.
    unfold twp, catch. intros C H1 H2. destruct (m s) as [[a|e|] s1]; auto.
    destruct (p e) eqn:Pe; auto. pose proof (EvE_R e s s1 H1 (C e Pe)) as R. specialize (H2 e s1 R Pe).
    destruct (h e s1) as [[b|e2|] s2]; auto.
    - destruct H2. split; auto. eapply EvR_trans; eauto.
    - eapply EvRE_trans; eauto.
  Qed.
  (** exceptions of a hook that leaves the state alone *)
  Lemma tw_catch_lift {A B} (r : res A) (f : A -> B) p h s (Q : B -> pst -> Prop) : (halts -> r <> OOF) ->
    (forall e, r = Exc e -> p e = true \/ ev_xk Ck e) -> (forall a, r = Ret a -> Q (f a) s) -> (forall e, twp (h e) s Q) ->
    twp (catch (x <- lift r ;; ret (f x)) p h) s Q.
  Proof.
    intros N X H1 H2. unfold twp, catch, bind, lift, ret. destruct r as [a|e|].
    - split; [apply EvR_refl|auto].
    - destruct (p e) eqn:Pe; [apply H2|apply EvE_refl]. destruct (X e eq_refl); congruence || auto.
    - intros h0. apply (N h0); auto.
  Qed.
  (** a first step that leaves the state alone and may raise what is caught *)
  Lemma tw_catch_bind {A B} (m : MP A) (f : A -> MP B) p h s r (Q : B -> pst -> Prop) :
    (forall e, p e = true -> caught e = true) -> m s = (r, s) -> (halts -> r <> OOF) ->
    (forall e, r = Exc e -> p e = true \/ ev_xk Ck e) -> (forall a, r = Ret a -> twp (f a) s Q) ->
    (forall e s1, EvR s s1 -> p e = true -> twp (h e) s1 Q) ->
    twp (catch (bind m f) p h) s Q.
  Proof.
    intros C E N X H1 H2. destruct r as [a|e|].
    - apply tw_catch; auto. unfold twp. rewrite (bind_eq _ _ _ _ _ E). apply (H1 a). auto.
    - unfold twp, catch, bind. rewrite E. destruct (p e) eqn:Pe; [apply H2; auto; apply EvR_refl|].
      apply EvE_refl. destruct (X e eq_refl); congruence || auto.
    - unfold twp, catch, bind. rewrite E. intros h0. apply (N h0). auto.
  Qed.
  Lemma tw_mono {A} (m : MP A) s (Q Q' : A -> pst -> Prop) :
    twp m s Q -> (forall a s1, EvR s s1 -> Q a s1 -> Q' a s1) -> twp m s Q'.
  Proof. unfold twp. destruct (m s) as [[a|e|] s1]; auto. intros [R q] H. auto. Qed.
  Lemma tw_mapM {A B} (f : A -> MP B) (D : B -> Prop) l : forall s,
    (forall x s1, In x l -> EvR s s1 -> twp (f x) s1 (fun j _ => D j)) ->
    twp (mapM f l) s (fun js _ => Forall D js).
  Proof.
    induction l as [|x l IH]; intros s H; cbn [mapM]; [apply tw_ret; auto|].
    eapply tw_bind; [apply H; [left; auto|apply EvR_refl]|]. intros j s1 R1 Dj. cbv beta in Dj.
    eapply tw_bind; [apply IH|].
    - intros y s2 Iy R2. apply H; [right; auto|eapply EvR_trans; eauto].
    - intros js s2 R2 Djs. apply tw_ret. constructor; auto.
  Qed.
  Lemma tw_foldM {A B} (f : B -> A -> MP B) (I : B -> Prop) l : forall b s, I b ->
    (forall b x s1, In x l -> EvR s s1 -> I b -> twp (f b x) s1 (fun b' _ => I b')) ->
    twp (foldM f l b) s (fun b' _ => I b').
  Proof.
    induction l as [|x l IH]; intros b s Ib H; cbn [foldM]; [apply tw_ret; auto|].
    eapply tw_bind; [apply H; [left; auto|apply EvR_refl|auto]|]. intros b' s1 R1 Ib'. apply IH; auto.
    intros b2 y s2 Iy R2 Ib2. apply H; [right; auto|eapply EvR_trans; eauto|auto].
  Qed.
  Lemma log_ref_ev v s : exists b s', log_ref v s = (Ret b, s') /\ EvR s s' /\ In v (p_objs s') /\
    p_heap s' = p_heap s /\ (b = true <-> ~ In v (p_objs s)).
  Proof.
    unfold log_ref. assert (X : match index_of v (p_objs s) with Some _ => In v (p_objs s) | None => ~ In v (p_objs s) end).
    { induction (p_objs s) as [|x r IH]; [simpl; auto|]. cbn [index_of].
      destruct (val_eqb_spec v x) as [->|N]; [left; auto|].
      destruct (index_of v r); simpl in *; [right; auto|]. intros [E|E]; [congruence|auto]. }
    destruct (index_of v (p_objs s)) as [n|].
    - exists false, s. split; auto. split; [apply EvR_refl|]. split; auto. split; auto. split; [discriminate|tauto].
    - exists true, (set_objs (p_objs s ++ [v]) s). split; auto. split; [|split].
      + split; [|apply depth_same; auto]. split; [apply hev_refl|]. split; [exists [v]; auto|]. split; [simpl; lia|auto].
      + simpl. apply in_or_app. right. left. auto.
      + split; auto. split; auto.
  Qed.
  (** [push; m; pop] at a depth that is not the outermost *)
  Lemma tw_level {A} (m : MP A) s (Q : A -> Prop) : (0 <= p_depth s)%Z ->
    twp m (set_depth (p_depth s + 1)%Z s) (fun a _ => Q a) ->
    (bal -> forall e s1, m (set_depth (p_depth s + 1)%Z s) = (Exc e, s1) -> ev_xk Ck e -> caught e = false) ->
    (ev_dk Ck (p_depth s) -> ev_dk Ck (p_depth s + 1)%Z) -> (forall d, ev_dk Ck d -> ev_dk Ck (d - 1)%Z) ->
    twp (push ;;; j <- m ;; pop j) s (fun a _ => Q a).
  Proof.
    intros D0 H N Up Dn. unfold twp, push, bind, modify, pop. unfold twp in H.
    destruct (m (set_depth (p_depth s + 1)%Z s)) as [[a|e|] s1] eqn:X; [| |exact H].
    - destruct H as [[(He & Ob & De & Ca) [B Dk]] q]. cbn [set_depth p_depth p_heap p_objs p_cache] in *.
      assert (X2 : (p_depth s1 - 1 =? -1)%Z = false) by (apply Z.eqb_neq; lia).
      unfold bind, modify, ret. cbv beta iota. rewrite X2. split; [|exact q]. split.
      + unfold EvW. cbn [set_depth p_depth p_heap p_objs p_cache]. split; [auto|]. split; [auto|]. split; [lia|auto].
      + split; [intros b; rewrite (B b); cbn; lia|]. intros H0. cbn [set_depth p_depth]. auto.
    - destruct H as [[(He & Ob & De & Ca) B] Xe]. cbn [set_depth p_depth p_heap p_objs p_cache] in *. split; [split|].
        + unfold EvW. split; [auto|]. split; [auto|]. split; [lia|auto].
        + intros Ce. split; [intros b; rewrite (N b e s1 eq_refl Xe) in Ce; discriminate|]. intros H0. apply (B Ce). auto.
      + exact Xe.
  Qed.
End ev.
Arguments twp w bal caught Ck halts {A} m s Q.

(** Case distinction on an option that leaves the other hypotheses alone. *)
Ltac bcase b H := destruct (Bool.bool_dec b true) as [H|H]; [|apply Bool.not_true_is_false in H]; rewrite ?H.

Section gen.
  Variables (w : world) (k : hooks) (o : popts).
  Notation cls := (w_cls w).
  Variables (bal : Prop) (caught : exn -> bool) (Ck : evp) (halts : Prop) (h0 : heap).
  Notation Xk := (ev_xk Ck).
  (* exceptions that are caught and forgotten *)
  Hypothesis Hct : forall e, is_AttributeError e || is_KeyError e = true -> caught e = true.
  Notation EvR := (EvR w bal Ck).
  Notation EvE := (EvE w bal caught Ck).
  Notation tw := (twp w bal caught Ck halts).
  Hypothesis Or : po_readonly o = false.
  Hypothesis Os : po_sort o = false.

  (** Values the encoder may meet: [V h] in heap h, [Vq] as answers of user code. *)
  Variable V : heap -> val -> Prop.
  Variable Vq : val -> Prop.
  Hypothesis V_heap : forall h l ob x, hev cls h0 h -> V h (VLoc l) -> hget h l = Some ob -> In x (obj_vals ob) -> V h x.
  Hypothesis V_fresh : forall h l its0 its, hev cls h0 h -> V h (VLoc l) -> hget h l = Some (ODict its0) -> incl its its0 ->
    V (h ++ [ODict its]) (VLoc (length h)).
  Hypothesis V_mono : forall h h' v, hev cls h0 h -> hev cls h h' -> V h v -> V h' v.
  Variable Vc : nat -> Prop.
  Hypothesis V_cls : forall h l i, hev cls h0 h -> V h (VLoc l) -> hget h l = Some (OInst i) -> Vc (i_cls i).
  Hypothesis V_str : forall h s, V h (VStr s).
  Hypothesis V_none : forall h, V h VNone.
  Hypothesis Vq_V : forall h v, hev cls h0 h -> Vq v -> V h v.
  Hypothesis K_newargs_ex : forall l x, k_newargs_ex k l = Ret x -> Forall Vq x.
  Hypothesis K_newargs : forall l x, k_newargs k l = Ret x -> Vq x.
  Hypothesis K_initargs : forall l x, k_initargs k l = Ret x -> Vq x.
  Hypothesis K_getstate : forall l x, k_getstate k l = Ret x -> Vq x.
  Hypothesis K_reduce : forall l x, k_reduce k l = Ret (RTup x) -> Forall Vq x.
  Hypothesis K_iter : forall l p x, k_iter k l p = Ret (Some x) -> Vq x.
  Hypothesis K_attr : forall l a x, k_attr k l a = Ret x -> Vq x.
  Hypothesis K_call0 : forall f x, k_call0 k f = Ret x -> Vq x.
  Hypothesis W_getattr : po_unpicklable o = true -> forall m a x, w_getattr w m a = Ret x -> Vq x.
  (** User code returns. *)
  Definition hooks_return : Prop :=
    (forall l, k_newargs_ex k l <> OOF) /\ (forall l, k_newargs k l <> OOF) /\ (forall l, k_initargs k l <> OOF) /\
    (forall l, k_getstate k l <> OOF) /\ (forall l, k_reduce k l <> OOF) /\ (forall l p, k_iter k l p <> OOF) /\
    (forall l a, k_attr k l a <> OOF) /\ (forall f, k_call0 k f <> OOF) /\ (forall v, k_repr k v <> OOF) /\
    (forall v, k_str k v <> OOF) /\ (forall m a, w_getattr w m a <> OOF).
  Hypothesis Hret : halts -> hooks_return.
  (** Exceptions of user code. *)
  Definition hooks_raise (X : exn -> Prop) : Prop :=
    (forall l e, k_newargs_ex k l = Exc e -> X e) /\ (forall l e, k_newargs k l = Exc e -> X e) /\
    (forall l e, k_initargs k l = Exc e -> X e) /\ (forall l e, k_getstate k l = Exc e -> is_TypeError e = true \/ X e) /\
    (forall l e, k_reduce k l = Exc e -> is_TypeError e = true \/ X e) /\ (forall l p e, k_iter k l p = Exc e -> X e) /\
    (forall l a e, k_attr k l a = Exc e -> X e \/ (is_AttributeError e = true /\ po_props o = false)) /\
    (forall f e, k_call0 k f = Exc e -> X e) /\ (forall v e, k_repr k v = Exc e -> X e) /\
    (forall v e, k_str k v = Exc e -> X e) /\ (forall m a e, w_getattr w m a = Exc e -> is_KeyError e = true \/ X e).
  Hypothesis Hxk : hooks_raise Xk.
  Hypothesis Xu : Xk EUnmodelled.

  (** Documents: D for results of the recursive call, E1 for the entries of inner objects,
      E for the entries of an instance's document, D' for results. *)
  Variables (D D' : json -> Prop) (E1 E : pystr -> json -> Prop).
  Hypothesis E1_key : forall n j, is_reserved n = false -> D j -> E1 n j.
  Hypothesis E1_repr : forall v n j, po_keys o = false -> (forall s, v <> VStr s) -> key_string k o v = Ret n -> D j -> E1 n j.
  Hypothesis E1_json : forall j' j, po_keys o = true -> D j' -> D j -> E1 (JSON_KEY ++ dumps j') j.
  Hypothesis E1_object : forall n, po_unpicklable o = true -> E1 OBJECT (JStr n).
  Hypothesis E1_property0 : po_props o = true -> E1 PROPERTY (JObj []).
  Hypothesis E1_prop : forall l a v j, po_props o = true -> In a (k_props k l) -> (D j \/ prim_json v = Some j) -> E1 a j.
  Hypothesis E1_E : forall n j, E1 n j -> E n j.
  Hypothesis E_property : forall ob, po_props o = true -> Forall (fun kv => E1 (fst kv) (snd kv)) ob -> E PROPERTY (JObj ob).
  Hypothesis E_newargsex : forall c js, Vc c -> c_newargs_ex (cls c) = true -> Forall D js -> E NEWARGSEX (JList js).
  Hypothesis E_newargs : forall c j, Vc c -> c_newargs (cls c) = true -> D j -> E NEWARGS j.
  Hypothesis E_initargs : forall c j, Vc c -> c_initargs (cls c) = true -> D j -> E INITARGS j.
  Hypothesis E_state : forall j, po_unpicklable o = true -> D j -> E STATE j.
  Hypothesis E_seq : forall js, po_unpicklable o = true -> Forall D js -> E SEQ (JList js).
  Hypothesis E_iter : forall c js, Vc c -> c_kind (cls c) = KIter -> Forall D js -> E ITERATOR (JList js).
  Hypothesis E_reduce : forall js, po_unpicklable o = true -> Forall D js -> E REDUCE (JList js).
  Definition fac_key (n : pystr) : Prop := n = u "default_factory" \/ n = DEFAULT_FACTORY.
  Hypothesis E_fac_type : forall c n c1, Vc c -> c_kind (cls c) = KDict -> fac_key n -> E n (mktyperef w c1).
  Hypothesis E_fac_obj : forall c n ob, Vc c -> c_kind (cls c) = KDict -> fac_key n -> Forall (fun kv => E1 (fst kv) (snd kv)) ob -> E n (JObj ob).
  Hypothesis E_fac_ref : forall c n m, Vc c -> c_kind (cls c) = KDict -> fac_key n -> po_unpicklable o = true -> po_make_refs o = true ->
    E n (JObj [(ID, JInt (Z.of_nat m))]).
  Hypothesis E_dict_obj : forall ob, po_unpicklable o = true -> Forall (fun kv => E1 (fst kv) (snd kv)) ob ->
    E (u "__dict__") (JObj ob).
  Hypothesis E_dict_ref : forall m, po_unpicklable o = true -> po_make_refs o = true ->
    E (u "__dict__") (JObj [(ID, JInt (Z.of_nat m))]).
  Hypothesis D_D' : forall j, D j -> D' j.
  Hypothesis D'_obj : forall ob, Forall (fun kv => E (fst kv) (snd kv)) ob -> D' (JObj ob).
  Hypothesis D'_list : forall js, Forall D js -> D' (JList js).
  Hypothesis D'_null : D' JNull.

  Definition Eob (ob : jobj) : Prop := Forall (fun kv => E (fst kv) (snd kv)) ob.
  Definition E1ob (ob : jobj) : Prop := Forall (fun kv => E1 (fst kv) (snd kv)) ob.
  Lemma E1ob_Eob ob : E1ob ob -> Eob ob.
  Proof. unfold E1ob, Eob. apply Forall_impl. auto. Qed.
  Lemma Forall_sset (P : pystr -> json -> Prop) n j (ob : jobj) : P n j ->
    Forall (fun kv => P (fst kv) (snd kv)) ob -> Forall (fun kv => P (fst kv) (snd kv)) (sset n j ob).
  Proof.
    intros H. induction ob as [|[a b] ob IH]; intros F; cbn [sset]; [repeat constructor; auto|].
    inversion F as [|x y Hx Hy]; subst. destruct (seqb n a) eqn:S; constructor; auto.
    apply seqb_eq in S. subst a. exact H.
  Qed.

  (** Custom handlers: no reset, known values, documents built from what they get. *)
  Fixpoint script_ok (sc : fscript) : Prop :=
    match sc with
    | FDone (Some j) => D' j
    | FDone None => True
    | FRaise e => Xk e
    | FFlatten reset v kk => reset = false /\ Vq v /\ forall j, D j -> script_ok (kk j)
    end.
  Hypothesis W_hflat : forall h ctx l n, script_ok (w_hflat w h ctx l (if po_unpicklable o then [(OBJECT, JStr n)] else [])).

  Section step.
    Variables (fuel : nat) (rec : val -> MP json).
    (** From state s on, the recursive call behaves. *)
    Definition RecOK (s : pst) : Prop :=
      hev cls h0 (p_heap s) /\
      forall v s1, EvR s s1 -> V (p_heap s1) v -> tw (rec v) s1 (fun j _ => D j).
    Lemma RecOK_mono s s' : EvR s s' -> RecOK s -> RecOK s'.
    Proof.
      intros R [H1 H2]. split; [eapply hev_trans; [eauto|]; eapply EvR_hev; eauto|].
      intros v s1 R1. apply H2. eapply EvR_trans; eauto.
    Qed.
    Lemma RecOK_rec s v : RecOK s -> V (p_heap s) v -> tw (rec v) s (fun j _ => D j).
    Proof. intros [_ H] Vv. apply H; auto. apply EvR_refl. Qed.
    Lemma V_ev s s1 v : RecOK s -> EvR s s1 -> V (p_heap s) v -> V (p_heap s1) v.
    Proof. intros [H _] R. apply V_mono; auto. eapply EvR_hev; eauto. Qed.
    Lemma Vq_s s v : RecOK s -> Vq v -> V (p_heap s) v.
    Proof. intros [H _]. apply Vq_V; auto. Qed.
    Lemma V_obj s l ob x : RecOK s -> V (p_heap s) (VLoc l) -> hget (p_heap s) l = Some ob -> In x (obj_vals ob) ->
      V (p_heap s) x.
    Proof. intros [H _]. apply V_heap; auto. Qed.

    Lemma g_get_obj s l : tw (get_obj l) s (fun ob s1 => s1 = s /\ hget (p_heap s) l = Some ob).
    Proof.
      unfold get_obj. eapply tw_bind with (Q1 := fun h s1 => s1 = s /\ h = p_heap s); [apply tw_gets; auto|].
      intros h s1 _ [-> ->]. destruct (hget (p_heap s) l); [apply tw_ret; auto|apply tw_raise; auto].
    Qed.
    Lemma g_warn s v : tw (pickle_warning o v) s (fun _ s1 => p_heap s1 = p_heap s).
    Proof.
      unfold pickle_warning. destruct (po_warn o); [|apply tw_ret; auto].
      apply tw_modify; auto. split; [|apply depth_same; auto]. split; [apply hev_refl|]. split; [exists []; rewrite app_nil_r; auto|].
      split; [simpl; lia|auto].
    Qed.
    Lemma g_mkref s v : tw (mkref o v) s (fun b s1 => p_heap s1 = p_heap s /\ In v (p_objs s1) /\
      (b = false -> po_unpicklable o = true /\ po_make_refs o = true)).
    Proof.
      unfold mkref. destruct (log_ref_ev w bal Ck v s) as (b & s' & E0 & R & I & Hp & _).
      unfold twp, bind. rewrite E0. split; auto. split; auto. split; auto.
      bcase (po_unpicklable o) Ou; bcase (po_make_refs o) Om; destruct b; simpl; auto; discriminate.
    Qed.
    Lemma g_getref s v (Q : json -> pst -> Prop) : In v (p_objs s) ->
      (forall n, Q (JObj [(ID, JInt (Z.of_nat n))]) s) -> tw (getref v) s Q.
    Proof.
      intros I H. unfold getref. eapply tw_bind with (Q1 := fun x s1 => x = p_objs s /\ s1 = s); [apply tw_gets; auto|].
      intros x s1 _ [-> ->]. apply tw_ret. destruct (index_of v (p_objs s)) eqn:X; [apply H|]. exfalso.
      revert I X. induction (p_objs s) as [|y r IH]; simpl; auto. intros [->|I]; [rewrite val_eqb_refl; discriminate|].
      destruct (val_eqb v y); [discriminate|]. destruct (index_of v r); [discriminate|]. auto.
    Qed.

    Lemma g_escape s key : RecOK s -> V (p_heap s) key -> po_keys o = true ->
      tw (escape_key w o rec key) s (fun ks s1 => exists j, D j /\ ks = JSON_KEY ++ dumps j).
    Proof.
      intros R Vk K. unfold escape_key. eapply tw_bind with (Q1 := fun j _ => D j).
      - unfold pflatten. rewrite Os. eapply tw_bind with (Q1 := fun _ s1 => s1 = s); [apply tw_ret; auto|].
        intros _ s1 _ ->. eapply tw_bind with (Q1 := fun _ s1 => s1 = s); [apply tw_ret; auto|].
        intros _ s1 _ ->. apply RecOK_rec; auto.
      - intros j s1 R1 Dj. apply tw_ret. eauto.
    Qed.
    Lemma key_string_no_oof v : halts -> key_string k o v <> OOF.
    Proof.
      intros H. destruct (Hret H) as (_ & _ & _ & _ & _ & _ & _ & _ & H1 & H2 & _). unfold key_string, py_repr.
      destruct v; try discriminate; try (destruct (po_numeric o); [discriminate|]); match goal with |- context [k_repr k ?x] => specialize (H1 x); destruct (k_repr k x) end;
        try discriminate; auto; match goal with |- context [is_Exception ?e] => destruct (is_Exception e) end; auto; discriminate.
    Qed.

    Lemma key_string_exc v e : key_string k o v = Exc e -> Xk e.
    Proof.
      destruct Hxk as (_ & _ & _ & _ & _ & _ & _ & _ & H1 & H2 & _). unfold key_string, py_repr.
      destruct v; try discriminate; try (destruct (po_numeric o); [discriminate|]); match goal with |- context [k_repr k ?x] => specialize (H1 x); destruct (k_repr k x) end;
        try discriminate; try (match goal with |- context [is_Exception ?e] => destruct (is_Exception e) end); intros E0; eauto;
        inversion E0; subst; eauto.
    Qed.
    Lemma g_readonly s n v : tw (readonly_skip w k o n v) s (fun b s1 => b = false /\ s1 = s).
    Proof. unfold readonly_skip. rewrite Or. apply tw_ret. auto. Qed.

    Section entries.
    Variable P : pystr -> json -> Prop.
    Hypothesis HP : forall n j, E1 n j -> P n j.
    Notation obP d := (Forall (fun kv => P (fst kv) (snd kv)) d).
    Lemma g_kv s key v data : RecOK s -> V (p_heap s) v -> (po_keys o = false \/ exists n, key = VStr n) -> obP data ->
      tw (flatten_key_value_pair w k o rec key v data) s (fun d _ => obP d).
    Proof.
      intros R Vv Hk Hd. unfold flatten_key_value_pair.
      eapply tw_bind with (Q1 := fun h s1 => h = p_heap s /\ s1 = s); [apply tw_gets; auto|]. intros h s1 _ [-> ->].
      destruct (is_picklable w (p_heap s) key v) eqn:Pk; [|apply tw_ret; auto]. cbn [negb].
      eapply tw_bind; [apply g_readonly|]. intros b s1 _ [-> ->].
      eapply tw_bind with (Q1 := fun ks s1 => key_string k o key = Ret ks /\ s1 = s);
        [apply tw_lift; [apply key_string_no_oof|apply key_string_exc|auto]|]. intros ks s1 _ [Ks ->].
      eapply tw_bind; [apply RecOK_rec; eauto|]. intros j s2 _ Dj. apply tw_ret.
      apply (Forall_sset P); auto. destruct key; try (destruct Hk as [Hk|[nn Hk]]; [|discriminate];
        match type of Ks with key_string k o ?v = _ => apply HP; apply (E1_repr v); auto; intros; discriminate end).
      cbn [key_string] in Ks. inversion Ks; subst ks. apply HP; apply E1_key; auto.
      unfold is_picklable in Pk. apply andb_true_iff in Pk. destruct Pk as [Pk _]. apply negb_true_iff in Pk. auto.
    Qed.
    Lemma g_nonstr s key v data : RecOK s -> V (p_heap s) v -> V (p_heap s) key -> obP data ->
      tw (flatten_non_string_key_value_pair w o rec key v data) s (fun d _ => obP d).
    Proof.
      intros R Vv Vk Hd. unfold flatten_non_string_key_value_pair.
      eapply tw_bind with (Q1 := fun h s1 => h = p_heap s /\ s1 = s); [apply tw_gets; auto|]. intros h s1 _ [-> ->].
      destruct (is_picklable w (p_heap s) key v) eqn:Pk; [|apply tw_ret; auto]. cbn [negb].
      bcase (po_keys o) K; [|destruct key; apply tw_ret; auto].
      destruct key; try (apply tw_ret; auto; fail).
      all: eapply tw_bind; [apply g_escape; auto|]; intros ks s1 R1 (j' & Dj' & ->);
        (eapply tw_bind; [apply RecOK_rec; [eapply RecOK_mono; eauto|eapply V_ev; eauto]|]);
        intros j s2 _ Dj; apply tw_ret; apply (Forall_sset P); auto.
    Qed.
    Lemma g_str s key v data : RecOK s -> V (p_heap s) v -> V (p_heap s) key -> obP data ->
      tw (flatten_string_key_value_pair w k o rec key v data) s (fun d _ => obP d).
    Proof.
      intros R Vv Vk Hd. unfold flatten_string_key_value_pair.
      eapply tw_bind with (Q1 := fun h s1 => h = p_heap s /\ s1 = s); [apply tw_gets; auto|]. intros h s1 _ [-> ->].
      assert (Y : (forall n, key <> VStr n) -> tw
        (if negb (is_picklable w (p_heap s) key v) then ret data
         else if po_keys o then ret data
              else ks <- lift (key_string k o key);; j <- rec v;; ret (sset ks j data)) s (fun d _ => obP d)).
      { intros NS. destruct (is_picklable w (p_heap s) key v); [|apply tw_ret; auto]. cbn [negb].
        bcase (po_keys o) K; [apply tw_ret; auto|].
        eapply tw_bind with (Q1 := fun ks s1 => key_string k o key = Ret ks /\ s1 = s);
          [apply tw_lift; [apply key_string_no_oof|apply key_string_exc|auto]|]. intros ks s1 _ [Ks ->].
        eapply tw_bind; [apply RecOK_rec; eauto|]. intros j s2 _ Dj. apply tw_ret. apply (Forall_sset P); auto.
        apply HP; apply (E1_repr key); auto. }
      destruct key; try (apply Y; intros; discriminate). clear Y.
      destruct ((prefixb JSON_KEY s0 || is_reserved s0) && po_keys o) eqn:X.
      - apply andb_true_iff in X. destruct X as [X K].
        eapply tw_bind; [apply g_escape; auto|]; intros ks s1 R1 (j' & Dj' & ->).
        eapply tw_bind; [apply RecOK_rec; [eapply RecOK_mono; eauto|eapply V_ev; eauto]|].
        intros j s2 _ Dj; apply tw_ret; apply (Forall_sset P); auto.
      - destruct (is_picklable w (p_heap s) (VStr s0) v) eqn:Pk; [|apply tw_ret; auto]. cbn [negb].
        eapply tw_bind; [apply RecOK_rec; eauto|]. intros j s2 _ Dj. apply tw_ret. apply (Forall_sset P); auto.
        apply HP; apply E1_key; auto. unfold is_picklable in Pk. apply andb_true_iff in Pk. destruct Pk as [Pk _].
        apply negb_true_iff in Pk. auto.
    Qed.
    Lemma g_items s d exclude data : RecOK s -> (forall kv, In kv d -> V (p_heap s) (fst kv) /\ V (p_heap s) (snd kv)) ->
      obP data -> tw (flatten_items w k o rec d exclude data) s (fun d _ => obP d).
    Proof.
      intros R Vd Hd. unfold flatten_items.
      assert (X : forall kv, In kv (items exclude d) -> V (p_heap s) (fst kv) /\ V (p_heap s) (snd kv)).
      { intros kv I. apply filter_In in I. apply Vd. tauto. }
      bcase (po_keys o) K.
      - eapply tw_bind with (Q1 := fun d _ => obP d).
        + apply tw_foldM; auto. intros b kv s1 I R1 Hb. destruct (X kv I). apply g_str; eauto using RecOK_mono, V_ev.
        + intros d1 s1 R1 Hd1. apply tw_foldM; auto. intros b kv s2 I R2 Hb. destruct (X kv I).
          assert (EvR s s2) by (eapply EvR_trans; eauto). apply g_nonstr; eauto using RecOK_mono, V_ev.
      - apply tw_foldM; auto. intros b kv s1 I R1 Hb. destruct (X kv I). apply g_kv; eauto using RecOK_mono, V_ev.
    Qed.
    Lemma g_plain_dict s d exclude data : RecOK s -> V (p_heap s) (VLoc d) -> obP data ->
      tw (flatten_plain_dict w k o rec d exclude data) s (fun d _ => obP d).
    Proof.
      intros R Vd Hd. unfold flatten_plain_dict. eapply tw_bind; [apply g_get_obj|]. intros ob s1 _ [-> G].
      destruct ob; try (apply tw_raise; exact Xu). apply g_items; auto. intros kv I. split; eapply V_obj; eauto; simpl;
        apply in_or_app; [left; apply in_map|right; apply in_map]; auto.
    Qed.
    End entries.
    Lemma g_clone s x : RecOK s -> V (p_heap s) x ->
      tw (flatten_clone w k o rec x) s (fun j _ => exists ob, j = JObj ob /\ E1ob ob).
    Proof.
      intros R Vx. unfold flatten_clone. cbv zeta. eapply tw_bind; [apply (g_items E1 ltac:(auto))|].
      - auto.
      - intros kv [<-|[]]. simpl. auto.
      - assert (E1ob (if po_props o then [(PROPERTY, JObj [])] else [])).
        { bcase (po_props o) P; constructor; auto. }
        bcase (po_unpicklable o) U; auto. apply Forall_sset; auto.
      - intros d s1 _ Hd. apply tw_ret. eauto.
    Qed.
    Lemma V_attr s l i a x : RecOK s -> V (p_heap s) (VLoc l) -> hget (p_heap s) l = Some (OInst i) ->
      inst_attr (p_heap s) i a = Some x -> V (p_heap s) x.
    Proof.
      intros R Vl G H. unfold inst_attr in H. destruct (sget a (i_slots i)) eqn:S.
      - inversion H; subst. eapply V_obj; eauto. simpl. apply in_or_app. right. apply in_or_app. left.
        apply sget_In in S. apply (in_map snd) in S. auto.
      - destruct (i_dict i) as [d|] eqn:Di; [|discriminate]. destruct (hget (p_heap s) d) as [[]|] eqn:Gd; try discriminate.
        assert (Vd : V (p_heap s) (VLoc d)).
        { eapply V_obj; eauto. simpl. rewrite Di. simpl. auto. }
        eapply V_obj with (l := d); eauto. simpl. apply in_or_app. right. eapply dget_In; eauto.
    Qed.
    Lemma g_factory s l i data : RecOK s -> V (p_heap s) (VLoc l) -> hget (p_heap s) l = Some (OInst i) ->
      c_kind (cls (i_cls i)) = KDict -> Eob data ->
      tw (flatten_factory w k o rec i data) s (fun d _ => Eob d).
    Proof.
      intros R Vl G Kd Hd. unfold flatten_factory. assert (Cl : Vc (i_cls i)) by (eapply V_cls; eauto; apply R).
      eapply tw_bind with (Q1 := fun h s1 => h = p_heap s /\ s1 = s); [apply tw_gets; auto|]. intros h s1 _ [-> ->].
      destruct (factory_of w (p_heap s) i) as [f|] eqn:F; [|apply tw_ret; auto].
      destruct (callable w (p_heap s) f); [|apply tw_ret; auto]. cbv zeta.
      set (sk := if shas (u "default_factory") data then DEFAULT_FACTORY else u "default_factory").
      assert (SK : fac_key sk) by (unfold sk, fac_key; destruct (shas _ _); auto).
      eapply tw_bind with (Q1 := fun j _ => E sk j); [|intros j s1 _ Ej; apply tw_ret; apply Forall_sset; auto].
      assert (X : tw (is_new <- mkref o f;; (if is_new then x <- lift (k_call0 k f);; flatten_clone w k o rec x else getref f)) s
                     (fun j _ => E sk j)).
      { eapply tw_bind; [apply g_mkref|]. intros b s1 R1 (Hp & I & Hb). destruct b.
        - eapply tw_bind with (Q1 := fun x s2 => Vq x /\ s2 = s1).
          + apply tw_lift; [intros H; apply (Hret H)|intros e; apply Hxk|]. intros x Hx. split; auto. eapply K_call0; eauto.
          + intros x s2 _ [Vx ->]. eapply tw_mono; [apply g_clone; [eapply RecOK_mono; eauto|apply Vq_s; eauto using RecOK_mono]|].
            intros j s2 _ (ob & -> & Hob). apply (E_fac_obj (i_cls i)); auto.
        - destruct (Hb eq_refl). apply g_getref; eauto. }
      destruct f; auto. apply tw_ret. apply (E_fac_type (i_cls i)); auto.
    Qed.
    Lemma g_dict_sub s l i data : RecOK s -> V (p_heap s) (VLoc l) -> hget (p_heap s) l = Some (OInst i) ->
      c_kind (cls (i_cls i)) = KDict -> Eob data ->
      tw (flatten_dict_subclass w k o rec l i data) s (fun d _ => Eob d).
    Proof.
      intros R Vl G Kd Hd. unfold flatten_dict_subclass. cbv zeta.
      eapply tw_bind; [apply (g_items E E1_E); auto|].
      { intros kv I. split; eapply V_obj; eauto; simpl; do 2 (apply in_or_app; right); apply in_or_app;
          [left|right; apply in_or_app; left]; apply in_map; auto. }
      intros d1 s1 R1 Hd1. assert (ROK1 : RecOK s1) by (eapply RecOK_mono; eauto).
      destruct (hev_inst cls _ (p_heap s1) l i (EvR_hev _ _ _ _ _ R1) G) as (p & _ & G1).
      eapply tw_bind; [apply (g_factory s1 l (set_pos i p)); auto; exact (V_ev s s1 _ R R1 Vl)|].
      intros d2 s2 R2 Hd2. destruct (i_dict i) as [d|] eqn:Di; [|apply tw_ret; auto].
      assert (ROK2 : RecOK s2) by (eapply RecOK_mono; eauto).
      assert (Vd : V (p_heap s2) (VLoc d)).
      { eapply V_ev; [exact ROK1|exact R2|]. eapply V_ev; [exact R|exact R1|]. eapply V_obj; eauto. simpl. rewrite Di. left. auto. }
      eapply tw_bind; [apply g_get_obj|]. intros ob s3 _ [-> Gd]. destruct ob; try (apply tw_raise; exact Xu).
      destruct (po_unpicklable o && differs_from_dict k l (i_items i) d0) eqn:X; [|apply tw_ret; auto].
      apply andb_true_iff in X. destruct X as [Ou _].
      eapply tw_bind; [apply g_mkref|]. intros b s3 R3 (Hp & I & Hb). destruct b.
      - eapply tw_bind; [apply (g_plain_dict E1 ltac:(auto))|].
        + eapply RecOK_mono; eauto.
        + eapply V_ev; eauto.
        + constructor.
        + intros dd s4 _ Hdd. apply tw_ret. apply (Forall_sset E); auto.
      - destruct (Hb eq_refl). eapply tw_bind with (Q1 := fun j _ => E (u "__dict__") j); [apply g_getref; auto|].
        intros j s4 _ Ej. apply tw_ret. apply (Forall_sset E); auto.
    Qed.
    Lemma g_mapM s (l : list val) : RecOK s -> (forall x, In x l -> V (p_heap s) x) ->
      tw (mapM rec l) s (fun js _ => Forall D js).
    Proof.
      intros R H. apply tw_mapM. intros x s1 I R1. apply RecOK_rec; eauto using RecOK_mono, V_ev.
    Qed.
    Lemma g_seq s l i data : RecOK s -> V (p_heap s) (VLoc l) -> hget (p_heap s) l = Some (OInst i) -> Eob data ->
      tw (flatten_sequence_obj w k o rec i data) s (fun j _ => D' j).
    Proof.
      intros R Vl G Hd. unfold flatten_sequence_obj. eapply tw_bind with (Q1 := fun d _ => Eob d).
      - destruct (i_dict i) as [d|] eqn:Di; [|apply tw_ret; auto]. apply (g_plain_dict E E1_E); auto.
        eapply V_obj; eauto. simpl. rewrite Di. left. auto.
      - intros d1 s1 R1 Hd1. eapply tw_bind; [apply g_mapM|].
        + eapply RecOK_mono; eauto.
        + intros x I. eapply V_ev; eauto. eapply V_obj; eauto. simpl. do 4 (apply in_or_app; right).
          apply in_or_app. left. auto.
        + intros js s2 _ Hjs. bcase (po_unpicklable o) Ou; apply tw_ret; auto.
          apply D'_obj. apply (Forall_sset E); auto.
    Qed.
    Lemma g_getattr s l i a : RecOK s -> V (p_heap s) (VLoc l) -> hget (p_heap s) l = Some (OInst i) -> po_props o = true ->
      tw (p_getattr k l i a) s (fun v s1 => s1 = s /\ V (p_heap s) v).
    Proof.
      intros R Vl G Op. unfold p_getattr.
      eapply tw_bind with (Q1 := fun h s1 => h = p_heap s /\ s1 = s); [apply tw_gets; auto|]. intros h s1 _ [-> ->].
      destruct (inst_attr (p_heap s) i a) eqn:A; [apply tw_ret; split; auto; eapply V_attr; eauto|].
      apply tw_lift; [intros H; apply (Hret H)| |].
      - intros e He. destruct Hxk as (_ & _ & _ & _ & _ & _ & Ha & _). destruct (Ha _ _ _ He) as [|[_ C]]; [auto|congruence].
      - intros x Hx. split; auto. apply Vq_s; auto. eapply K_attr; eauto.
    Qed.
    Lemma getattr_V s l i a v : RecOK s -> V (p_heap s) (VLoc l) -> hget (p_heap s) l = Some (OInst i) ->
      p_getattr k l i a s = (Ret v, s) -> V (p_heap s) v.
    Proof.
      intros R Vl G. unfold p_getattr, bind, gets, ret, lift. destruct (inst_attr (p_heap s) i a) eqn:A; intros X; inversion X; subst.
      - eapply V_attr; eauto.
      - apply Vq_s; auto. eapply K_attr; eauto.
    Qed.
    Lemma getattr_pure s l i a : exists r, p_getattr k l i a s = (r, s) /\ (halts -> r <> OOF) /\
      (forall e, r = Exc e -> Xk e \/ (is_AttributeError e = true /\ po_props o = false)).
    Proof.
      unfold p_getattr, bind, gets, ret, lift. destruct (inst_attr (p_heap s) i a).
      - eexists. split; [reflexivity|]. split; intros; discriminate.
      - eexists. split; [reflexivity|]. split; [intros H; apply (Hret H)|]. intros e. apply Hxk.
    Qed.
    Lemma hget_ev s s1 l i : EvR s s1 -> hget (p_heap s) l = Some (OInst i) ->
      exists p, hget (p_heap s1) l = Some (OInst (set_pos i p)).
    Proof. intros R G. destruct (hev_inst cls _ _ l i (EvR_hev _ _ _ _ _ R) G) as (p & _ & G1). eauto. Qed.
    Lemma g_obj_attrs s l i attrs exclude data : RecOK s -> V (p_heap s) (VLoc l) -> hget (p_heap s) l = Some (OInst i) ->
      Eob data -> tw (flatten_obj_attrs w k o rec l i attrs exclude data) s (fun r _ => Eob (fst r)).
    Proof.
      intros R Vl G Hd. unfold flatten_obj_attrs. apply (tw_foldM w bal caught Ck halts _ (fun r => Eob (fst r))); auto.
      intros st a s1 _ R1 Hst. destruct (smem a exclude); [apply tw_ret; auto|].
      destruct (hget_ev s s1 l i R1 G) as (p & G1).
      destruct (getattr_pure s1 l i (mangle (w_cls w (i_cls i)) a)) as (r & Er & Nr & Xr).
      apply tw_catch_bind with (r := r); auto; [intros e Pe; apply Hct; rewrite Pe; auto| | |intros; apply tw_ret; auto].
      { intros e He. destruct (Xr e He) as [|[]]; auto. }
      intros v ->. assert (Vv : V (p_heap s1) v).
      { change (p_getattr k l (set_pos i p) (mangle (w_cls w (i_cls i)) a) s1 = (Ret v, s1)) in Er.
        eapply getattr_V; [eapply RecOK_mono; eauto|eapply V_ev; eauto|exact G1|exact Er]. }
      eapply tw_bind; [apply (g_kv E E1_E); eauto using RecOK_mono|].
      intros d s2 _ Hd2. apply tw_ret. auto.
    Qed.
    Lemma g_properties s l i data sl : RecOK s -> V (p_heap s) (VLoc l) -> hget (p_heap s) l = Some (OInst i) ->
      po_props o = true -> Eob data -> tw (flatten_properties k rec l i data sl) s (fun d _ => Eob d).
    Proof.
      intros R Vl G Op Hd. unfold flatten_properties. eapply tw_bind with (Q1 := fun d _ => E1ob d).
      2: { intros d s1 _ H. apply tw_ret. apply (Forall_sset E); auto. }
      apply (tw_foldM w bal caught Ck halts _ E1ob); [constructor|]. intros acc a s1 I R1 Ha. apply filter_In in I. destruct I as [I _].
      destruct (hget_ev s s1 l i R1 G) as (p & G1).
      assert (ROK1 : RecOK s1) by (eapply RecOK_mono; eauto).
      eapply tw_bind with (Q1 := fun v s2 => s2 = s1 /\ V (p_heap s1) v).
      { change (tw (p_getattr k l (set_pos i p) a) s1 (fun v s2 => s2 = s1 /\ V (p_heap s1) v)).
        apply g_getattr; eauto using V_ev. }
      intros v s2 _ [-> Vv].
      eapply tw_bind with (Q1 := fun h s2 => h = p_heap s1 /\ s2 = s1); [apply tw_gets; auto|]. intros h s2 _ [-> ->].
      destruct (prim_json v) as [j|] eqn:Pj.
      { apply tw_ret. apply (Forall_sset E1); auto. eapply E1_prop; eauto. }
      assert (X : tw (j <- rec v ;; ret (sset a j acc)) s1 (fun d _ => E1ob d)).
      { eapply tw_bind; [apply RecOK_rec; auto|]. intros j s2 _ Dj. apply tw_ret. apply (Forall_sset E1); auto.
        eapply E1_prop with (v := v); eauto. }
      destruct v; auto; try (apply tw_raise; exact Xu). destruct (hget (p_heap s1) l0) as [[]|]; auto; apply tw_raise; auto.
    Qed.
    Lemma g_slots s l i data : RecOK s -> V (p_heap s) (VLoc l) -> hget (p_heap s) l = Some (OInst i) ->
      Eob data -> tw (flatten_newstyle_with_slots w k o rec l i data) s (fun j _ => D' j).
    Proof.
      intros R Vl G Hd. unfold flatten_newstyle_with_slots. cbv zeta. eapply tw_bind with (Q1 := fun d _ => Eob d).
      { bcase (po_props o) Op; [apply g_properties; auto|apply tw_ret; auto]. }
      intros d1 s1 R1 Hd1. destruct (hget_ev s s1 l i R1 G) as (p & G1).
      eapply tw_bind with (Q1 := fun r _ => Eob (fst r)).
      {
        match goal with |- twp _ _ _ _ _ (flatten_obj_attrs ?a ?b ?c ?r l _ ?sl ?ex ?d) _ _ =>
          change (tw (flatten_obj_attrs a b c r l (set_pos i p) sl ex d) s1 (fun r _ => Eob (fst r))) end.
        apply g_obj_attrs; eauto using RecOK_mono, V_ev. }
      intros r s2 R2 Hr. destruct (snd r); [apply tw_ret; apply D'_obj; auto|].
      assert (R02 : EvR s s2) by (eapply EvR_trans; eauto).
      destruct (hget_ev s s2 l i R02 G) as (p2 & G2).
      eapply tw_bind with (Q1 := fun r _ => Eob (fst r)).
      { match goal with |- twp _ _ _ _ _ (flatten_obj_attrs ?a ?b ?c ?r l _ ?sl ?ex ?d) _ _ =>
          change (tw (flatten_obj_attrs a b c r l (set_pos i p2) sl ex d) s2 (fun r _ => Eob (fst r))) end.
        apply g_obj_attrs; eauto using RecOK_mono, V_ev. }
      intros r2 s3 _ Hr2. apply tw_ret. apply D'_obj; auto.
    Qed.
    Lemma g_reduce_of s l i : tw (reduce_of w k l i) s (fun r s1 => s1 = s /\ (r = RNone \/ k_reduce k l = Ret r)).
    Proof.
      unfold reduce_of. destruct (c_reduce _); [|apply tw_ret; auto]. unfold twp, catch, lift, ret.
      destruct (k_reduce k l) as [r|e|] eqn:K.
      - split; [apply EvR_refl|auto].
      - destruct (is_TypeError e) eqn:Te; [split; [apply EvR_refl|auto]|apply EvE_refl].
        destruct Hxk as (_ & _ & _ & _ & Hr & _). destruct (Hr _ _ K); congruence || auto.
      - intros H. destruct (Hret H) as (_ & _ & _ & _ & N & _). apply (N l); auto.
    Qed.
    Lemma g_script s sc : RecOK s -> script_ok sc ->
      tw (run_fscript w o rec sc) s (fun r _ => match r with Some j => D' j | None => True end).
    Proof.
      revert s. induction sc as [r|e|reset v kk IH]; intros s R H; cbn [run_fscript].
      - apply tw_ret. destruct r; auto.
      - apply tw_raise. exact H.
      - destruct H as (-> & Vv & Hk). eapply tw_bind with (Q1 := fun j _ => D j).
        + unfold pflatten. rewrite Os. eapply tw_bind with (Q1 := fun _ s1 => s1 = s); [apply tw_ret; auto|].
          intros _ s1 _ ->. eapply tw_bind with (Q1 := fun _ s1 => s1 = s); [apply tw_ret; auto|].
          intros _ s1 _ ->. apply RecOK_rec; auto. apply Vq_s; auto.
        + intros j s1 R1 Dj. apply IH; auto. eapply RecOK_mono; eauto.
    Qed.
    Lemma g_handler s h l n : RecOK s -> tw (call_handler w o rec h l n) s (fun j _ => D' j).
    Proof.
      intros R. unfold call_handler. cbv zeta. eapply tw_bind; [apply g_script; auto|].
      intros [j|] s1 _ Hj; [apply tw_ret; auto|]. eapply tw_bind; [apply g_warn|]. intros _ s2 _ _. apply tw_ret. auto.
    Qed.
    Lemma strip_D js : Forall D js -> Forall D (strip_nulls js).
    Proof.
      intros F. destruct js as [|a [|b r]]; auto. unfold strip_nulls.
      inversion F as [|? ? Ha Fa]; subst. inversion Fa as [|? ? Hb Fb]; subst. do 2 (constructor; auto).
      clear F Fa. revert Fb. induction r as [|x r IH]; intros Fb; [constructor|].
      inversion Fb as [|? ? Hx Fx]; subst. specialize (IH Fx).
      match goal with |- Forall D (match ?t with _ => _ end) => destruct t eqn:T end.
      - destruct x; constructor; auto.
      - constructor; auto.
    Qed.
    Lemma Forall_repeat_V h n : Forall (V h) (repeat VNone n).
    Proof. induction n; constructor; auto. Qed.
    Lemma g_reduce_tuple s i rl data : RecOK s -> Forall Vq rl -> po_unpicklable o = true -> Eob data ->
      tw (flatten_reduce_tuple w rec i rl data) s (fun r _ => match r with Some j => D' j | None => True end).
    Proof.
      intros R F Ou Hd. unfold flatten_reduce_tuple. cbv zeta.
      assert (F2 : Forall (V (p_heap s)) (pad6 rl)).
      { apply Forall_app. split; [|apply Forall_repeat_V]. revert F. apply Forall_impl. intros x. apply Vq_s; auto. }
      destruct (pad6 rl) as [|f [|args [|state rest]]]; try (apply tw_raise; exact Xu).
      eapply tw_bind with (Q1 := fun _ s1 => s1 = s); [apply tw_gets; auto|]. intros st s1 _ ->.
      destruct (_ && _); [apply tw_ret; auto|].
      eapply tw_bind; [apply g_mapM; auto|].
      - rewrite Forall_forall in F2. intros x Ix. destruct Ix as [<-|Ix].
        + destruct (is_newobj_fun w f); auto. apply F2. left. auto.
        + apply F2. right. auto.
      - intros js s1 _ Hjs. apply tw_ret. apply D'_obj. apply (Forall_sset E); auto. apply E_reduce; auto. apply strip_D; auto.
    Qed.
    Lemma g_reduce_str s x : po_unpicklable o = true -> RecOK s ->
      tw (flatten_reduce_str w rec x) s (fun r _ => match r with Some j => D' j | None => True end).
    Proof.
      intros Ou R. unfold flatten_reduce_str.
      assert (C0 : forall e, is_KeyError e = true -> caught e = true) by (intros e Pe; apply Hct; rewrite Pe; apply orb_true_r).
      destruct (split_on 46%N x) as [|first rest]; [apply tw_catch; auto; [apply tw_ret; auto|intros; apply tw_ret; auto]|].
      destruct (w_sysmod w first) as [m|].
      2: { change (tw (ret None) s (fun r _ => match r with Some j => D' j | None => True end)). apply tw_ret. auto. }
      destruct rest as [|a rest]; [apply tw_catch; auto; [apply tw_ret; auto|intros; apply tw_ret; auto]|].
      eapply tw_catch_bind; [exact C0|reflexivity| | | |intros; apply tw_ret; auto].
      - intros H. apply (Hret H).
      - intros e He. destruct Hxk as (_ & _ & _ & _ & _ & _ & _ & _ & _ & _ & Hg). eauto.
      - intros v Hv. assert (Vv : Vq v) by eauto. eapply tw_bind; [apply RecOK_rec; auto; apply Vq_s; auto|].
        intros j s1 _ Dj. apply tw_ret. auto.
    Qed.
    (** Iterators end, or max_iter does. *)
    Definition iter_ends (n : nat) : Prop :=
      (exists m, m < n /\ forall l p x, m <= p -> k_iter k l p <> Ret (Some x)) \/
      (exists m, po_max_iter o = Some m /\ m < n).
    Hypothesis Hiter : halts -> iter_ends fuel.
    Lemma g_iter_loop n : forall s l i limit, ~ ev_lk Ck l -> RecOK s -> V (p_heap s) (VLoc l) -> hget (p_heap s) l = Some (OInst i) ->
      c_kind (cls (i_cls i)) = KIter ->
      (halts -> (exists m, m < n + i_pos i /\ 0 < n /\ forall l p x, m <= p -> k_iter k l p <> Ret (Some x)) \/
                (exists m, limit = Some m /\ m < n)) ->
      tw (iter_loop k rec n l limit) s (fun js _ => Forall D js).
    Proof.
      induction n as [|n IH]; intros s l i limit NLk R Vl G Kd Hn.
      - cbn [iter_loop]. destruct limit as [[|m]|]; [apply tw_ret; auto| |];
          (intros H; destruct (Hn H) as [(x & L & L0 & Hx)|(x & Ex & L)]; lia).
      - assert (X : limit <> Some 0 -> tw (
              ob <- get_obj l ;;
              match ob with
              | OInst i =>
                  x <- lift (k_iter k l (i_pos i)) ;;
                  match x with
                  | None => ret []
                  | Some v =>
                      modify (fun s => set_heap (hset (p_heap s) l (OInst (set_pos i (S (i_pos i))))) s) ;;;
                      j <- rec v ;;
                      js <- iter_loop k rec n l (option_map pred limit) ;;
                      ret (j :: js)
                  end
              | _ => raise EUnmodelled
              end) s (fun js _ => Forall D js)).
        { intros NL. eapply tw_bind; [apply g_get_obj|]. intros ob s1 _ [-> G1]. rewrite G in G1.
          assert (ob = OInst i) by congruence. subst ob. clear G1.
          eapply tw_bind with (Q1 := fun x s1 => s1 = s /\ k_iter k l (i_pos i) = Ret x).
          { apply tw_lift; [intros H; apply (Hret H)|intros e; apply Hxk|auto]. }
          intros x s1 _ [-> Kx]. destruct x as [v|]; [|apply tw_ret; auto].
          set (s1 := set_heap (hset (p_heap s) l (OInst (set_pos i (S (i_pos i))))) s).
          assert (R1 : EvR s s1).
          { split; [|apply depth_same; auto]. split; [apply hev_pos; auto|]. split; [exists []; rewrite app_nil_r; auto|]. split; [simpl; lia|].
            split; [auto|]. intros l1 ob1 L1 G1. cbn [s1 set_heap p_heap]. rewrite hget_hset_other; auto. intros ->. contradiction. }
          assert (ROK1 : RecOK s1) by (eapply RecOK_mono; eauto).
          assert (G1 : hget (p_heap s1) l = Some (OInst (set_pos i (S (i_pos i))))).
          { apply hget_hset_same. eapply hget_lt; eauto. }
          eapply tw_bind with (Q1 := fun _ s2 => s2 = s1); [apply tw_modify; auto|]. intros _ s2 _ ->.
          eapply tw_bind; [apply RecOK_rec; auto; apply Vq_s; eauto|]. intros j s2 R2 Dj. cbv beta in Dj.
          destruct (hev_inst cls _ _ l _ (EvR_hev _ _ _ _ _ R2) G1) as (p & P2 & G2). rewrite set_pos_pos in G2.
          eapply tw_bind.
          - apply (IH s2 l (set_pos i p)); auto.
            + eapply RecOK_mono; eauto.
            + exact (V_ev s1 s2 _ ROK1 R2 (V_ev s s1 _ R R1 Vl)).
            + intros H. cbn [set_pos i_pos] in P2 |- *. destruct (Hn H) as [(m & L & L0 & Hm)|(m & -> & L)].
              * left. exists m. assert (i_pos i < m).
                { destruct (Nat.le_gt_cases m (i_pos i)) as [C|C]; auto. destruct (Hm l _ v C); auto. }
                repeat split; auto; lia.
              * right. exists (pred m). split; auto. assert (m <> 0) by congruence. lia.
          - intros js s3 _ Djs. apply tw_ret. constructor; auto. }
        cbn [iter_loop]. destruct limit as [[|m]|]; [apply tw_ret; auto| |]; apply X; discriminate.
    Qed.

    Lemma truthy_no_ev s v : tw (truthy_p w v) s (fun _ s1 => s1 = s).
    Proof. unfold truthy_p. apply tw_gets. auto. Qed.

    Lemma g_rest s l i n data : (c_kind (cls (i_cls i)) = KIter -> ~ ev_lk Ck l) -> RecOK s -> V (p_heap s) (VLoc l) -> hget (p_heap s) l = Some (OInst i) -> Eob data ->
      tw (flatten_inst_rest w k o fuel rec l i n data) s (fun j _ => D' j).
    Proof.
      intros NLk R Vl G Hd. unfold flatten_inst_rest. cbv zeta. assert (Cl : Vc (i_cls i)) by (eapply V_cls; eauto; apply R). set (c := cls (i_cls i)).
      set (data1 := if po_unpicklable o then sset OBJECT (JStr n) data else data).
      assert (Hd1 : Eob data1).
      { unfold data1. bcase (po_unpicklable o) Ou; auto. apply (Forall_sset E); auto. }
      clearbody data1.
      eapply tw_bind with (Q1 := fun d _ => Eob d).
      { destruct (c_newargs_ex c) eqn:Nx; [|apply tw_ret; auto].
        eapply tw_bind with (Q1 := fun x s1 => s1 = s /\ Forall Vq x).
        { apply tw_lift; [intros H; apply (Hret H)|intros e; apply Hxk|]. intros x Hx. split; eauto. }
        intros x s1 _ [-> Vx]. eapply tw_bind; [apply g_mapM; auto|].
        { rewrite Forall_forall in Vx. intros y Iy. apply Vq_s; auto. }
        intros js s1 _ Hjs. apply tw_ret. apply (Forall_sset E); eauto. }
      intros data2 s2 R2 Hd2. assert (ROK2 : RecOK s2) by (eapply RecOK_mono; eauto).
      eapply tw_bind with (Q1 := fun d _ => Eob d).
      { destruct (c_newargs c && negb (c_newargs_ex c)) eqn:Na; [|apply tw_ret; auto]. apply andb_true_iff in Na.
        eapply tw_bind with (Q1 := fun x s1 => s1 = s2 /\ Vq x).
        { apply tw_lift; [intros H; apply (Hret H)|intros e; apply Hxk|]. intros x Hx. split; eauto. }
        intros x s1 _ [-> Vx]. eapply tw_bind; [apply RecOK_rec; auto; apply Vq_s; auto|].
        intros js s1 _ Hjs. apply tw_ret. apply (Forall_sset E); auto. eapply E_newargs; eauto. apply Na. }
      intros data3 s3 R3 Hd3. assert (ROK3 : RecOK s3) by (eapply RecOK_mono; eauto).
      eapply tw_bind with (Q1 := fun d _ => Eob d).
      { destruct (c_initargs c) eqn:Ni; [|apply tw_ret; auto].
        eapply tw_bind with (Q1 := fun x s1 => s1 = s3 /\ Vq x).
        { apply tw_lift; [intros H; apply (Hret H)|intros e; apply Hxk|]. intros x Hx. split; eauto. }
        intros x s1 _ [-> Vx]. eapply tw_bind; [apply RecOK_rec; auto; apply Vq_s; auto|].
        intros js s1 _ Hjs. apply tw_ret. apply (Forall_sset E); eauto. }
      intros data4 s4 R4 Hd4. assert (ROK4 : RecOK s4) by (eapply RecOK_mono; eauto).
      eapply tw_bind with (Q1 := fun x s1 => s1 = s4 /\ match x with Some v => Vq v \/ v = VNone | None => True end).
      { destruct (c_getstate c); [|apply tw_ret; auto]. apply tw_catch_lift.
        - intros H. apply (Hret H).
        - intros e. destruct Hxk as (_ & _ & _ & Hg & _). apply Hg.
        - intros x Hx. split; eauto.
        - intros e. apply tw_ret. auto. }
      intros gs s5 _ [-> Hgs]. destruct gs as [st0|].
      2: { eapply tw_bind; [apply g_warn|]. intros _ s5 _ _. apply tw_ret. auto. }
      assert (V0 : V (p_heap s4) st0).
      { destruct Hgs as [Hv| ->]; auto. apply Vq_s; auto. }
      eapply tw_bind with (Q1 := fun h s1 => h = p_heap s4 /\ s1 = s4); [apply tw_gets; auto|]. intros h s5 _ [-> ->].
      eapply tw_bind with (Q1 := fun v s1 => V (p_heap s1) v).
      { destruct (c_exclude c) as [|ex exs] eqn:Ex; [apply tw_ret; auto|].
        destruct st0; try (apply tw_ret; auto; fail).
        destruct (hget (p_heap s4) l0) as [[]|] eqn:Gs; try (apply tw_ret; auto; fail).
        unfold halloc. set (its := items (ex :: exs) d). set (s5 := set_heap (p_heap s4 ++ [ODict its]) s4).
        assert (R5 : EvR s4 s5).
        { split; [|apply depth_same; auto]. split; [apply hev_alloc|]. split; [exists []; rewrite app_nil_r; auto|]. split; [simpl; lia|].
          split; [auto|]. intros l1 ob1 _ G1. cbn [s5 set_heap p_heap]. rewrite hget_app_old; auto. eapply hget_lt; eauto. }
        eapply tw_bind with (Q1 := fun _ s1 => s1 = s5); [apply tw_modify; auto|]. intros _ s6 _ ->. apply tw_ret.
        apply (V_fresh (p_heap s4) l0 d its); auto; [apply ROK4|]. intros kv I. apply filter_In in I. tauto. }
      intros st s5 R5 Vst. assert (ROK5 : RecOK s5) by (eapply RecOK_mono; eauto).
      eapply tw_bind; [apply truthy_no_ev|]. intros t s6 _ ->.
      destruct (t && c_getstate c).
      { eapply tw_bind; [apply RecOK_rec; auto|]. intros j s6 _ Dj. bcase (po_unpicklable o) Ou; apply tw_ret; auto.
        apply D'_obj. apply (Forall_sset E); auto. }
      assert (R05 : EvR s s5).
      { eapply EvR_trans; [exact R2|]. eapply EvR_trans; [exact R3|]. eapply EvR_trans; [exact R4|]. auto. }
      destruct (hget_ev s s5 l i R05 G) as (p & G5).
      assert (V5 : V (p_heap s5) (VLoc l)) by (exact (V_ev s s5 _ R R05 Vl)).
      assert (Z : tw (match i_dict i with
              | Some d => dt <- flatten_plain_dict w k o rec d (c_exclude c) data4 ;; ret (JObj dt)
              | None =>
                  match c_slots c with
                  | Some _ => flatten_newstyle_with_slots w k o rec l i data4
                  | None =>
                      match data4 with
                      | _ :: _ => ret (JObj data4)
                      | [] =>
                          (if po_unpicklable o then pickle_warning o (VLoc l) ;;; ret JNull
                           else
                             r <- reduce_of w k l i ;;
                             match r with
                             | RTup rl =>
                                 let state := nth 2 rl VNone in
                                 let args := nth 1 rl VNone in
                                 ts <- truthy_p w state ;;
                                 if ts then rec state else
                                 ta <- truthy_p w args ;;
                                 if ta then rec args else
                                 pickle_warning o (VLoc l) ;;; ret JNull
                             | _ => pickle_warning o (VLoc l) ;;; ret JNull
                             end)
                      end
                  end
              end) s5 (fun j _ => D' j)).
      { destruct (i_dict i) as [d|] eqn:Di.
        { eapply tw_bind; [apply (g_plain_dict E E1_E); auto|].
          - eapply V_obj; eauto. simpl. rewrite Di. left. auto.
          - intros dt s6 _ Hdt. apply tw_ret. auto. }
        destruct (c_slots c).
        { change (tw (flatten_newstyle_with_slots w k o rec l (set_pos i p) data4) s5 (fun j _ => D' j)).
          apply g_slots; auto. }
        destruct data4; [|apply tw_ret; auto].
        assert (N : forall s, tw (pickle_warning o (VLoc l);;; ret JNull) s (fun j _ => D' j)).
        { intros s6. eapply tw_bind; [apply g_warn|]. intros _ s7 _ _. apply tw_ret. auto. }
        bcase (po_unpicklable o) Ou; auto.
        eapply tw_bind; [apply g_reduce_of|]. intros r s6 _ [-> Hr]. destruct r as [| |rl]; auto.
        assert (F : Forall Vq rl) by (destruct Hr as [Hr|Hr]; [discriminate|eauto]).
        assert (Vn : forall m, V (p_heap s5) (nth m rl VNone)).
        { intros m. destruct (nth_in_or_default m rl VNone) as [I| ->]; auto. apply Vq_s; auto.
          rewrite Forall_forall in F. auto. }
        cbv zeta. eapply tw_bind; [apply truthy_no_ev|]. intros ts s6 _ ->. destruct ts.
        { eapply tw_mono; [apply RecOK_rec; auto|]. auto. }
        eapply tw_bind; [apply truthy_no_ev|]. intros ta s6 _ ->. destruct ta; auto.
        eapply tw_mono; [apply RecOK_rec; auto|]. auto. }
      assert (SQ : tw (flatten_sequence_obj w k o rec i data4) s5 (fun j _ => D' j)).
      { change (tw (flatten_sequence_obj w k o rec (set_pos i p) data4) s5 (fun j _ => D' j)). apply (g_seq s5 l); auto. }
      destruct (c_kind c) eqn:Kd; auto.
      - change (flatten_dict_subclass w k o rec l i data4) with (flatten_dict_subclass w k o rec l (set_pos i p) data4).
        eapply tw_bind; [apply g_dict_sub; auto|]. intros d s6 _ Hd6. apply tw_ret. auto.
      - eapply tw_bind; [apply (g_iter_loop fuel s5 l (set_pos i p)); auto|].
        + intros H. destruct (Hiter H) as [(m & L & Hm)|(m & Em & L)]; [left|right]; exists m; repeat split; auto; cbn; lia.
        + intros js s6 _ Hjs. apply tw_ret. apply D'_obj. apply (Forall_sset E); eauto.
    Qed.

    Lemma g_instance s l : (forall i, hget (p_heap s) l = Some (OInst i) -> c_kind (cls (i_cls i)) = KIter -> ~ ev_lk Ck l) -> RecOK s -> V (p_heap s) (VLoc l) ->
      tw (flatten_obj_instance w k o fuel rec l) s (fun j _ => D' j).
    Proof.
      intros NLk R Vl. unfold flatten_obj_instance. eapply tw_bind; [apply g_get_obj|]. intros ob s1 _ [-> G].
      destruct ob; try (apply tw_raise; exact Xu). cbv zeta. destruct (reg_lookup _ _ _ _); [apply g_handler; auto|].
      eapply tw_bind with (Q1 := fun d _ => Eob d).
      { bcase (po_props o) Op; [apply g_properties; auto; constructor|apply tw_ret; constructor]. }
      intros data s1 R1 Hd. assert (ROK1 : RecOK s1) by (eapply RecOK_mono; eauto).
      destruct (hget_ev s s1 l i R1 G) as (p & G1).
      eapply tw_bind with (Q1 := fun r _ => match r with Some j => D' j | None => True end).
      { bcase (po_unpicklable o) Ou; [|apply tw_ret; auto].
        eapply tw_bind; [apply g_reduce_of|]. intros r s2 _ [-> Hr]. destruct r as [|x|rl].
        - apply tw_ret. auto.
        - destruct x; [apply tw_ret; auto|apply g_reduce_str; auto].
        - destruct rl; [apply tw_ret; auto|]. apply g_reduce_tuple; auto. destruct Hr as [Hr|Hr]; [discriminate|eauto]. }
      intros [j|] s2 R2 Hj; [apply tw_ret; auto|].
      assert (R02 : EvR s s2) by (eapply EvR_trans; eauto).
      destruct (hget_ev s s2 l i R02 G) as (p2 & G2).
      change (tw (flatten_inst_rest w k o fuel rec l (set_pos i p2) (importable_name (cls (i_cls i))) data) s2 (fun j _ => D' j)).
      apply g_rest; eauto using RecOK_mono, V_ev.
    Qed.

    (** [_ref_obj_instance], [_get_flattener] and [_flatten_obj] *)
    Hypothesis D'_tag : forall t js, po_unpicklable o = true -> t = TUPLE \/ t = SET_ -> Forall D js -> D' (JObj [(t, JList js)]).
    Hypothesis D'_type : forall h c, V h (VType c) -> D' (mktyperef w c).
    Hypothesis D'_fun : forall f, D' (flatten_function w o f).
    Hypothesis D'_mod : forall m, po_unpicklable o = true -> D' (JObj [(MODULE, JStr (w_mod w m ++ 47%N :: w_mod w m))]).
    Hypothesis D'_str : forall v x, py_repr k v = Ret x \/ k_str k v = Ret x -> D' (JStr x).
    Hypothesis D'_ref : forall n, po_unpicklable o = true -> po_make_refs o = true -> D' (JObj [(ID, JInt (Z.of_nat n))]).

    Lemma g_list_recurse s (xs : list val) : RecOK s -> (forall x, In x xs -> V (p_heap s) x) ->
      tw (list_recurse rec xs) s (fun j _ => exists js, j = JList js /\ Forall D js).
    Proof.
      intros R H. unfold list_recurse. eapply tw_bind; [apply g_mapM; auto|]. intros js s1 _ Hjs. apply tw_ret. eauto.
    Qed.
    Lemma g_in_cycle s v mr refs : tw (in_cycle w v mr refs) s
      (fun b s1 => s1 = s /\ (b = false -> prim_json v = None -> is_enum w (p_heap s) v = false -> mr = false /\ (refs = false -> ~ In v (p_objs s)))).
    Proof.
      unfold in_cycle. eapply tw_bind with (Q1 := fun x s1 => x = s /\ s1 = s); [apply tw_get; auto|].
      intros x s1 _ [-> ->]. apply tw_ret. split; auto. intros Hb Hp He. rewrite Hp, He in Hb. cbn [negb] in Hb.
      rewrite !andb_true_r in Hb. apply orb_false_iff in Hb. destruct Hb as [-> Hb]. split; auto. intros ->. cbn [negb andb] in Hb.
      intros I. destruct (index_of v (p_objs s)) eqn:X; [discriminate|]. revert I X.
      induction (p_objs s) as [|y r IH]; simpl; auto. intros [->|I]; [rewrite val_eqb_refl; discriminate|].
      destruct (val_eqb v y); [discriminate|]. destruct (index_of v r); [discriminate|]. auto.
    Qed.
    (** the object may be an iterator that moves *)
    Definition free (s : pst) (v : val) : Prop :=
      forall l i, v = VLoc l -> hget (p_heap s) l = Some (OInst i) -> c_kind (cls (i_cls i)) = KIter -> ~ ev_lk Ck l.
    Lemma g_object s v : free s v -> RecOK s -> V (p_heap s) v -> tw (flatten_object w k o fuel rec v) s (fun j _ => D' j).
    Proof.
      intros Fr R Vv. destruct v; cbn [flatten_object]; try (apply tw_raise; exact Xu); [|apply g_instance; eauto].
      unfold flatten_module. bcase (po_unpicklable o) Ou; [apply tw_ret; auto|].
      eapply tw_bind with (Q1 := fun x _ => k_str k (VMod m) = Ret x).
      - apply tw_lift; auto; [intros H; apply (Hret H)|]. intros e. apply Hxk.
      - intros x s1 _ Hx. apply tw_ret. eauto.
    Qed.
    (** The object is taken apart only if it is numbered now for the first time (or, when
        references are off, was not being encoded). *)
    Definition fresh_after (v : val) (s s1 : pst) : Prop :=
      p_heap s1 = p_heap s /\ In v (p_objs s1) /\ EvR s s1 /\
      (po_unpicklable o = true -> po_make_refs o = true -> ~ In v (p_objs s)).
    Lemma g_mkref_if {A} s v (Q : A -> Prop) (m m2 : MP A) :
      (forall s1, fresh_after v s s1 -> tw m s1 (fun j _ => Q j)) ->
      (forall s1, EvR s s1 -> In v (p_objs s1) -> po_unpicklable o = true -> po_make_refs o = true -> tw m2 s1 (fun j _ => Q j)) ->
      tw (is_new <- mkref o v ;; if is_new then m else m2) s (fun j _ => Q j).
    Proof.
      intros Hm Hm2. unfold mkref. destruct (log_ref_ev w bal Ck v s) as (b & s1 & E0 & R & I & Hp & Hb).
      unfold twp. rewrite !bind_assoc. rewrite (bind_eq _ _ _ _ _ E0). cbv beta.
      set (nw := negb (po_unpicklable o) || negb (po_make_refs o) || b).
      assert (X : tw (if nw then m else m2) s1 (fun j _ => Q j)).
      { destruct nw eqn:N; unfold nw in N.
        - apply Hm. split; auto. split; auto. split; auto. intros Ou Om. rewrite Ou, Om in N. simpl in N. subst b. apply Hb; auto.
        - apply orb_false_iff in N. destruct N as [N _]. apply orb_false_iff in N. destruct N as [N1 N2].
          apply negb_false_iff in N1, N2. apply Hm2; auto. }
      eapply tw_shift; [exact R|exact X].
    Qed.
    Lemma g_ref_obj s v : (forall s1, fresh_after v s s1 ->
        (po_unpicklable o = false -> prim_json v = None -> is_enum w (p_heap s) v = false -> ~ In v (p_objs s)) -> tw (flatten_object w k o fuel rec v) s1 (fun j _ => D' j)) ->
      tw (ref_obj_instance w k o fuel rec v) s (fun j _ => D' j).
    Proof.
      intros H. unfold ref_obj_instance. bcase (po_unpicklable o) Ou.
      - apply g_mkref_if; [intros s1 Fs; apply H; auto; congruence|]. intros s1 _ I _ Om. apply g_getref; auto.
      - eapply tw_bind with (Q1 := fun _ s1 => s1 = s).
        { unfold max_reached. eapply tw_bind with (Q1 := fun _ s1 => s1 = s); [apply tw_gets; auto|]. intros d s1 _ ->. apply tw_ret. auto. }
        intros mr s1 _ ->. eapply tw_bind; [apply g_in_cycle|]. intros b s1 _ [-> Hcy]. destruct b; [apply tw_ret; auto|].
        unfold mkref. destruct (log_ref_ev w bal Ck v s) as (b & s1 & E0 & R & I & Hp & Hb).
        unfold twp. rewrite !bind_assoc. rewrite (bind_eq _ _ _ _ _ E0). cbv beta.
        assert (X : tw (flatten_object w k o fuel rec v) s1 (fun j _ => D' j)).
        { apply H; [split; auto; split; auto; split; auto; congruence|]. intros _ Hp1 He1. apply (Hcy eq_refl Hp1 He1). auto. }
        eapply tw_shift; [exact R|exact X].
    Qed.
    Definition oD (r : option json) : Prop := match r with Some j => D' j | None => True end.

    (** objects that stay as they are have been numbered and are not enum members *)
    Definition locked_ok (s : pst) : Prop :=
      forall l, ev_lk Ck l -> In (VLoc l) (p_objs s) /\ is_enum w (p_heap s) (VLoc l) = false /\ hget (p_heap s) l <> None.
    Lemma locked_ok_ev s s1 : EvR s s1 -> locked_ok s -> locked_ok s1.
    Proof.
      intros [(He & (x & Ex) & _) _] L l Hl. destruct (L l Hl) as (I & En & Hal). split; [rewrite Ex; apply in_or_app; auto|].
      destruct He as [_ He]. unfold is_enum in *. destruct (hget (p_heap s) l) as [ob|] eqn:G.
      - destruct (He l ob G) as [->|(i & p & -> & _ & _ & ->)]; split; auto; discriminate.
      - contradiction.
    Qed.
    Lemma g_get_flattener s v : (is_enum w (p_heap s) v = false -> po_make_refs o = false -> ~ In v (p_objs s)) -> locked_ok s ->
      RecOK s -> V (p_heap s) v -> (forall xs x, v = VTuple xs -> In x xs -> V (p_heap s) x) ->
      tw (get_flattener w k o fuel rec v) s (fun r _ => oD r).
    Proof.
      intros Cy Lo R Vv Vt. unfold get_flattener.
      assert (X : tw (j <- ref_obj_instance w k o fuel rec v;; ret (Some j)) s (fun r _ => oD r)).
      { eapply tw_bind; [apply g_ref_obj|]. 2: intros j s1 _ Dj; apply tw_ret; exact Dj.
        intros s1 (Hp & I & R1 & N1) N2. apply g_object; [|eapply RecOK_mono; eauto|rewrite Hp; auto].
        intros l i -> _ _ Hl. destruct (Lo l Hl) as (Il & El & _).
        bcase (po_unpicklable o) Ou; [|apply N2; auto]. bcase (po_make_refs o) Om; [apply N1; auto|]. apply Cy; auto. }
      assert (RF : forall s1, In v (p_objs s1) -> po_unpicklable o = true -> po_make_refs o = true ->
                   tw (j <- getref v;; ret (Some j)) s1 (fun r _ => oD r)).
      { intros s1 I Ou Om. eapply tw_bind with (Q1 := fun j _ => D' j); [apply g_getref; auto|].
        intros j s2 _ Dj. apply tw_ret. exact Dj. }
      destruct v; try (apply tw_raise; exact Xu).
      - (* tuple *)
        eapply tw_bind with (Q1 := fun j _ => exists js, j = JList js /\ Forall D js); [apply g_list_recurse; eauto|].
        intros j s1 _ (js & -> & Hjs). apply tw_ret. bcase (po_unpicklable o) Ou; simpl; auto.
      - apply tw_ret. simpl. eauto.
      - destruct (f_modfun (w_fun w f)); [apply tw_ret; simpl; auto|].
        eapply tw_bind; [apply g_warn|]. intros _ s1 _ _. apply tw_ret. exact Logic.I.
      - exact X.
      - eapply tw_bind; [apply g_get_obj|]. intros ob s1 _ [-> G]. destruct ob; try (apply tw_raise; exact Xu).
        + apply g_mkref_if; [|auto]. intros s1 (Hp & I & R1 & _).
          eapply tw_bind with (Q1 := fun j _ => exists js, j = JList js /\ Forall D js).
          * apply g_list_recurse; [eapply RecOK_mono; eauto|]. rewrite Hp. intros x Ix. eapply V_obj; eauto.
          * intros j s2 _ (js & -> & Hjs). apply tw_ret. simpl. auto.
        + eapply tw_bind with (Q1 := fun j _ => exists js, j = JList js /\ Forall D js).
          * apply g_list_recurse; auto. intros x Ix. eapply V_obj; eauto.
          * intros j s1 _ (js & -> & Hjs). apply tw_ret. bcase (po_unpicklable o) Ou; simpl; auto.
        + apply g_mkref_if; [|auto]. intros s1 (Hp & I & R1 & _).
          eapply tw_bind; [apply (g_plain_dict E E1_E); [eapply RecOK_mono; eauto|rewrite Hp; auto|constructor]|].
          intros d1 s2 _ Hd. apply tw_ret. simpl. auto.
        + exact X.
    Qed.

    Lemma py_repr_no_oof v : halts -> py_repr k v <> OOF.
    Proof.
      intros H. destruct (Hret H) as (_ & _ & _ & _ & _ & _ & _ & _ & H1 & _). unfold py_repr. destruct v; try discriminate; auto.
    Qed.
    Lemma py_repr_exc v e : py_repr k v = Exc e -> Xk e.
    Proof.
      destruct Hxk as (_ & _ & _ & _ & _ & _ & _ & _ & H1 & _). unfold py_repr. destruct v; try discriminate; apply H1.
    Qed.
    Lemma g_flatten_obj s v :
      (forall f e j, po_fail_safe o = Some f -> f e = Ret j -> D' j) ->
      (forall f e, po_fail_safe o = Some f -> halts -> f e <> OOF) ->
      (forall f e e2, po_fail_safe o = Some f -> f e = Exc e2 -> Xk e2) ->
      (forall f e, po_fail_safe o = Some f -> is_Exception e = true -> caught e = true) ->
      (prim_json v = None) ->
      ((is_enum w (p_heap s) v = false -> po_make_refs o = false -> ~ In v (p_objs s)) ->
       tw (get_flattener w k o fuel rec v) s (fun r _ => oD r)) ->
      tw (flatten_obj w k o fuel rec v) s (fun j _ => D' j).
    Proof.
      intros Hf Hfo Hfx Hfc Hp H. unfold flatten_obj. eapply tw_bind with (Q1 := fun _ s1 => s1 = s).
      { unfold max_reached. eapply tw_bind with (Q1 := fun _ s1 => s1 = s); [apply tw_gets; auto|]. intros d s1 _ ->. apply tw_ret. auto. }
      intros mr s1 _ ->.
      assert (X : tw (cyc <- in_cycle w v mr (po_make_refs o);;
         (if cyc then s0 <- lift (py_repr k v);; ret (JStr s0)
          else r <- get_flattener w k o fuel rec v;;
               match r with Some j => ret j | None => pickle_warning o v;;; ret JNull end)) s (fun j _ => D' j)).
      { eapply tw_bind; [apply g_in_cycle|]. intros b s1 _ [-> Hb]. destruct b.
        - eapply tw_bind with (Q1 := fun x _ => py_repr k v = Ret x); [apply tw_lift; auto; [apply py_repr_no_oof|apply py_repr_exc]|].
          intros x s1 _ Hx. apply tw_ret. eauto.
        - eapply tw_bind; [apply H|].
          + intros He. apply (Hb eq_refl Hp He).
          + intros [j|] s1 _ Hr; [apply tw_ret; exact Hr|]. eapply tw_bind; [apply g_warn|]. intros _ s2 _ _. apply tw_ret. auto. }
      revert X. match goal with |- twp _ _ _ _ _ ?m _ _ -> _ => generalize m end. intros m X.
      unfold twp, catch. unfold twp in X. destruct (m s) as [[j|e|] s1]; auto.
      destruct (is_Exception e) eqn:Ex; auto. destruct (po_fail_safe o) as [f|] eqn:F; [|exact X].
      unfold lift. destruct (f e) as [j|e2|] eqn:Fe.
      - split; [|eauto]. destruct X as [[Xw Xb] _]. split; auto. apply Xb; eauto.
      - destruct X as [[Xw Xb] _]. split; [|eauto]. split; auto. intros _. apply Xb; eauto.
      - intros h. apply (Hfo f e); auto.
    Qed.
  End step.
End gen.
Lemma hooks_raise_any w k o : hooks_raise w k o (fun _ => True).
Proof. repeat split; intros; auto. Qed.
