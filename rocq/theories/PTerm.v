(** Termination of the encoder on finite object graphs. *)
From Verif Require Import PyStr Tags Json JsonText B64 B85 Base Heap Registry Pickler PGen.
Open Scope nat_scope.
Local Open Scope monad_scope.

(** Nesting of tuples, and locations of a value below n. *)
Fixpoint vdepth (v : val) : nat :=
  match v with
  | VTuple l => S (fold_right (fun x n => Nat.max (vdepth x) n) 0 l)
  | _ => 1
  end.
Fixpoint in_range (n : nat) (v : val) : bool :=
  match v with
  | VTuple l => forallb (in_range n) l
  | VLoc l => Nat.ltb l n
  | _ => true
  end.
Lemma vdepth_in x l : In x l -> vdepth x < vdepth (VTuple l).
Proof.
  cbn [vdepth]. intros I. apply Nat.lt_succ_r. induction l as [|y l IH]; [destruct I|]. cbn [fold_right].
  destruct I as [->|I]; [lia|]. specialize (IH I). lia.
Qed.

(** A finite object graph: values stored in objects and answers of user code refer to
    objects of the heap and nest tuples at most dm deep; members of sets are hashable;
    iterators end after at most N items (or max_iter is at most N); user code returns;
    handlers do not reset the pickler. *)
Definition good (h : heap) (dm : nat) (v : val) : Prop := in_range (length h) v = true /\ vdepth v <= dm.
Fixpoint script_fin (h : heap) (dm : nat) (sc : fscript) : Prop :=
  match sc with
  | FDone _ | FRaise _ => True
  | FFlatten reset v kk => reset = false /\ good h dm v /\ forall j, script_fin h dm (kk j)
  end.
Record finite_graph (w : world) (k : hooks) (o : popts) (h : heap) (dm N : nat) : Prop := {
  fg_heap : forall l ob x, hget h l = Some ob -> In x (obj_vals ob) -> good h dm x;
  fg_sets : forall l xs, hget h l = Some (OSet xs) -> forallb (hashable (w_cls w) h) xs = true;
  fg_newargs_ex : forall l x, k_newargs_ex k l = Ret x -> Forall (good h dm) x;
  fg_newargs : forall l x, k_newargs k l = Ret x -> good h dm x;
  fg_initargs : forall l x, k_initargs k l = Ret x -> good h dm x;
  fg_getstate : forall l x, k_getstate k l = Ret x -> good h dm x;
  fg_reduce : forall l x, k_reduce k l = Ret (RTup x) -> Forall (good h dm) x;
  fg_iter : forall l p x, k_iter k l p = Ret (Some x) -> good h dm x;
  fg_attr : forall l a x, k_attr k l a = Ret x -> good h dm x;
  fg_call0 : forall f x, k_call0 k f = Ret x -> good h dm x;
  fg_getattr : forall m a x, w_getattr w m a = Ret x -> good h dm x;
  fg_ret : hooks_return w k;
  fg_ends : (forall l p x, N <= p -> k_iter k l p <> Ret (Some x)) \/ (exists m, po_max_iter o = Some m /\ m <= N);
  fg_scripts : forall hd ctx l ob, script_fin h dm (w_hflat w hd ctx l ob);
  fg_fail_safe : forall f e, po_fail_safe o = Some f -> f e <> OOF
}.

Section term.
  Variables (w : world) (k : hooks) (o : popts) (h : heap) (dm N : nat).
  Notation cls := (w_cls w).
  Hypothesis Or : po_readonly o = false.
  Hypothesis Os : po_sort o = false.
  Hypothesis Refs : (po_unpicklable o = true /\ po_make_refs o = true) \/
                    (po_make_refs o = false /\ forall c, c_enum (cls c) = false).
  Hypothesis FG : finite_graph w k o h dm N.
  Hypothesis dm1 : 1 <= dm.

  Definition fresh_dict (hp : heap) (v : val) : Prop :=
    exists l its, v = VLoc l /\ length h <= l /\ hget hp l = Some (ODict its) /\
      forall kv, In kv its -> good h dm (fst kv) /\ good h dm (snd kv).
  Definition V (hp : heap) (v : val) : Prop := good h dm v \/ fresh_dict hp v.

  Lemma hev_old hp l ob : hev cls h hp -> l < length h -> hget hp l = Some ob ->
    exists ob0, hget h l = Some ob0 /\ obj_vals ob0 = obj_vals ob /\
      ((forall i, ob0 <> OInst i) -> ob = ob0).
  Proof.
    intros Hv L G. destruct (hget h l) as [ob0|] eqn:G0.
    - exists ob0. split; auto. destruct Hv as [_ Hv]. destruct (Hv l ob0 G0) as [G1|(i & p & -> & _ & _ & G1)].
      + rewrite G in G1. inversion G1; subst. auto.
      + rewrite G in G1. inversion G1; subst. split; [reflexivity|]. intros C. destruct (C i); auto.
    - exfalso. apply nth_error_None in G0. unfold loc in *. lia.
  Qed.
  Lemma good_loc l : good h dm (VLoc l) -> l < length h.
  Proof. intros [G _]. apply Nat.ltb_lt in G. auto. Qed.
  Lemma good_atom v : (forall l, v <> VTuple l) -> (forall l, v <> VLoc l) -> good h dm v.
  Proof. intros H1 H2. split; destruct v; simpl; auto; try (destruct (H1 l); auto); destruct (H2 l); auto. Qed.
  Lemma V_heap' hp l ob x : hev cls h hp -> V hp (VLoc l) -> hget hp l = Some ob -> In x (obj_vals ob) -> V hp x.
  Proof.
    intros Hv [Gl|(l' & its & E & L & Gd & Hd)] G I; left.
    - destruct (hev_old hp l ob Hv (good_loc l Gl) G) as (ob0 & G0 & E0 & _). rewrite <- E0 in I. eapply (fg_heap _ _ _ _ _ _ FG); eauto.
    - inversion E; subst l'. rewrite G in Gd. inversion Gd; subst ob. simpl in I. apply in_app_or in I.
      destruct I as [I|I]; apply in_map_iff in I; destruct I as (kv & <- & I); apply Hd; auto.
  Qed.
  Lemma V_fresh' hp l its0 its : hev cls h hp -> V hp (VLoc l) -> hget hp l = Some (ODict its0) -> incl its its0 ->
    V (hp ++ [ODict its]) (VLoc (length hp)).
  Proof.
    intros Hv Vl G In0. right. exists (length hp), its. split; auto. split; [apply Hv|]. split; [apply hget_app_new|].
    intros kv I. apply In0 in I. destruct Vl as [Gl|(l' & its' & E & L & Gd & Hd)].
    - destruct (hev_old hp l _ Hv (good_loc l Gl) G) as (ob0 & G0 & E0 & _).
      split; eapply (fg_heap _ _ _ _ _ _ FG); eauto; rewrite E0; simpl; apply in_or_app; [left|right]; apply in_map; auto.
    - inversion E; subst l'. rewrite G in Gd. inversion Gd; subst its'. auto.
  Qed.
  Lemma fresh_mono hp hp' v : hev cls hp hp' -> fresh_dict hp v -> fresh_dict hp' v.
  Proof.
    intros Hv (l & its & -> & L & G & Hd). exists l, its. repeat split; auto; try apply Hd; auto.
    eapply hev_get; eauto. discriminate.
  Qed.
  Lemma V_mono' hp hp' v : hev cls h hp -> hev cls hp hp' -> V hp v -> V hp' v.
  Proof. intros _ Hv [G|F]; [left; auto|right; eapply fresh_mono; eauto]. Qed.

  (** Objects of the graph that have not been numbered yet. *)
  Definition unseen (s : pst) : nat :=
    length (filter (fun l => negb (existsb (val_eqb (VLoc l)) (p_objs s))) (seq 0 (length h))).
  Lemma filter_le {A} (f g : A -> bool) l : (forall x, f x = true -> g x = true) -> length (filter f l) <= length (filter g l).
  Proof.
    intros H. induction l as [|x l IH]; simpl; auto. destruct (f x) eqn:F; [rewrite (H x F); simpl; lia|].
    destruct (g x); simpl; lia.
  Qed.
  Lemma filter_lt {A} (f g : A -> bool) l x : (forall x, f x = true -> g x = true) -> In x l -> f x = false -> g x = true ->
    length (filter f l) < length (filter g l).
  Proof.
    intros H I Fx Gx. induction l as [|y l IH]; simpl; [destruct I|]. destruct I as [->|I].
    - rewrite Fx, Gx. simpl. pose proof (filter_le f g l H). lia.
    - specialize (IH I). destruct (f y) eqn:F; [rewrite (H y F); simpl; lia|]. destruct (g y); simpl; lia.
  Qed.
  Lemma unseen_mono s s1 x : p_objs s1 = p_objs s ++ x -> unseen s1 <= unseen s.
  Proof.
    intros E. unfold unseen. rewrite E. apply filter_le. intros l. rewrite existsb_app, negb_orb. intros H.
    apply andb_true_iff in H. tauto.
  Qed.
  Lemma existsb_val_In v l : existsb (val_eqb v) l = true <-> In v l.
  Proof.
    rewrite existsb_exists. split.
    - intros (x & I & E). apply val_eqb_eq in E. subst. auto.
    - intros I. exists v. split; auto. apply val_eqb_refl.
  Qed.
  Lemma unseen_dec s s1 x l : p_objs s1 = p_objs s ++ x -> l < length h -> ~ In (VLoc l) (p_objs s) -> In (VLoc l) (p_objs s1) ->
    unseen s1 < unseen s.
  Proof.
    intros E L N1 I. unfold unseen. apply (filter_lt _ _ _ l).
    - intros y. rewrite E, existsb_app, negb_orb. intros H. apply andb_true_iff in H. tauto.
    - apply in_seq. lia.
    - apply negb_false_iff, existsb_val_In. auto.
    - apply negb_true_iff. destruct (existsb _ _) eqn:X; auto. apply existsb_val_In in X. contradiction.
  Qed.

  Notation Tr := (fun _ : json => True).
  Notation Tr2 := (fun (_ : pystr) (_ : json) => True).
  Notation tw := (twp w False (fun _ => true) (plain (fun _ => True)) True).
  Notation EvR := (EvR w False (plain (fun _ => True))).

  Definition KK := 2 * dm + 4 + N.
  (** Fuel that is enough for a value. *)
  Definition enough (n : nat) (s : pst) (v : val) : Prop :=
    (good h dm v /\ hashable cls h v = true /\ KK * unseen s + vdepth v < n) \/
    (good h dm v /\ KK * unseen s + vdepth v + dm + 1 < n) \/
    (fresh_dict (p_heap s) v /\ KK * unseen s + 2 * dm + 2 < n).
  Definition T (n : nat) : Prop := forall v s, hev cls h (p_heap s) -> (0 <= p_depth s)%Z -> enough n s v ->
    tw (flatten w k o n v) s (fun _ _ => True).

  Lemma script_fin_ok sc : script_fin h dm sc -> script_ok (plain (fun _ => True)) (good h dm) Tr Tr sc.
  Proof.
    induction sc as [[j|]|e|r v kk IH]; simpl; auto. intros (-> & G & H). split; auto.
  Qed.

  Lemma unseen_ev s s1 : EvR s s1 -> unseen s1 <= unseen s.
  Proof. intros [(_ & (x & E) & _) _]. eapply unseen_mono; eauto. Qed.

  Section level.
    Variable n : nat.
    Hypothesis IH : T n.
    (** with room for any value *)
    Lemma rec_any s : hev cls h (p_heap s) -> (0 <= p_depth s)%Z -> KK * unseen s + 2 * dm + 2 < n ->
      RecOK w False (fun _ => true) (plain (fun _ => True)) True h V Tr (flatten w k o n) s.
    Proof.
      intros Hv D0 F. split; auto. intros v s1 R1 Vv.
      pose proof (unseen_ev s s1 R1) as U. pose proof R1 as [(Hv1 & _ & D1 & _) _].
      eapply tw_mono; [apply (IH v s1)|auto].
      - eapply hev_trans; eauto.
      - lia.
      - assert (KK * unseen s1 <= KK * unseen s) by (apply Nat.mul_le_mono_l; auto).
        destruct Vv as [G|Fr]; [right; left; split; auto; destruct G; lia|right; right; split; auto; lia].
    Qed.
    (** with room for stored values *)
    Lemma rec_good s : hev cls h (p_heap s) -> (0 <= p_depth s)%Z -> KK * unseen s + 2 * dm + 1 < n ->
      RecOK w False (fun _ => true) (plain (fun _ => True)) True h (fun _ v => good h dm v) Tr (flatten w k o n) s.
    Proof.
      intros Hv D0 F. split; auto. intros v s1 R1 Vv.
      pose proof (unseen_ev s s1 R1) as U. pose proof R1 as [(Hv1 & _ & D1 & _) _].
      eapply tw_mono; [apply (IH v s1)|auto].
      - eapply hev_trans; eauto.
      - lia.
      - assert (KK * unseen s1 <= KK * unseen s) by (apply Nat.mul_le_mono_l; auto).
        right; left; split; auto; destruct Vv; lia.
    Qed.

    Ltac fg := pose proof FG as []; eauto.
    Ltac side := try (intros; exact Logic.I);
      first [exact Or | exact Os | exact V_heap' | exact V_fresh' | exact V_mono'
            | (intros; left; apply good_atom; congruence)
            | (intros ? ? _ ?; left; assumption)
            | exact (fg_newargs_ex _ _ _ _ _ _ FG) | exact (fg_newargs _ _ _ _ _ _ FG) | exact (fg_initargs _ _ _ _ _ _ FG)
            | exact (fg_getstate _ _ _ _ _ _ FG) | exact (fg_reduce _ _ _ _ _ _ FG) | exact (fg_iter _ _ _ _ _ _ FG)
            | exact (fg_attr _ _ _ _ _ _ FG) | exact (fg_call0 _ _ _ _ _ _ FG) | (intros _; exact (fg_getattr _ _ _ _ _ _ FG))
            | (intros _; exact (fg_ret _ _ _ _ _ _ FG)) | exact (hooks_raise_any w k o)
            | (intros; reflexivity)
            | (intros; apply script_fin_ok; apply (fg_scripts _ _ _ _ _ _ FG))
            | idtac].

    Lemma t_instance s l : hev cls h (p_heap s) -> (0 <= p_depth s)%Z -> KK * unseen s + 2 * dm + 2 < n -> N < n -> good h dm (VLoc l) ->
      tw (flatten_obj_instance w k o n (flatten w k o n) l) s (fun _ _ => True).
    Proof.
      intros Hv D0 F FN G.
      apply (g_instance w k o False (fun _ => true) (plain (fun _ => True)) True h) with
        (V := V) (Vq := good h dm) (Vc := fun _ => True) (D := Tr) (D' := Tr) (E1 := Tr2) (E := Tr2); side.
      - intros _. destruct (fg_ends _ _ _ _ _ _ FG) as [H|(m & E & L)]; [left; exists N; auto|right; exists m; split; auto; lia].
      - intros i _ _ [].
      - apply rec_any; auto.
      - left. auto.
    Qed.
    Lemma t_mod s m : tw (ref_obj_instance w k o n (flatten w k o n) (VMod m)) s (fun _ _ => True).
    Proof.
      apply (g_ref_obj w k o False (fun _ => true) (plain (fun _ => True)) True) with (D' := Tr); side.
      intros s1 _ _. cbn [flatten_object]. unfold flatten_module. bcase (po_unpicklable o) Ou; [apply tw_ret; auto|].
      eapply tw_bind with (Q1 := fun _ _ => True).
      - apply tw_lift; auto; [|intros; exact Logic.I]. intros _. apply (fg_ret _ _ _ _ _ _ FG).
      - intros x s2 _ _. apply tw_ret. auto.
    Qed.
    Lemma t_items s its : hev cls h (p_heap s) -> (0 <= p_depth s)%Z -> KK * unseen s + 2 * dm + 1 < n ->
      (forall kv, In kv its -> good h dm (fst kv) /\ good h dm (snd kv)) ->
      tw (flatten_items w k o (flatten w k o n) its [] []) s (fun _ _ => True).
    Proof.
      intros Hv D0 F H.
      eapply tw_mono; [apply (g_items w k o False (fun _ => true) (plain (fun _ => True)) True h) with
        (V := fun _ v => good h dm v) (D := Tr) (E1 := Tr2) (P := Tr2); side|auto].
      - auto.
      - apply rec_good; auto.
      - exact H.
    Qed.
    Lemma t_list s xs : (forall x s1, In x xs -> EvR s s1 -> tw (flatten w k o n x) s1 (fun _ _ => True)) ->
      tw (list_recurse (flatten w k o n) xs) s (fun _ _ => True).
    Proof.
      intros H. unfold list_recurse. eapply tw_bind with (Q1 := fun _ _ => True); [|intros; apply tw_ret; auto].
      revert s H. induction xs as [|x xs IHx]; intros s H; [apply tw_ret; auto|].
      cbn [mapM]. eapply tw_bind; [apply (H x s); [left; auto|apply EvR_refl]|]. intros j s1 R1 _.
      eapply tw_bind; [apply IHx|].
      - intros y s2 I R2. apply H; [right; auto|]. eapply EvR_trans; eauto.
      - intros js s2 _ _. apply tw_ret. auto.
    Qed.

    Lemma t_warn s v : tw (pickle_warning o v) s (fun _ _ => True).
    Proof.
      unfold pickle_warning. destruct (po_warn o); [|apply tw_ret; auto]. apply tw_modify; auto.
      split; [|apply depth_same; auto]. split; [apply hev_refl|]. split; [exists []; rewrite app_nil_r; auto|]. split; [simpl; lia|auto].
    Qed.
    Lemma t_flattener s v : hev cls h (p_heap s) -> (0 <= p_depth s)%Z -> enough (S n) s v ->
      (is_enum w (p_heap s) v = false -> po_make_refs o = false -> ~ In v (p_objs s)) ->
      tw (get_flattener w k o n (flatten w k o n) v) s (fun _ _ => True).
    Proof.
      intros Hv D0 En Cy. unfold get_flattener.
      assert (HG : fresh_dict (p_heap s) v \/ good h dm v) by (destruct En as [(G & _)|[(G & _)|(G & _)]]; auto).
      assert (U : forall s1 l, v = VLoc l -> good h dm v -> is_enum w (p_heap s) v = false \/ po_make_refs o = true -> fresh_after w o False (plain (fun _ => True)) v s s1 ->
               hev cls h (p_heap s1) /\ (0 <= p_depth s1)%Z /\ KK * unseen s1 + 2 * dm + 2 < n /\ N < n).
      { intros s1 l -> G Hen (Hp & I & R1 & Nu).
        assert (Lt : unseen s1 < unseen s).
        { pose proof R1 as [(_ & (x & Ex) & _) _]. apply (unseen_dec s s1 x l); auto; [apply good_loc; auto|].
          destruct Refs as [[Ou Om]|[Om _]]; [auto|]. apply Cy; auto. destruct Hen as [Hen|Hen]; auto; congruence. }
        pose proof R1 as [(Hv1 & _ & D1 & _) _].
        assert (KK * unseen s1 + KK <= KK * unseen s).
        { replace (KK * unseen s1 + KK) with (KK * (S (unseen s1))) by lia. apply Nat.mul_le_mono_l. lia. }
        split; [rewrite Hp; auto|]. split; [lia|]. assert (KKe : KK = 2 * dm + 4 + N) by reflexivity.
        pose proof (Nat.le_0_l (KK * unseen s1)) as P1.
        destruct En as [(_ & _ & F)|[(_ & F)|(Fr & _)]].
        - cbn [vdepth] in F. lia.
        - cbn [vdepth] in F. lia.
        - destruct Fr as (l' & its & E & L & _). inversion E; subst l'. apply good_loc in G. lia. }
      assert (RF : forall s1, In v (p_objs s1) -> tw (j <- getref v;; ret (Some j)) s1 (fun _ _ => True)).
      { intros s1 I. eapply tw_bind with (Q1 := fun j _ => True); [|intros; apply tw_ret; auto].
        unfold getref. eapply tw_bind with (Q1 := fun _ s2 => s2 = s1); [apply tw_gets; auto|]. intros x s2 _ ->.
        apply tw_ret. auto. }
      destruct v; try (apply tw_raise; exact Logic.I).
      - (* tuple *)
        eapply tw_bind; [apply t_list|intros; apply tw_ret; auto].
        intros x s1 I R1. pose proof R1 as [(Hv1 & _ & D1 & _) _]. pose proof (unseen_ev _ _ R1) as Un.
        assert (KK * unseen s1 <= KK * unseen s) by (apply Nat.mul_le_mono_l; auto).
        pose proof (vdepth_in x l I) as Vd.
        assert (Gx : good h dm (VTuple l) -> good h dm x).
        { intros [G1 G2]. split; [|lia]. cbn [in_range] in G1. rewrite forallb_forall in G1. auto. }
        apply IH; [eapply hev_trans; eauto|lia|].
        destruct En as [(G & Hh & F)|[(G & F)|((l' & its & E & _) & _)]]; [| |discriminate].
        + left. split; auto. split; [|lia]. cbn [hashable] in Hh. rewrite forallb_forall in Hh. auto.
        + right. left. split; auto. lia.
      - apply tw_ret. auto.
      - destruct (f_modfun (w_fun w f)); [apply tw_ret; auto|].
        eapply tw_bind; [apply t_warn|]. intros _ s1 _ _. apply tw_ret. auto.
      - eapply tw_bind; [apply t_mod|]. intros; apply tw_ret; auto.
      - rename l into l0. eapply tw_bind; [apply g_get_obj; exact Logic.I|]. intros ob s1 _ [-> G].
        destruct HG as [Fr|Gd].
        { (* a fresh state dict *)
          destruct Fr as (l & its & E & L & Gl & Hd). inversion E; subst l0. rewrite G in Gl. inversion Gl; subst ob.
          apply (g_mkref_if w o False (fun _ => true) (plain (fun _ => True)) True s (VLoc l) (fun _ => True)); auto.
          intros s1 (Hp & I & R1 & _).
          assert (F : KK * unseen s + 2 * dm + 2 < S n).
          { destruct En as [(G1 & _)|[(G1 & _)|(_ & F)]]; auto; apply good_loc in G1; lia. }
          pose proof R1 as [(Hv1 & _ & D1 & _) _]. pose proof (unseen_ev _ _ R1) as Un.
          assert (KK * unseen s1 <= KK * unseen s) by (apply Nat.mul_le_mono_l; auto).
          eapply tw_bind with (Q1 := fun _ _ => True); [|intros; apply tw_ret; auto].
          unfold flatten_plain_dict. eapply tw_bind; [apply g_get_obj; exact Logic.I|]. intros ob s2 _ [-> G2]. rewrite Hp, G in G2.
          inversion G2; subst ob. cbv beta iota. apply t_items; auto; [rewrite Hp; auto|lia|lia]. }
        destruct ob; try (apply tw_raise; exact Logic.I).
        + apply (g_mkref_if w o False (fun _ => true) (plain (fun _ => True)) True s (VLoc l0) (fun _ => True)); auto.
          intros s1 Fa. assert (Hen : is_enum w (p_heap s) (VLoc l0) = false) by (unfold is_enum; rewrite G; auto).
          destruct (U s1 l0 eq_refl Gd (or_introl Hen) Fa) as (Hv1 & D1 & F1 & _).
          eapply tw_bind; [apply t_list|intros; apply tw_ret; auto].
          intros x s2 Ix R2. pose proof R2 as [(Hv2 & _ & D2 & _) _]. pose proof (unseen_ev _ _ R2) as Un.
          assert (KK * unseen s2 <= KK * unseen s1) by (apply Nat.mul_le_mono_l; auto).
          apply IH; [eapply hev_trans; eauto|lia|].
          assert (V (p_heap s) x) by (eapply V_heap'; eauto; left; auto).
          destruct H0 as [Gx|Fx]; [right; left; split; auto; destruct Gx; lia|right; right; split; [|lia]].
          eapply fresh_mono; [|exact Fx]. destruct Fa as (Hp & _). rewrite <- Hp. auto.
        + (* set *)
          eapply tw_bind; [apply t_list|intros; apply tw_ret; auto].
          intros x s1 Ix R1. pose proof R1 as [(Hv1 & _ & D1 & _) _]. pose proof (unseen_ev _ _ R1) as Un.
          assert (KK * unseen s1 <= KK * unseen s) by (apply Nat.mul_le_mono_l; auto).
          destruct (hev_old _ _ _ Hv (good_loc _ Gd) G) as (ob0 & G0 & E0 & E1).
          assert (ob0 = OSet l).
          { destruct ob0; try (symmetry; apply E1; discriminate).
            destruct Hv as [_ Hv]. destruct (Hv _ _ G0) as [G1|(i1 & p & _ & _ & _ & G1)]; rewrite G in G1; discriminate. }
          subst ob0. apply IH; [eapply hev_trans; eauto|lia|]. left. split; [|split].
          * eapply (fg_heap _ _ _ _ _ _ FG); eauto.
          * pose proof (fg_sets _ _ _ _ _ _ FG _ _ G0) as Hs. rewrite forallb_forall in Hs. auto.
          * assert (vdepth x <= dm) by (eapply (fg_heap _ _ _ _ _ _ FG); eauto).
            destruct En as [(_ & Hh & _)|[(_ & F)|(Fr & _)]].
            -- cbn [hashable] in Hh. rewrite G0 in Hh. discriminate.
            -- cbn [vdepth] in F. lia.
            -- destruct Fr as (l' & its & E & L & _). inversion E; subst l'. apply good_loc in Gd. lia.
        + apply (g_mkref_if w o False (fun _ => true) (plain (fun _ => True)) True s (VLoc l0) (fun _ => True)); auto.
          intros s1 Fa. assert (Hen : is_enum w (p_heap s) (VLoc l0) = false) by (unfold is_enum; rewrite G; auto).
          destruct (U s1 l0 eq_refl Gd (or_introl Hen) Fa) as (Hv1 & D1 & F1 & _). destruct Fa as (Hp & _).
          eapply tw_bind with (Q1 := fun _ _ => True); [|intros; apply tw_ret; auto].
          unfold flatten_plain_dict. eapply tw_bind; [apply g_get_obj; exact Logic.I|]. intros ob s2 _ [-> G2]. rewrite Hp, G in G2.
          inversion G2; subst ob. cbv beta iota. apply t_items; auto; [lia|].
          destruct (hev_old _ _ _ Hv (good_loc _ Gd) G) as (ob0 & G0 & E0 & _).
          intros kv I. split; eapply (fg_heap _ _ _ _ _ _ FG); eauto; rewrite E0; simpl; apply in_or_app; [left|right]; apply in_map; auto.
        + eapply tw_bind; [|intros; apply tw_ret; auto].
          apply (g_ref_obj w k o False (fun _ => true) (plain (fun _ => True)) True) with (D' := Tr); side.
          intros s1 Fa _. cbn [flatten_object].
          assert (Hen : is_enum w (p_heap s) (VLoc l0) = false \/ po_make_refs o = true).
          { destruct Refs as [[_ Om]|[_ He]]; auto. left. unfold is_enum. rewrite G. apply He. }
          destruct (U s1 l0 eq_refl Gd Hen Fa) as (Hv1 & D1 & F1 & FN). apply t_instance; auto.
    Qed.

    Lemma t_obj s v : hev cls h (p_heap s) -> (0 <= p_depth s)%Z -> enough (S n) s v -> prim_json v = None ->
      tw (flatten_obj w k o n (flatten w k o n) v) s (fun _ _ => True).
    Proof.
      intros Hv D0 En Hp.
      apply (g_flatten_obj w k o False (fun _ => true) (plain (fun _ => True)) True h) with
        (V := V) (Vq := good h dm) (Vc := fun _ => True) (D := Tr) (D' := Tr) (E1 := Tr2) (E := Tr2); side.
      - intros f e Ef _. eapply (fg_fail_safe _ _ _ _ _ _ FG); eauto.
      - exact Hp.
      - intros Cy. eapply tw_mono; [apply t_flattener; auto|]. intros [j|] _ _; simpl; auto.
    Qed.
  End level.

  Lemma enough_depth n s v d : enough n s v -> enough n (set_depth d s) v.
  Proof. unfold enough, unseen. cbn [set_depth p_objs p_heap]. auto. Qed.

  Lemma t_step n : T n -> T (S n).
  Proof.
    intros IH v s Hv D0 En. cbn [flatten]. unfold flatten_step.
    assert (Im : tw (flatten_impl w k o n (flatten w k o n) v) s (fun _ _ => True)).
    { assert (L : prim_json v = None -> tw (push;;; j <- flatten_obj w k o n (flatten w k o n) v;; pop j) s (fun _ _ => True)).
      { intros Hp. apply tw_level with (Q := fun _ => True); auto; [|intros []].
        apply t_obj; auto; try (simpl; lia); apply enough_depth; auto. }
      unfold flatten_impl. eapply tw_bind with (Q1 := fun x s1 => x = p_heap s /\ s1 = s); [apply tw_gets; auto|].
      intros x s1 _ [-> ->].
      destruct v; cbn [prim_json] in *; try (apply tw_ret; auto; fail); try (apply L; auto; fail).
      destruct (hget (p_heap s) l) as [[]|]; try (apply L; auto; fail). apply tw_ret. auto. }
    destruct (po_unpicklable o && po_make_refs o); auto.
    eapply tw_bind with (Q1 := fun _ s1 => s1 = s); [apply tw_gets; auto|]. intros c s1 _ ->.
    destruct (cache_get v c); [apply tw_ret; auto|]. eapply tw_bind; [exact Im|]. intros j s1 _ _.
    eapply tw_bind with (Q1 := fun _ _ => True); [|intros; apply tw_ret; auto]. apply tw_modify; auto.
    split; [|apply depth_same; auto]. split; [apply hev_refl|]. split; [exists []; rewrite app_nil_r; auto|]. split; [simpl; lia|].
    split; [|auto]. intros _. apply Forall_forall. simpl. auto.
  Qed.
  Lemma t_all n : T n.
  Proof.
    induction n as [|n IH]; [|apply t_step; auto]. intros v s Hv D0 [(_ & _ & F)|[(_ & F)|(_ & F)]]; lia.
  Qed.

  (** The whole call: the pickler's depth is -1 at first, and the outermost pop resets it. *)
  Definition budget := KK * length h + 2 * dm + 3.
  Lemma filter_len {A} (f : A -> bool) l : length (filter f l) <= length l.
  Proof. induction l; simpl; auto. destruct (f a); simpl; lia. Qed.
  Lemma pickle_ends n v s : p_heap s = h -> good h dm v -> budget < n ->
    fst (pickle w k o n true v s) <> OOF.
  Proof.
    intros Hh G B. destruct n as [|n]; [lia|]. unfold pickle, pflatten. unfold bind at 1. unfold p_reset, modify.
    cbv beta iota. rewrite Os. unfold bind at 1, ret at 1. cbv beta iota.
    set (s0 := mkPst (p_heap s) [] (-1)%Z [] (p_warned s)).
    change (fst (flatten w k o (S n) v s0) <> OOF).
    assert (Hs : p_heap s0 = h) by exact Hh.
    assert (U : unseen s0 <= length h).
    { unfold unseen. etransitivity; [apply filter_len|]. rewrite seq_length. lia. }
    assert (En : enough (S n) (set_depth 0%Z s0) v).
    { apply enough_depth. right. left. split; auto. unfold budget in B. destruct G as [_ G].
      assert (KK * unseen s0 <= KK * length h) by (apply Nat.mul_le_mono_l; auto). lia. }
    assert (Im : fst (flatten_impl w k o n (flatten w k o n) v s0) <> OOF).
    { assert (L : prim_json v = None -> fst ((push;;; j <- flatten_obj w k o n (flatten w k o n) v;; pop j) s0) <> OOF).
      { intros Hp. pose proof (t_obj n (t_all n) (set_depth 0%Z s0) v) as X. cbn [set_depth p_heap p_depth] in X.
        rewrite Hs in X. specialize (X (hev_refl _ _) (Z.le_refl _) En Hp). unfold twp in X.
        unfold push, bind, modify. cbv beta iota.
        change (p_depth s0 + 1)%Z with 0%Z. fold (set_depth 0%Z s0) in *.
        destruct (flatten_obj w k o n (flatten w k o n) v (set_depth 0%Z s0)) as [[j|e|] s1]; [|discriminate|tauto].
        unfold pop, bind, modify, ret. cbv beta iota. destruct (_ =? _)%Z; discriminate. }
      unfold flatten_impl, bind, gets. cbv beta iota. destruct v; cbn [prim_json] in *; try discriminate; try (apply L; auto; fail).
      destruct (hget (p_heap s0) l) as [[]|]; try (apply L; auto; fail). discriminate. }
    cbn [flatten]. unfold flatten_step. destruct (po_unpicklable o && po_make_refs o); auto.
    unfold bind at 1, gets. cbv beta iota. cbn [s0 p_cache cache_get].
    unfold bind. destruct (flatten_impl w k o n (flatten w k o n) v s0) as [[j|e|] s1]; [|discriminate|destruct Im; auto].
    unfold modify, ret. discriminate.
  Qed.
  Theorem encode_ends n v s : p_heap s = h -> good h dm v -> budget < n ->
    fst (encode w k o n v s) <> OOF.
  Proof.
    intros Hh G B. pose proof (pickle_ends n v s Hh G B) as X. unfold encode, bind.
    destruct (pickle w k o n true v s) as [[j|e|] s1]; [discriminate|discriminate|destruct X; auto].
  Qed.
End term.
