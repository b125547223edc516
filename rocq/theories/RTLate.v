(** Round trip, part 11: instances that the decoder makes only after everything encoded for
    them is restored: handlers, [__reduce__], tuple subclasses. *)
From Coq Require Import Permutation.
From Verif Require Import PyStr Tags Json JsonText JsonTextProofs B64 B85 Base Heap Registry LoadClass Pickler Unpickler SpecJson SpecGraph.
From Verif Require Import CodecProofs PlainProofs WP RTBase RTStep RTPure RTDesc SpecRefs RTWalk RTCont RTOrder RTKinds RTInst RTObj RTShapes.
Open Scope nat_scope.
Local Open Scope monad_scope.

Section late.
  Variables (w : world) (k : hooks) (keys : bool) (cl : list (pystr * val)) (h : heap) (bs : nat) (po : popts) (uo : uopts).
  Notation cls := (w_cls w).
  Notation shape := (shape w k keys cl h).
  Notation reach := (reach w k keys cl h).
  Notation sub := (sub w k keys cl h).
  Notation supported := (supported w k keys cl h).
  Notation Inv := (Inv cl h bs).
  Notation front := (front w k keys cl h bs).
  Notation adv := (adv w k keys cl h bs).
  Notation head_ok := (head_ok h).
  Notation pdoc := (pdoc w po).
  Notation desc := (desc w k keys cl h po).
  Notation delivers := (delivers w k keys cl h bs po uo).
  Notation PP := (PP w k keys cl h bs po uo).
  Notation vm s t := (vmatch h (u_heap t) bs (rel s t)).

  Hypothesis Ou : po_unpicklable po = true.
  Hypothesis Or : po_make_refs po = true.
  Hypothesis Od : po_max_depth po = None.
  Hypothesis Op : po_props po = false.
  Hypothesis Oro : po_readonly po = false.
  Hypothesis Os : po_sort po = false.
  Hypothesis Ok : po_keys po = keys.
  Hypothesis Uk : uo_keys uo = keys.
  Hypothesis Uv : uo_v1 uo = false.

  (** The decoder has a placeholder. *)
  Record opened (t : ust) (p : nat) (t1 : ust) : Prop := {
    op_p : p = length (u_prox t);
    op_heap : u_heap t1 = u_heap t;
    op_objs : u_objs t1 = u_objs t ++ [VProxy p];
    op_idx : u_idx t1 = (VProxy p, length (u_objs t)) :: u_idx t;
    op_classes : u_classes t1 = u_classes t;
    op_prox : u_prox t1 = u_prox t ++ [None];
    op_swaps : u_swaps t1 = u_swaps t
  }.
  (** The decoder has made the object, nothing refers to it yet. *)
  Record late (t2 t : ust) (x : loc) (q : option loc) (i' : inst) : Prop := {
    la_objs : u_objs t = u_objs t2;
    la_idx : u_idx t = u_idx t2;
    la_classes : u_classes t = u_classes t2;
    la_swaps : u_swaps t = u_swaps t2;
    la_prox : u_prox t = u_prox t2;
    la_len : length (u_heap t2) <= length (u_heap t);
    la_old : forall y, y < length (u_heap t2) -> hget (u_heap t) y = hget (u_heap t2) y;
    la_x : length (u_heap t2) <= x;
    la_at : hget (u_heap t) x = Some (OInst i');
    la_q : forall d, q = Some d -> length (u_heap t2) <= d /\ d <> x /\ hget (u_heap t) d = Some (ODict [])
  }.
  Lemma late_set t2 t x q i' i2 : late t2 t x q i' -> late t2 (us_heap (hset (u_heap t) x (OInst i2)) t) x q i2.
  Proof.
    intros [A B C D E F G H J K]. constructor; auto; simpl.
    - rewrite hset_length; auto.
    - intros y Hy. rewrite hget_hset_other by lia. auto.
    - apply hget_hset_same. eapply hget_lt; eauto.
    - intros d Hd. destruct (K d Hd) as (K1 & K2 & K3). split; auto. split; auto. rewrite hget_hset_other; auto.
  Qed.
  Lemma late_log t2 t x q i' lg : late t2 t x q i' -> late t2 (us_log lg t) x q i'.
  Proof. intros [A B C D E F G H J K]. constructor; auto. Qed.

  (** A new instance. *)
  Definition finst (ci : nat) (d : option loc) (r : crec) : inst := mkInst ci d [] [] [] None r [] 0.
  Definition fcells (ci : nat) (r : crec) (b : nat) : list obj :=
    if c_dict (cls ci) then [ODict []; OInst (finst ci (Some b) r)] else [OInst (finst ci None r)].
  Lemma fresh_run ci r t : fresh_inst w ci r t =
    (Ret (VLoc (cell w ci (length (u_heap t)))), us_heap (u_heap t ++ fcells ci r (length (u_heap t))) t).
  Proof.
    unfold fresh_inst, fcells, cell. destruct (c_dict (cls ci)).
    - rewrite (bind_eq _ _ t (Some (length (u_heap t))) (us_heap (u_heap t ++ [ODict []]) t)) by reflexivity.
      unfold alloc, halloc. cbn. rewrite app_length. simpl length. rewrite Nat.add_1_r. rewrite <- app_assoc. reflexivity.
    - reflexivity.
  Qed.
  Lemma fresh_late ci r lg t : late t (us_log lg (us_heap (u_heap t ++ fcells ci r (length (u_heap t))) t))
    (cell w ci (length (u_heap t))) (dcell w ci (length (u_heap t))) (finst ci (dcell w ci (length (u_heap t))) r).
  Proof.
    unfold fcells, cell, dcell. constructor; auto; simpl.
    - rewrite app_length. lia.
    - intros y Hy. unfold hget. apply nth_error_app1; auto.
    - destruct (c_dict (cls ci)); lia.
    - unfold hget. destruct (c_dict (cls ci)).
      + rewrite nth_error_app2 by lia. replace (S (length (u_heap t)) - length (u_heap t)) with 1 by lia. reflexivity.
      + rewrite nth_error_app2, Nat.sub_diag by lia. reflexivity.
    - destruct (c_dict (cls ci)); intros d E; [|discriminate]. injection E as <-. split; [lia|]. split; [lia|].
      unfold hget. rewrite nth_error_app2, Nat.sub_diag by lia. reflexivity.
  Qed.

  Lemma late_inv s t l p t1 : Inv s t -> ~ In (VLoc l) (p_objs s) -> opened t p t1 -> Inv (openE (VLoc l) s) t1.
  Proof.
    intros I N [EP EH EO EI EC EX ES].
    apply (inv_open cl h bs s t (VLoc l) (VProxy p) t1 I); auto.
    - intros C. apply (D_prox cl h bs s t p I) in C. lia.
    - rewrite EX, app_length. lia.
    - rewrite EH. apply evolve_refl.
    - simpl. rewrite EX, app_length. simpl. lia.
  Qed.
  Lemma late_front s t l p t1 all c s' t' : Inv s t -> front s t (VLoc l) -> opened t p t1 ->
    adv none none (openE (VLoc l) s) t1 s' t' -> shape l all -> In c all -> ~ reach c (VLoc l) -> front s' t' c.
  Proof.
    intros I F [EP EH EO EI EC EX ES] A SH IN NR.
    apply (front_open w k keys cl h bs none none s t l t1 s' t' c I F); auto.
    - intros i x Hx. rewrite EO. apply nth_error_app_l; auto.
    - rewrite EH; auto.
    - rewrite EH; auto.
    - intros ? [].
    - apply reach_sub. eapply sub_obj; eauto.
  Qed.
  Lemma late_fin s t l p t1 s' t' y y' : Inv s t -> front s t (VLoc l) -> opened t p t1 ->
    adv none none (openE (VLoc l) s) t1 s' t' -> ~ reach (VLoc y) (VLoc l) -> rel s' t' y y' ->
    omatch w k keys h (u_heap t') 0 bs (rel s' t') y y'.
  Proof.
    intros I F [EP EH EO EI EC EX ES] A NR R.
    apply (finished w k keys cl h bs po uo none none s t l t1 s' t' y y' I F); auto.
    - intros i x Hx. rewrite EO. apply nth_error_app_l; auto.
    - rewrite EH; auto.
    - rewrite EH; auto.
    - intros ? [].
  Qed.

  Definition swapped (n0 p : nat) (x : loc) (t : ust) : ust :=
    let t' := us_prox (list_set (u_prox t) p (Some (VLoc x))) t in
    us_objs (list_set (u_objs t') n0 (VLoc x)) (us_idx (idx_del (VProxy p) ((VLoc x, n0) :: idx_del (VLoc x) (u_idx t'))) t').

  Section close.
    Variables (s : pst) (t : ust) (l : loc) (i : inst) (p : nat) (t1 : ust) (s2 : pst) (t2 t4 : ust) (x : loc) (q : option loc) (i' : inst).
    Notation n0 := (length (p_objs s)).
    Notation t5 := (swapped n0 p x t4).
    Hypothesis I : Inv s t.
    Hypothesis HL : hget h l = Some (OInst i).
    Hypothesis HOP : opened t p t1.
    Hypothesis A : adv none none (openE (VLoc l) s) t1 s2 t2.
    Hypothesis LA : late t2 t4 x q i'.
    Hypothesis HC : i_cls i' = i_cls i.
    Hypothesis HDE : dict_exists (u_heap t4) x.

    Lemma lc_E : nth_error (p_objs s2) n0 = Some (VLoc l).
    Proof. eapply adv_E_nth; [exact A|]. simpl. apply nth_end. Qed.
    Lemma lc_D : nth_error (u_objs t2) n0 = Some (VProxy p).
    Proof.
      apply (a_D _ _ _ _ _ _ _ _ _ _ _ _ A); [|intros []]. rewrite (op_objs _ _ _ HOP).
      replace n0 with (length (u_objs t)) by (symmetry; eapply length_objs; eauto). apply nth_end.
    Qed.
    Lemma lc_run : (proxy_reset (VProxy p) (VLoc x) ;;; swapref (VProxy p) (VLoc x) ;;; ret (VLoc x)) t4 = (Ret (VLoc x), t5).
    Proof.
      rewrite (bind_eq _ _ t4 tt (us_prox (list_set (u_prox t4) p (Some (VLoc x))) t4)) by reflexivity.
      rewrite (bind_eq _ _ _ tt t5); [reflexivity|]. unfold swapref.
      assert (X : idx_get (VProxy p) (u_idx (us_prox (list_set (u_prox t4) p (Some (VLoc x))) t4)) = Some n0).
      { simpl. rewrite (la_idx _ _ _ _ _ LA). apply (i_idx _ _ _ _ _ (a_inv _ _ _ _ _ _ _ _ _ _ _ _ A)). apply lc_D. }
      rewrite X. reflexivity.
    Qed.
    Lemma lc_heap : u_heap t5 = u_heap t4. Proof. reflexivity. Qed.
    Lemma lc_inv : Inv s2 t5.
    Proof.
      pose proof (a_inv _ _ _ _ _ _ _ _ _ _ _ _ A) as I2. destruct LA as [EO EI EC ES EX EL EH XL XA XQ].
      apply (inv_swap cl h bs s2 t2 n0 l p x t5 I2); auto.
      - apply lc_E.
      - apply lc_D.
      - intros C. apply (D_lt cl h bs s2 t2 x I2) in C. lia.
      - simpl. rewrite EO. reflexivity.
      - simpl. rewrite EI. reflexivity.
      - simpl. rewrite list_set_length, EX. auto.
      - intros y o Hy. exists o. split; [|apply okind_refl]. rewrite lc_heap, EH; auto. eapply hget_lt; eauto.
      - unfold RTBase.head_ok. rewrite HL, lc_heap, XA. split; auto.
    Qed.
    Lemma lc_rel a b : rel s2 t2 a b -> rel s2 t5 a b.
    Proof.
      intros (ix & R1 & R2). exists ix. split; auto. simpl. rewrite (la_objs _ _ _ _ _ LA), nth_error_list_set.
      destruct (Nat.eqb_spec ix n0) as [->|N]; auto. rewrite lc_D in R2. discriminate.
    Qed.
    Lemma lc_vm a b : vm s2 t2 a b -> vm s2 t5 a b.
    Proof.
      intros M. eapply vmatch_mono; [apply le_n | exact lc_rel | | exact M].
      intros y o _ Hy. rewrite lc_heap, (la_old _ _ _ _ _ LA); auto. eapply hget_lt; eauto.
    Qed.
    Lemma lc_vms a b : Forall2 (vm s2 t2) a b -> Forall2 (vm s2 t5) a b.
    Proof. apply Forall2_impl. exact lc_vm. Qed.
    Lemma lc_new : nth_error (u_objs t5) n0 = Some (VLoc x).
    Proof.
      simpl. rewrite (la_objs _ _ _ _ _ LA), nth_error_list_set, Nat.eqb_refl, lc_D. reflexivity.
    Qed.
    Lemma lc_close : imatch w k h (u_heap t5) (length (u_heap t2)) bs (rel s2 t5) l i i' ->
      adv none none s t s2 t5 /\ vm s2 t5 (VLoc l) (VLoc x).
    Proof.
      intros IM. pose proof (a_len _ _ _ _ _ _ _ _ _ _ _ _ A) as L2. rewrite (op_heap _ _ _ HOP) in L2.
      split; [|apply vm_obj; exists n0; split; [apply lc_E | apply lc_new]].
      assert (B : adv none (eq n0) s2 t2 s2 t5).
      { constructor.
        - apply lc_inv.
        - exists []. rewrite app_nil_r; auto.
        - intros ix y Hy HJ. simpl. rewrite (la_objs _ _ _ _ _ LA), nth_error_list_set.
          destruct (Nat.eqb_spec ix n0) as [->|N]; auto. rewrite lc_D in Hy. injection Hy as <-. discriminate HJ; auto.
        - reflexivity.
        - exact (la_len _ _ _ _ _ LA).
        - intros y Hy _. exact (la_old _ _ _ _ _ LA y Hy).
        - intros y o _ Hy. rewrite lc_heap, (la_old _ _ _ _ _ LA); auto. eapply hget_lt; eauto.
        - exact (la_swaps _ _ _ _ _ LA).
        - intros ix y L Hy. apply nth_error_None in L. congruence. }
      assert (C : adv none (eq n0) (openE (VLoc l) s) t1 s2 t5).
      { eapply (adv_fresh w k keys cl h bs po uo); [intros ? []| exact A | exact B]. }
      apply (adv_close w k keys cl h bs none (eq n0) s t l t1 s2 t5 x I); auto.
      - rewrite (op_objs _ _ _ HOP), app_length. simpl. lia.
      - intros ix y Hy. rewrite (op_objs _ _ _ HOP). apply nth_error_app_l; auto.
      - rewrite (op_heap _ _ _ HOP). auto.
      - rewrite (op_heap _ _ _ HOP). auto.
      - apply (op_swaps _ _ _ HOP).
      - intros ? [].
      - apply lc_new.
      - eapply omatch_stable with (h1 := u_heap t5) (b := length (u_heap t2)) (R1 := rel s2 t5); auto.
        eapply om_inst; [exact HL | apply LA | apply LA | exact HC | exact IM].
    Qed.
  End close.

  Lemma u_loadclass_opened s t name v : Inv s t -> loadclass w cl (JStr name) = Ret v ->
    exists lg, u_loadclass w (JStr name) t = (Ret v, us_log lg t) /\
      forall lg2, opened t (length (u_prox t)) (us_log lg2 (uref (VProxy (length (u_prox t))) (us_prox (u_prox t ++ [None]) (us_log lg t)))).
  Proof.
    intros I L. destruct (loadclass_run w cl t name _ (i_tab _ _ _ _ _ I) L) as [lg EL]. exists lg. split; auto.
    intros lg2. constructor; reflexivity.
  Qed.

  Section level.
    Variables (n m : nat).
    Hypothesis IH : PP n m.
    Hypothesis Hnm : n <= m.
    Hypothesis Hm1 : 1 <= m.
    Notation fl := (flatten w k po n).
    Notation rs := (restore w uo m).

    Lemma vm_atom_eq s t v v' : vm s t v v' -> atom v = true -> v' = v.
    Proof. intros M A. inversion M; subst; auto; discriminate. Qed.

    (** ** Handlers *)
    Lemma rt_classes s c hd vs js build sc : supported (VType c) -> asks_restore w c vs js build sc -> forall t, Inv s t ->
      exists lg sc', run_hscript w rs hd sc t = run_hscript w rs hd sc' (us_log lg t) /\
        ((vs = [] /\ js = [] /\ sc' = HDone (HInst c (build []))) \/
         exists v r j js' kk, vs = v :: r /\ js = j :: js' /\ sc' = HRestore j kk /\
           forall v', (atom v = true -> v' = v) -> asks_restore w c r js' (fun vs' => build (v' :: vs')) (kk v')).
    Proof.
      intros SC. induction 1 as [build|v vs j js build kk NV AR IHR|vs js build kk AR IHR]; intros t I.
      - exists (u_log t), (HDone (HInst c (build []))). rewrite us_log_id. auto.
      - exists (u_log t), (HRestore j kk). rewrite us_log_id. split; auto. right. exists v, vs, j, js, kk. auto.
      - destruct (restore_pure w k keys cl h po uo (VType c) m t) as [lg EC]; auto; [exact (i_tab _ _ _ _ _ I)|].
        change (pdoc (VType c)) with (class_doc w c) in EC.
        destruct (IHR (us_log lg t)) as (lg2 & sc' & E & X); [apply (inv_log w k keys); auto|]. rewrite us_log_log in E.
        exists lg2, sc'. split; auto. cbn [run_hscript]. rewrite (bind_eq _ _ _ _ _ EC). exact E.
    Qed.
    Lemma rt_script c hd vs mk sc : str_ok (importable_name (cls c)) = true ->
      loadclass w cl (JStr (importable_name (cls c))) = Ret (VType c) ->
      asks_flatten w c vs mk sc ->
      forall s t0, let T := fun t => Inv s t /\ forall v s1 t1, In v vs -> adv none none s t s1 t1 -> front s1 t1 v in
      T t0 -> (forall v, In v vs -> supported v) ->
      wp (run_fscript w po fl sc) s (fun r s' => exists js, r = Some (mk js) /\ length js = length vs /\ forallb jwf js = true /\
        forall t, T t -> forall build sc2, asks_restore w c vs js build sc2 ->
        exists vs' t', adv none none s t s' t' /\ Forall2 (vm s' t') vs vs' /\
          run_hscript w rs hd sc2 t = fresh_inst w c (CHandler hd (build vs')) t').
    Proof.
      intros NM LC AF.
      assert (SC : supported (VType c)).
      { intros x Rx. inversion Rx as [|? ? ? SB]; subst; [split; auto|inversion SB]. }
      induction AF as [mk|v vs mk kk NC AF IHA|vs mk kk AF IHA]; intros s t0 T HT S.
      - cbn [run_fscript]. apply wp_ret. exists []. split; auto. split; auto. split; auto.
        intros t Tt build sc2 AR. destruct (rt_classes s c hd _ _ _ _ SC AR t) as (lg & sc' & E & [(_ & _ & ->)|(? & ? & ? & ? & ? & X & _)]); [apply Tt| |discriminate X].
        exists [], (us_log lg t). split; [apply adv_log; exact (proj1 Tt)|]. split; [constructor|]. exact E.
      - cbn [run_fscript]. apply wp_bind. unfold pflatten. rewrite Os. apply wp_bind, wp_ret, wp_bind, wp_ret.
        assert (IHv : forall t, T t -> wp (fl v) s (fun j s1 => delivers m v s t j s1)).
        { intros t [I F]. apply (IH v s t); auto; [apply S; left; auto|]. apply F; [left; auto | apply adv_refl; auto]. }
        assert (X : wp (fl v) s (fun j s1 => jwf j = true /\ forall t, T t -> delivers m v s t j s1)).
        { pose proof (IHv t0 HT) as X0. unfold wp in *. destruct (fl v s) as [[j|e|] s1]; auto. split; [apply X0|]. auto. }
        eapply wp_mono; [exact X|]. intros j s1 _ (W & DL).
        assert (NEXT : forall t t1, T t -> adv none none s t s1 t1 ->
          Inv s1 t1 /\ forall y s2 t2, In y vs -> adv none none s1 t1 s2 t2 -> front s2 t2 y).
        { intros t t1 Tt A. split; [apply A|]. intros y s2 t2 Hy A2. apply Tt; [right; auto|]. eapply adv_trans; eauto. intros ? []. }
        destruct (DL t0 HT) as (_ & _ & v0 & t1 & _ & A0 & _).
        eapply wp_mono.
        { apply (IHA j s1 t1); [apply (NEXT t0 t1); auto | intros; apply S; right; auto]. }
        intros r s2 _ (js & -> & L & W2 & HR). exists (j :: js). split; auto. split; [simpl; auto|].
        split; [simpl; rewrite W, W2; auto|]. intros t Tt build sc2 AR.
        destruct (rt_classes s c hd _ _ _ _ SC AR t) as (lg & sc' & E & [(X1 & _)|(v1 & vs1 & j1 & js1 & kk1 & E1 & E2 & -> & AR1)]); [apply Tt|discriminate X1|].
        injection E1 as <- <-. injection E2 as <- <-.
        assert (Tl : T (us_log lg t)).
        { split; [apply (inv_log w k keys); exact (proj1 Tt)|]. intros y s3 t3 Hy A. apply Tt; auto. eapply adv_trans; [intros ? []|apply adv_log; exact (proj1 Tt)|exact A]. }
        destruct (DL _ Tl) as (_ & _ & v' & t2 & R & A & M).
        destruct (HR t2 (NEXT _ t2 Tl A) (fun vs' => build (v' :: vs')) (kk1 v')) as (vs' & t' & A1 & A2 & A3).
        { apply AR1. intros AT. eapply vm_atom_eq; eauto. }
        exists (v' :: vs'), t'. split; [eapply adv_trans; [intros ? []|apply adv_log; exact (proj1 Tt)|eapply adv_trans; [intros ? []|exact A|exact A1]]|].
        split; [constructor; auto; eapply vmatch_adv; [exact A1|exact M]|].
        rewrite E. cbn [run_hscript]. rewrite (bind_eq _ _ _ _ _ R). exact A3.
      - cbn [run_fscript]. apply wp_bind. unfold pflatten. rewrite Os. apply wp_bind, wp_ret, wp_bind, wp_ret.
        eapply wp_mono; [eapply (flatten_pure w k keys cl h po) with (n := n) (v := VType c) (s := s); auto; destruct HT as [HI _]; apply HI|].
        intros j s1 _ (-> & -> & _). apply (IHA s t0); auto.
    Qed.

    Lemma part_ordinary l i f v : hget h l = Some (OInst i) -> part w k h l f v -> ordinary w k l i.
    Proof.
      intros H P. inversion P as [i' ? ? ? H' O|i' ? ? ? H' O|i' ? H' O]; subst; assert (i' = i) by congruence; subst i'; auto.
    Qed.
    Lemma rt_handled l i hd pre vs s t : hget h l = Some (OInst i) -> shape l vs ->
      loadclass w cl (JStr (importable_name (cls (i_cls i)))) = Ret (VType (i_cls i)) ->
      handled w l i hd pre vs -> supported (VLoc l) -> Inv s t -> front s t (VLoc l) ->
      wp (get_flattener w k po n fl (VLoc l)) s (fun r s1 => exists j, r = Some j /\ delivers (S m) (VLoc l) s t j s1).
    Proof.
      intros H SH LC HA SU I F. cbn [get_flattener]. apply wp_bind.
      apply (wp_eq _ (ret (OInst i))); [eapply get_obj_run; eauto|]. apply wp_ret. apply wp_bind.
      unfold ref_obj_instance. rewrite Ou. apply wp_bind.
      destruct (mkref_cases po Ou Or (VLoc l) s) as [(ix & E1 & E2)|(E1 & E2)].
      { apply (wp_eq _ (ret false)); [exact E2|]. apply wp_ret.
        eapply wp_mono; [eapply deliver_ref; eauto|]. intros j s1 _ D. apply wp_ret. eauto. }
      apply (wp_eq _ (fun _ => (Ret true, openE (VLoc l) s))); [exact E2|]. cbn [wp].
      pose proof HA as (NM & RL & _ & PA & mk & AF & AR). set (name := importable_name (cls (i_cls i))) in *.
      destruct (u_loadclass_opened s t name _ I LC) as (lg & EL & OP).
      set (rctx := match uo_ctx uo with Some c => if w_hctx_rest w hd then Some c else None | None => None end).
      set (p := length (u_prox t)) in *.
      set (t0 := uref (VProxy p) (us_prox (u_prox t ++ [None]) (us_log lg t))) in *.
      set (t1 := us_log (u_log t0 ++ [EvHandler hd rctx]) t0). specialize (OP (u_log t0 ++ [EvHandler hd rctx])). fold t1 in OP.
      assert (I1 : Inv (openE (VLoc l) s) t1) by (eapply late_inv; eauto).
      assert (EARLY : forall x, In x vs -> ~ reach x (VLoc l)).
      { intros x Hx. destruct (supported_node _ _ _ _ _ _ SU) as [_ EA]. apply EA. eapply ea_handled; eauto. }
      cbn [flatten_object]. unfold flatten_obj_instance. apply wp_bind.
      apply (wp_eq _ (ret (OInst i))); [eapply get_obj_run; eauto|]. apply wp_ret.
      fold name. rewrite RL. unfold call_handler. rewrite Ou. apply wp_bind.
      set (fctx := match po_ctx po with Some c => if w_hctx_flat w hd then Some c else None | None => None end).
      eapply wp_mono.
      { apply (rt_script (i_cls i) hd vs (fun js => JObj ((OBJECT, JStr name) :: mk js)) _ NM LC (AF fctx) (openE (VLoc l) s) t1).
        - split; auto. intros v s' t' Hv A. apply (late_front s t l p t1 vs v s' t'); auto.
        - intros v Hv. eapply supported_sub; eauto. eapply sub_obj; eauto. }
      intros r s2 _ (js & -> & L & W & HR). apply wp_ret. apply wp_ret. eexists. split; [reflexivity|].
      destruct (AR js L W) as (JW & NT & AR2). split; [exact JW|].
      set (ob := (OBJECT, JStr name) :: mk js) in *.
      split; [split; [|intros NU; specialize (NU l i H); unfold no_handler in NU; fold name in NU; congruence]|].
      { apply de_new.
        - intros c (i0 & H0 & <- & _). assert (i0 = i) by congruence. subst i0. reflexivity.
        - intros f v PT. exfalso. destruct (part_ordinary _ _ _ _ H PT) as [NH _]. unfold no_handler in NH. fold name in NH. congruence. }
      destruct (HR t1) with (build := fun vs' => pre ++ vs') (sc2 := w_hrest w hd rctx ob) as (vs' & t2 & A & M & RUN); [|exact (AR2 rctx)|].
      { split; auto. intros v s' t' Hv A. apply (late_front s t l p t1 vs v s' t'); auto. }
      rewrite fresh_run in RUN.
      set (b1 := length (u_heap t2)) in *. set (x := cell w (i_cls i) b1) in *.
      set (t4 := us_heap (u_heap t2 ++ fcells (i_cls i) (CHandler hd (pre ++ vs')) b1) t2) in *.
      assert (LA : late t2 t4 x (dcell w (i_cls i) b1) (finst (i_cls i) (dcell w (i_cls i) b1) (CHandler hd (pre ++ vs')))).
      { pose proof (fresh_late (i_cls i) (CHandler hd (pre ++ vs')) (u_log t2) t2) as X. exact X. }
      assert (HDE : dict_exists (u_heap t4) x).
      { intros i0 d Hi Hd. rewrite (la_at _ _ _ _ _ LA) in Hi. injection Hi as <-. exists [].
        apply (la_q _ _ _ _ _ LA). exact Hd. }
      assert (DEC : restore w uo (S m) (JObj ob) t = (Ret (VLoc x), swapped (length (p_objs s)) p x t4)).
      { change (restore w uo (S m) (JObj ob) t) with (restore_step w uo rs (JObj ob) t). unfold restore_step.
        assert (X : forall tg, In tg [TUPLE; SET_; B64; B85; BYTEARRAY; ID; ITERATOR] -> shas tg ob = false).
        { intros tg Htg. destruct (shas tg ob) eqn:E; auto. apply shas_In in E. destruct E as [E|E].
          - exfalso. revert Htg. rewrite <- E. cbn [fst]. clear. intros C. repeat (destruct C as [C|C]; [discriminate|]). destruct C.
          - exfalso. eapply NT; eauto. }
        rewrite !X by (simpl; tauto). change (shas OBJECT ob) with true. cbv iota.
        unfold restore_object. change (jfield OBJECT ob) with (JStr name). rewrite (bind_eq _ _ _ _ _ EL). cbv zeta. rewrite RL.
        rewrite (bind_eq _ _ (us_log lg t) (VProxy p) (us_prox (u_prox t ++ [None]) (us_log lg t))) by reflexivity.
        rewrite (bind_eq _ _ _ (VProxy p) t0).
        2: { unfold umkref. simpl u_idx. rewrite (idx_None cl h bs s t); auto. intros C. apply (D_prox cl h bs s t p I) in C. unfold p in C. lia. }
        rewrite (bind_eq _ _ t0 tt t1) by reflexivity.
        fold rctx. rewrite (bind_eq _ _ _ _ _ RUN). eapply lc_run; eauto. }
      eexists _, _. split; [exact DEC|]. apply (lc_close s t l i p t1 s2 t2 t4 x _ _ I H OP A LA eq_refl HDE).
      eapply im_handled; [exact HA | reflexivity |]. eapply lc_vms; eauto.
    Qed.

    (** ** [__reduce__] *)
    Lemma strip_split (js : list json) : exists q, js = strip_nulls js ++ repeat JNull q.
    Proof.
      assert (X : forall r : list json, exists q, r = (fix strip (r : list json) : list json :=
             match r with
             | [] => []
             | x :: r' => match strip r', x with [], JNull => [] | t, _ => x :: t end
             end) r ++ repeat JNull q).
      { induction r as [|x r [q E]]; [exists 0; reflexivity|]. set (f := (fix strip (r : list json) : list json := _)) in *.
        change (f (x :: r)) with (match f r, x with [], JNull => [] | t, _ => x :: t end).
        destruct (f r) as [|y r'] eqn:ER.
        - cbn [app] in E. destruct x; [exists (S q); cbn [app repeat]; congruence|..]; exists q; cbn [app repeat]; congruence.
        - cbn [app] in E. exists q. destruct x; cbn [app]; congruence. }
      destruct js as [|a [|b r]]; [exists 0; reflexivity|exists 0; reflexivity|].
      destruct (X r) as [q E]. exists q. cbn [strip_nulls app]. f_equal. f_equal. exact E.
    Qed.
    Lemma mapM_nulls l q : forall t vs t2, mapM rs (l ++ repeat JNull q) t = (Ret vs, t2) ->
      exists vs1, mapM rs l t = (Ret vs1, t2) /\ vs = vs1 ++ repeat VNone q.
    Proof.
      induction l as [|j l IHl]; intros t vs t2 E; cbn [app] in E.
      - exists []. cbn [mapM app]. assert (X : mapM rs (repeat JNull q) t = (Ret (repeat VNone q), t)).
        { clear E. induction q as [|q IHq]; [reflexivity|]. cbn [repeat mapM].
          assert (Z : rs JNull t = (Ret VNone, t)) by (destruct m; [lia|reflexivity]).
          rewrite (bind_eq _ _ _ _ _ Z), (bind_eq _ _ _ _ _ IHq). reflexivity. }
        rewrite X in E. injection E as <- <-. split; reflexivity.
      - cbn [mapM] in E |- *. apply bind_ret_inv in E as (v & t1 & E1 & E). apply bind_ret_inv in E as (r & t3 & E2 & E).
        injection E as <- <-. destruct (IHl _ _ _ E2) as (vs1 & E3 & ->). exists (v :: vs1). split; [|reflexivity].
        rewrite (bind_eq _ _ _ _ _ E1), (bind_eq _ _ _ _ _ E3). reflexivity.
    Qed.
    Lemma truthy_match s t v v' : vm s t v v' -> not_instance h v ->
      (forall l l', v = VLoc l -> rel s t l l' -> omatch w k keys h (u_heap t) 0 bs (rel s t) l l') ->
      truthy cls (u_heap t) v' = truthy cls h v.
    Proof.
      intros M NI FIN. inversion M as [? A|xs ys FF|y y' xs ys H1 _ H2 FF|y y' b H1 _ H2|y y' RL]; subst.
      - destruct v'; try reflexivity; discriminate.
      - inversion FF; subst; reflexivity.
      - cbn [truthy]. rewrite H1, H2. inversion FF; subst; reflexivity.
      - cbn [truthy]. rewrite H1, H2. reflexivity.
      - destruct (FIN y y' eq_refl RL) as [xs ys H1 _ H2 FF|d d' H1 _ H2 FF|i i' H1 _ H2 _ _].
        + cbn [truthy]. rewrite H1, H2. inversion FF; subst; reflexivity.
        + cbn [truthy]. rewrite H1, H2. cbn [otruthy]. pose proof (Permutation_length (dict_order_perm (po_keys po) d)) as SF.
          apply Forall2_len in FF. rewrite SF in FF. destruct d, d'; auto; discriminate.
        + exfalso. eapply NI; eauto.
    Qed.

    Lemma reduce_make_run c f args mkrec a' t2 : maker w c f args mkrec -> Forall2 (fun v v' => atom v = true -> v' = v) args a' ->
      exists lg, reduce_make w (fun_doc w f) (VTuple a') t2 =
        (Ret (Some (VLoc (cell w c (length (u_heap t2))))), us_log lg (us_heap (u_heap t2 ++ fcells c (mkrec a') (length (u_heap t2))) t2)).
    Proof.
      intros MK FA. assert (LEN : length a' = length args) by (symmetry; eapply Forall2_len; eauto).
      destruct MK as [f args HF HC|g args HF HC].
      - assert (X : fun_doc w f = f /\ is_newobj w f = false /\ u_callable w (u_heap t2) f = true).
        { destruct HF as [(c0 & -> & N)|(g & -> & N)].
          - split; [reflexivity|]. split; [|reflexivity]. unfold is_newobj. destruct (seqb_spec (c_name (cls c0)) (u "__newobj__")); congruence.
          - unfold fun_doc, is_newobj. destruct (seqb_spec (f_name (w_fun w g)) (u "__newobj__")); [congruence|]. auto. }
        destruct X as (-> & X1 & X2). exists (u_log t2 ++ [EvCall f a']). unfold reduce_make.
        rewrite (bind_eq _ _ t2 (u_heap t2) t2) by reflexivity. rewrite X1, X2. cbn [negb].
        apply catch_ret. rewrite (bind_eq _ _ t2 a' t2) by reflexivity. unfold do_call.
        set (t3 := us_log (u_log t2 ++ [EvCall f a']) t2).
        rewrite (bind_eq _ _ t2 (VLoc (cell w c (length (u_heap t2)))) (us_heap (u_heap t2 ++ fcells c (CCall f a') (length (u_heap t2))) t3)).
        { reflexivity. }
        rewrite (bind_eq _ _ t2 tt t3) by reflexivity. rewrite (bind_eq _ _ t3 (u_heap t2) t3) by reflexivity.
        rewrite HC by auto. cbn [run_cres]. exact (fresh_run c (CCall f a') t3).
      - inversion FA as [|? v' ? r' HV FR]; subst. specialize (HV eq_refl). subst v'.
        exists (u_log t2 ++ [EvNew c r' []]). unfold reduce_make. unfold fun_doc. rewrite HF. change (seqb (u "__newobj__") (u "__newobj__")) with true.
        cbv iota. rewrite (bind_eq _ _ t2 (u_heap t2) t2) by reflexivity. change (is_newobj w (VStr NEWOBJ)) with true. cbv iota.
        rewrite (bind_eq _ _ t2 (VType c, r') t2) by reflexivity. cbv beta iota. unfold do_new.
        set (t3 := us_log (u_log t2 ++ [EvNew c r' []]) t2).
        rewrite (bind_eq _ _ t2 (VLoc (cell w c (length (u_heap t2)))) (us_heap (u_heap t2 ++ fcells c (CNew r' []) (length (u_heap t2))) t3)).
        { reflexivity. }
        rewrite (bind_eq _ _ t2 tt t3) by reflexivity. rewrite (bind_eq _ _ t3 (u_heap t2) t3) by reflexivity.
        rewrite HC. 2: { simpl in LEN. lia. } cbn [run_cres]. exact (fresh_run c (CNew r' []) t3).
    Qed.

    Definition upd (i : inst) (d : option loc) (its : list (val * val)) (els : list val) (st : list val) : inst :=
      mkInst (i_cls i) d (i_slots i) its els (i_fac i) (i_rec i) st (i_pos i).

    Lemma truthy_late t2 t4 x q i' v s : Inv s t2 -> late t2 t4 x q i' -> (forall l, v = VLoc l -> l < length (u_heap t2)) ->
      truthy cls (u_heap t4) v = truthy cls (u_heap t2) v.
    Proof. intros I LA L. destruct v; try reflexivity. cbn [truthy]. rewrite (la_old _ _ _ _ _ LA); auto. Qed.
    Lemma vm_lt s t v v' : Inv s t -> vm s t v v' -> forall l, v' = VLoc l -> l < length (u_heap t).
    Proof.
      intros I M l ->. inversion M as [? A|xs ys FF|y y' xs ys H1 _ H2 FF|y y' b H1 _ H2|y y' RL]; subst; try discriminate.
      - eapply hget_lt; eauto.
      - eapply hget_lt; eauto.
      - destruct RL as (ix & _ & RL). apply nth_error_In in RL. eapply D_lt; eauto.
    Qed.

    Lemma reduce_state_run s2 t2 t3 x c r st st' : Inv s2 t2 ->
      late t2 t3 x (dcell w c (length (u_heap t2))) (finst c (dcell w c (length (u_heap t2))) r) ->
      state_use w h (cls c) st -> vm s2 t2 st st' -> (forall h' st', w_setstate w h' c st' = None) ->
      (forall l l', st = VLoc l -> rel s2 t2 l l' -> omatch w k keys h (u_heap t2) 0 bs (rel s2 t2) l l') ->
      exists t4 i4, reduce_state w (VLoc x) st' VNone t3 = (Ret tt, t4) /\
        late t2 t4 x (dcell w c (length (u_heap t2))) i4 /\
        i4 = upd (finst c None r) (i_dict i4) [] [] (i_state i4) /\
        match truthy cls h st, c_setstate (cls c) with
        | false, _ => i_state i4 = [] /\ i_dict i4 = dcell w c (length (u_heap t2))
        | true, true => i_state i4 = [st'] /\ i_dict i4 = dcell w c (length (u_heap t2))
        | true, false => i_state i4 = [] /\ exists y a, st' = VLoc y /\ i_dict i4 = Some y /\ hget (u_heap t2) y = Some (ODict a)
        end.
    Proof.
      intros I LA SU M WS FIN. unfold reduce_state.
      assert (NI : not_instance h st).
      { destruct SU as [? ?|? ? ?|sd a -> H1]; auto. intros y j E. injection E as <-. congruence. }
      assert (T : truthy cls (u_heap t3) st' = truthy cls h st).
      { rewrite (truthy_late t2 t3 x _ _ st' s2 I LA); [eapply truthy_match; eauto | eapply vm_lt; eauto]. }
      rewrite (bind_eq _ _ t3 (truthy cls h st) t3) by (rewrite <- T; reflexivity).
      destruct SU as [E ?|E ? E2|sd a -> HSD NE E2 E3 CD SA].
      - rewrite E. eexists t3, _. split; [reflexivity|]. split; [exact LA|]. split; [reflexivity|]. split; reflexivity.
      - rewrite E, E2. set (i3 := finst c _ r) in *.
        exists (us_heap (hset (u_heap t3) x (OInst (upd i3 (i_dict i3) [] [] [st']))) (us_log (u_log t3 ++ [EvSetstate x st']) t3)).
        exists (upd i3 (i_dict i3) [] [] [st']). split; [|split; [|split; [reflexivity|split; reflexivity]]].
        + apply catch_ret. rewrite (bind_eq _ _ t3 (u_heap t3) t3) by reflexivity. unfold u_inst. rewrite (la_at _ _ _ _ _ LA).
          unfold i3 at 1. cbn [i_cls finst]. rewrite E2. unfold call_setstate.
          set (t3' := us_log (u_log t3 ++ [EvSetstate x st']) t3).
          rewrite (bind_eq _ _ t3 tt t3') by reflexivity. rewrite (bind_eq _ _ t3' (u_heap t3) t3') by reflexivity.
          rewrite WS. reflexivity.
        + apply (late_set t2 (us_log (u_log t3 ++ [EvSetstate x st']) t3) x _ i3). apply late_log. exact LA.
      - assert (E : truthy cls h (VLoc sd) = true) by (cbn [truthy]; rewrite HSD; destruct a; [congruence|reflexivity]).
        rewrite E, E2. unfold dcell in *. rewrite CD in *. set (q := length (u_heap t2)) in *. set (i3 := finst c (Some q) r) in *.
        assert (MD : exists y d, st' = VLoc y /\ hget (u_heap t2) y = Some (ODict d)).
        { inversion M as [? A|xs ys FF|y y' xs ys H1 _ H2 FF|y y' b H1 _ H2|y y' RL]; subst; try congruence; try discriminate.
          destruct (FIN sd y' eq_refl RL) as [xs ys H1 _ H2 FF|d d' H1 _ H2 FF|j j' H1 _ H2 _ _]; try congruence. eauto. }
        destruct MD as (y & d & -> & HY). assert (LY : y < q) by (eapply hget_lt; eauto).
        assert (HY3 : hget (u_heap t3) y = Some (ODict d)) by (rewrite (la_old _ _ _ _ _ LA); auto).
        destruct (la_q _ _ _ _ _ LA q eq_refl) as (_ & NQX & HQ). pose proof (la_at _ _ _ _ _ LA) as HX.
        set (i4 := upd i3 (Some y) [] [] []).
        exists (us_heap (hset (u_heap t3) x (OInst i4)) t3), i4. split; [|split; [apply (late_set t2 t3 x _ i3); auto|]].
        2: { split; [reflexivity|]. split; [reflexivity|]. exists y, d. auto. }
        unfold catch at 1. rewrite (bind_eq _ _ t3 (u_heap t3) t3) by reflexivity. unfold u_inst. rewrite HX.
        unfold i3 at 1. cbn [i_cls finst]. rewrite E2. cbn [raise is_AttributeError].
        unfold reduce_state2. rewrite (bind_eq _ _ t3 (u_heap t3) t3) by reflexivity. unfold u_inst. rewrite HX.
        unfold i3 at 1. cbn [i_dict finst]. apply catch_ret.
        rewrite (bind_eq _ _ t3 (ODict []) t3) by (unfold get_uobj, bind, gets; rewrite HQ; reflexivity).
        cbn [foldM]. rewrite (bind_eq _ _ t3 tt t3) by reflexivity. unfold set_attr.
        rewrite (bind_eq _ _ t3 (u_heap t3) t3) by reflexivity.
        assert (ES : inst_setattr (w_cls w) (u_heap t3) x (u "__dict__") (VLoc y) = Ret (hset (u_heap t3) x (OInst i4))).
        { unfold inst_setattr. rewrite HX. unfold i3 at 1. cbn [i_cls finst]. rewrite SA. unfold inst_store.
          unfold i3 at 1. cbn [i_cls finst]. change (seqb (u "__dict__") (u "__dict__")) with true. cbv iota. rewrite CD, HY3. reflexivity. }
        rewrite ES. reflexivity.
    Qed.

    Lemma vm_tuple_inv s t xs b : vm s t (VTuple xs) b -> exists ys, b = VTuple ys /\ Forall2 (vm s t) xs ys.
    Proof. intros M. inversion M as [? A|? ys FF| | |]; [discriminate|eauto]. Qed.
    Lemma F2_cons {A B} (R : A -> B -> Prop) a la lb : Forall2 R (a :: la) lb -> exists b lb', lb = b :: lb' /\ R a b /\ Forall2 R la lb'.
    Proof. intros F. inversion F. eauto. Qed.
    Lemma F2_nil {A B} (R : A -> B -> Prop) lb : Forall2 R [] lb -> lb = [].
    Proof. intros F. inversion F. auto. Qed.

    Lemma appends t2 x q ys : forall t i', late t2 t x q i' ->
      exists t', foldM (fun _ v => do_append (VLoc x) v) ys tt t = (Ret tt, t') /\
        late t2 t' x q (upd i' (i_dict i') (i_items i') (i_elems i' ++ ys) (i_state i')).
    Proof.
      induction ys as [|y ys IHy]; intros t i' LA.
      - exists t. split; [reflexivity|]. rewrite app_nil_r. destruct i'; exact LA.
      - set (i2 := upd i' (i_dict i') (i_items i') (i_elems i' ++ [y]) (i_state i')).
        destruct (IHy (us_heap (hset (u_heap t) x (OInst i2)) t) i2) as (t' & R & LA2); [eapply late_set; eauto|].
        exists t'. split.
        + cbn [foldM]. rewrite (bind_eq _ _ t tt (us_heap (hset (u_heap t) x (OInst i2)) t)); [exact R|].
          unfold do_append. rewrite (bind_eq _ _ t (OInst i') t); [reflexivity|].
          unfold get_uobj, bind, gets. rewrite (la_at _ _ _ _ _ LA). reflexivity.
        + cbn [i_elems i_dict i_items i_state i2 upd] in LA2. rewrite <- app_assoc in LA2. exact LA2.
    Qed.
    Lemma listitems_run s2 t2 t x q i' li li' xs : late t2 t x q i' -> i_elems i' = [] -> list_items (cls (i_cls i')) li xs ->
      vm s2 t2 li li' ->
      exists t' ys, reduce_listitems w (VLoc x) li' t = (Ret tt, t') /\
        late t2 t' x q (upd i' (i_dict i') (i_items i') ys (i_state i')) /\ Forall2 (vm s2 t2) xs ys.
    Proof.
      intros LA EE LI M. unfold reduce_listitems.
      assert (NONE : truthy cls (u_heap t) li' = false -> xs = [] -> exists t' ys,
        (tr <- u_truthy w li';; (if tr then h0 <- gets u_heap;; match seq_method w h0 (VLoc x) with
           | SAppend => l <- u_iter w li';; foldM (fun _ v => do_append (VLoc x) v) l tt | _ => raise EAttributeError end else ret tt)) t = (Ret tt, t') /\
        late t2 t' x q (upd i' (i_dict i') (i_items i') ys (i_state i')) /\ Forall2 (vm s2 t2) xs ys).
      { intros E ->. exists t, []. split; [|split; [|constructor]].
        - rewrite (bind_eq _ _ t false t) by (rewrite <- E; reflexivity). reflexivity.
        - rewrite <- EE. destruct i'; exact LA. }
      destruct LI as [| |xs KK].
      - apply vm_atom_eq in M; [|reflexivity]. subst li'. apply NONE; reflexivity.
      - apply vm_tuple_inv in M as (ys & -> & FF). apply F2_nil in FF as ->. apply NONE; reflexivity.
      - apply vm_tuple_inv in M as (ys & -> & FF). destruct ys as [|y ys].
        + apply NONE; [reflexivity|]. destruct xs; auto. inversion FF.
        + destruct (appends t2 x q (y :: ys) t i' LA) as (t' & R & LA2). rewrite EE in LA2. exists t', (y :: ys).
          split; [|split; [exact LA2|exact FF]].
          rewrite (bind_eq _ _ t true t) by reflexivity. rewrite (bind_eq _ _ t (u_heap t) t) by reflexivity.
          assert (X : seq_method w (u_heap t) (VLoc x) = SAppend).
          { unfold seq_method. rewrite (la_at _ _ _ _ _ LA). destruct KK as [-> | ->]; reflexivity. }
          rewrite X. rewrite (bind_eq _ _ t (y :: ys) t) by reflexivity. exact R.
    Qed.

    Lemma late_Inv s2 t2 t x q i' : Inv s2 t2 -> late t2 t x q i' -> Inv s2 t.
    Proof.
      intros I [A B C D E F G H J K]. eapply inv_evolve; eauto; [rewrite E; auto|].
      intros y o Hy. exists o. split; [|apply okind_refl]. rewrite G; auto. eapply hget_lt; eauto.
    Qed.
    Lemma late_vm s2 t2 t x q i' a b : late t2 t x q i' -> vm s2 t2 a b -> vm s2 t a b.
    Proof.
      intros [A B C D E F G H J K]. apply vmatch_mono; auto.
      - intros y y' (ix & R1 & R2). exists ix. rewrite A. auto.
      - intros y o _ Hy. rewrite G; auto. eapply hget_lt; eauto.
    Qed.
    Definition dict_step (x : loc) (p : val) : MU unit :=
      kv <- u_iter w p ;;
      match kv with
      | [key; v] =>
          h <- gets u_heap ;;
          match u_inst h (VLoc x), VLoc x with
          | Some i, VLoc l =>
              match c_kind (cls (i_cls i)) with
              | KDict => inst_setitem w l i key v
              | KPlain | KSet | KTuple | KIter => raise EAttributeError
              | _ => raise EUnmodelled
              end
          | _, VLoc l => dict_assign w l key v
          | _, VExt _ => raise EUnmodelled
          | _, _ => raise EAttributeError
          end
      | _ => raise EValueError
      end.
    Lemma assigns s2 t2 x q d : forall ps t i' dn, Inv s2 t2 -> late t2 t x q i' -> c_kind (cls (i_cls i')) = KDict ->
      Forall2 (vm s2 t2) (map (fun p => VTuple [fst p; snd p]) d) ps ->
      Forall2 (fun p p' => vm s2 t2 (fst p) (fst p') /\ vm s2 t2 (snd p) (snd p')) dn (i_items i') ->
      forallb (hashable cls h) (map fst (dn ++ d)) = true -> kdistinct (map fst (dn ++ d)) = true ->
      exists t' its, foldM (fun _ p => dict_step x p) ps tt t = (Ret tt, t') /\
        late t2 t' x q (upd i' (i_dict i') its (i_elems i') (i_state i')) /\
        Forall2 (fun p p' => vm s2 t2 (fst p) (fst p') /\ vm s2 t2 (snd p) (snd p')) (dn ++ d) its.
    Proof.
      induction d as [|[k0 v0] d IHd]; intros ps t i' dn I LA KD F1 F2 HH DI; cbn [map] in F1.
      - apply F2_nil in F1 as ->. exists t, (i_items i'). split; [reflexivity|]. split; [destruct i'; exact LA|]. rewrite app_nil_r. exact F2.
      - apply F2_cons in F1 as (p & ps' & -> & M & F1'). cbn [fst snd] in M.
        apply vm_tuple_inv in M as (ys & -> & FF). apply F2_cons in FF as (k1 & ys2 & -> & MK & FF2).
        apply F2_cons in FF2 as (v1 & ys3 & -> & MV & FF3). apply F2_nil in FF3 as ->.
        assert (HK : hashable cls h k0 = true).
        { rewrite forallb_forall in HH. apply HH. rewrite map_app. apply in_or_app. right. left. reflexivity. }
        assert (HK1 : hashable cls (u_heap t) k1 = true).
        { apply (hash_match w cl h bs s2 t bs k0 k1); auto; [eapply late_Inv; eauto|eapply late_vm; eauto]. }
        assert (NK : existsb (key_eqb k1) (map fst (i_items i')) = false).
        { rewrite map_app in DI, HH. cbn [map fst] in DI, HH. apply kdistinct_split in DI as (DI & _ & _).
          apply (existsb_key_Forall2 (vm s2 t2) k0 k1 (map fst dn)); auto.
          - clear - F2. induction F2 as [|a b ? ? [X _] ? IHF]; simpl; constructor; auto.
          - intros y y' Hy My. apply (key_eqb_match w cl h bs s2 t2 bs); auto. rewrite forallb_forall in HH. apply HH. apply in_or_app; auto. }
        set (i2 := upd i' (i_dict i') (i_items i' ++ [(k1, v1)]) (i_elems i') (i_state i')).
        destruct (IHd ps' (us_heap (hset (u_heap t) x (OInst i2)) t) i2 (dn ++ [(k0, v0)])) as (t' & its & R & LA2 & F3); auto.
        { eapply late_set; eauto. }
        { apply Forall2_app; auto. }
        { rewrite <- app_assoc. exact HH. }
        { rewrite <- app_assoc. exact DI. }
        exists t', its. rewrite <- app_assoc in F3. split; [|split; [exact LA2|exact F3]].
        cbn [foldM]. rewrite (bind_eq _ _ t tt (us_heap (hset (u_heap t) x (OInst i2)) t)); [exact R|].
        unfold dict_step. rewrite (bind_eq _ _ t [k1; v1] t) by reflexivity. rewrite (bind_eq _ _ t (u_heap t) t) by reflexivity.
        unfold u_inst. rewrite (la_at _ _ _ _ _ LA), KD. unfold inst_setitem. rewrite (bind_eq _ _ t (u_heap t) t) by reflexivity.
        rewrite HK1, dset_snoc by auto. reflexivity.
    Qed.
    Lemma dictitems_run s2 t2 t x q i' di di' d : Inv s2 t2 -> late t2 t x q i' -> i_items i' = [] -> dict_items w h (cls (i_cls i')) di d ->
      vm s2 t2 di di' ->
      exists t' its, reduce_dictitems w (VLoc x) di' t = (Ret tt, t') /\
        late t2 t' x q (upd i' (i_dict i') its (i_elems i') (i_state i')) /\
        Forall2 (fun p p' => vm s2 t2 (fst p) (fst p') /\ vm s2 t2 (snd p) (snd p')) d its.
    Proof.
      intros I LA EE DI M.
      assert (NONE : truthy cls (u_heap t) di' = false -> d = [] -> exists t' its, reduce_dictitems w (VLoc x) di' t = (Ret tt, t') /\
        late t2 t' x q (upd i' (i_dict i') its (i_elems i') (i_state i')) /\
        Forall2 (fun p p' => vm s2 t2 (fst p) (fst p') /\ vm s2 t2 (snd p) (snd p')) d its).
      { intros E ->. exists t, []. split; [|split; [|constructor]].
        - unfold reduce_dictitems. rewrite (bind_eq _ _ t false t) by (rewrite <- E; reflexivity). reflexivity.
        - rewrite <- EE. destruct i'; exact LA. }
      destruct DI as [| |d KD HH KI].
      - apply vm_atom_eq in M; [|reflexivity]. subst di'. apply NONE; reflexivity.
      - apply vm_tuple_inv in M as (ys & -> & FF). apply F2_nil in FF as ->. apply NONE; reflexivity.
      - apply vm_tuple_inv in M as (ps & -> & FF). destruct ps as [|p ps].
        + apply NONE; [reflexivity|]. destruct d; auto. inversion FF.
        + destruct (assigns s2 t2 x q d (p :: ps) t i' []) as (t' & its & R & LA2 & F3); auto.
          { rewrite EE. constructor. }
          exists t', its. split; [|split; [exact LA2|exact F3]].
          unfold reduce_dictitems. rewrite (bind_eq _ _ t true t) by reflexivity.
          rewrite (bind_eq _ _ t (p :: ps) t) by reflexivity. exact R.
    Qed.

    Lemma rt_reduce l i f args mkrec st li xs di d s t : hget h l = Some (OInst i) ->
      shape l [fun_doc w f; VTuple args; st; li; di; VNone] ->
      reduced w k h l i f args mkrec st li xs di d -> supported (VLoc l) -> Inv s t -> front s t (VLoc l) ->
      wp (get_flattener w k po n fl (VLoc l)) s (fun r s1 => exists j, r = Some j /\ delivers (S m) (VLoc l) s t j s1).
    Proof.
      intros H SH RD SU I F. cbn [get_flattener]. apply wp_bind.
      apply (wp_eq _ (ret (OInst i))); [eapply get_obj_run; eauto|]. apply wp_ret. apply wp_bind.
      unfold ref_obj_instance. rewrite Ou. apply wp_bind.
      destruct (mkref_cases po Ou Or (VLoc l) s) as [(ix & E1 & E2)|(E1 & E2)].
      { apply (wp_eq _ (ret false)); [exact E2|]. apply wp_ret.
        eapply wp_mono; [eapply deliver_ref; eauto|]. intros j s1 _ D. apply wp_ret. eauto. }
      apply (wp_eq _ (fun _ => (Ret true, openE (VLoc l) s))); [exact E2|]. cbn [wp].
      pose proof RD as [RH RR RF (rl & KR & NE & PAD) RM RS RST RLI RDI].
      set (p := length (u_prox t)). set (t1 := uref (VProxy p) (us_prox (u_prox t ++ [None]) t)).
      assert (OP : opened t p t1) by (constructor; reflexivity).
      assert (I1 : Inv (openE (VLoc l) s) t1) by (eapply late_inv; eauto).
      set (parts := [fun_doc w f; VTuple args; st; li; di; VNone]) in *.
      assert (EARLY : forall x, In x parts -> ~ reach x (VLoc l)).
      { intros x Hx. destruct (supported_node _ _ _ _ _ _ SU) as [_ EA]. apply EA. eapply ea_reduce; eauto. }
      cbn [flatten_object]. unfold flatten_obj_instance. apply wp_bind.
      apply (wp_eq _ (ret (OInst i))); [eapply get_obj_run; eauto|]. apply wp_ret.
      unfold no_handler in RH. rewrite RH, Op. apply wp_bind, wp_ret. rewrite Ou. apply wp_bind, wp_bind.
      apply (wp_eq _ (ret (RTup rl))).
      { unfold reduce_of. rewrite RR. apply catch_ret. rewrite KR. reflexivity. }
      apply wp_ret. destruct rl as [|r0 rl]; [congruence|]. unfold flatten_reduce_tuple, pad6. rewrite PAD.
      apply wp_bind. unfold truthy_p. apply wp_gets. rewrite (i_heap _ _ _ _ _ I1).
      assert (COND : truthy cls h st && c_getstate (cls (i_cls i)) && negb (c_setstate (cls (i_cls i))) &&
         negb (match c_kind (cls (i_cls i)) with KDict => true | _ => false end) = false).
      { destruct RST as [E _|_ _ E|sd a _ _ _ _ [E|E] _ _]; rewrite E; cbn [andb negb]; rewrite ?andb_false_r; reflexivity. }
      rewrite COND. clear COND.
      assert (FD : (if is_newobj_fun w f then VStr NEWOBJ else f) = fun_doc w f) by (destruct f; try reflexivity).
      rewrite FD. fold parts. apply wp_bind. eapply wp_mono.
      { apply (rt_mapM w k keys cl h bs po uo n m IH parts (openE (VLoc l) s) t1); auto.
        - intros v Hv. eapply supported_sub; eauto. eapply sub_obj; eauto.
        - intros v s' t' Hv A. apply (late_front s t l p t1 parts v s' t'); auto. }
      intros js s2 _ (W & L & _ & WJS & vs & t2 & R & A & M). apply wp_ret, wp_ret. rewrite wp_ret_iff || apply wp_ret.
      eexists. split; [reflexivity|].
      destruct (strip_split js) as [q0 ES].
      assert (WS : forallb jwf (strip_nulls js) = true).
      { rewrite ES, forallb_app in W. apply andb_true_iff in W. tauto. }
      change (sset REDUCE (JList (strip_nulls js)) []) with [(REDUCE, JList (strip_nulls js))].
      split.
      { cbn [jwf map fst nodupb forallb]. replace (str_ok REDUCE) with true by reflexivity.
        cbn [negb smem existsb andb]. rewrite WS. reflexivity. }
      assert (WALK : counted w keys h (JObj [(REDUCE, JList (strip_nulls js))]) s s2).
      { intros NU. specialize (WJS NU). cbn [openE p_objs set_objs] in WJS. rewrite app_length, Nat.add_comm in WJS. apply walk_object.
        - intros tg Htg. apply sget_notin. intros [<-|[]].
          assert (X : smem REDUCE special_tags = false) by reflexivity. change (In REDUCE special_tags) in Htg. apply smem_In in Htg. congruence.
        - eapply walkf_bare; [right; right; left; reflexivity| |apply walkf_nil]. rewrite ES in WJS. eapply walks_nulls; exact WJS. }
      split; [split; [|exact WALK]|].
      { assert (NN : forall c, by_name w k h l c -> False).
        { intros c (i0 & H0 & _ & [[_ NRD]|(hd & pre & vs0 & (_ & RG & _))]); assert (i0 = i) by congruence; subst i0; [|congruence].
          destruct NRD as [E|[E|E]]; congruence. }
        apply de_new; [intros c B; exfalso; eapply NN; eauto|]. intros f0 v PT. exfalso. apply part_name in PT as [c B]. eapply NN; eauto. }
      rewrite ES in R. destruct (mapM_nulls _ _ _ _ _ R) as (vs1 & R1 & EV).
      pose proof (a_inv _ _ _ _ _ _ _ _ _ _ _ _ A) as I2.
      assert (LV : length vs = 6) by (symmetry; apply (Forall2_len _ _ _ M)).
      assert (EV6 : vs1 ++ repeat VNone (6 - length vs1) = vs).
      { rewrite EV. do 2 f_equal. rewrite EV, app_length, repeat_length in LV. lia. }
      unfold parts in M. apply F2_cons in M as (f' & vs2 & -> & Mf & M). apply F2_cons in M as (ar & vs3 & -> & Ma & M). apply F2_cons in M as (st' & vs4 & -> & Ms & M).
      apply F2_cons in M as (li' & vs5 & -> & Ml & M). apply F2_cons in M as (di' & vs6 & -> & Md & M). apply F2_cons in M as (no & vs7 & -> & Mn & M). apply F2_nil in M as ->.
      assert (AF : atom (fun_doc w f) = true).
      { destruct RM as [? ? [(c0 & -> & _)|(g & -> & _)] _|g ? E _]; unfold fun_doc; try reflexivity; destruct (seqb _ _); reflexivity. }
      apply vm_atom_eq in Mf; auto. apply vm_atom_eq in Mn; [|reflexivity]. subst f' no.
      apply vm_tuple_inv in Ma as (a' & -> & FA).
      destruct (reduce_make_run (i_cls i) f args mkrec a' t2 RM) as (lg & MKR).
      { eapply Forall2_impl; [|exact FA]. intros a b Mab AT. eapply vm_atom_eq; eauto. }
      pose proof (fresh_late (i_cls i) (mkrec a') lg t2) as LA0.
      set (b1 := length (u_heap t2)) in *. set (x := cell w (i_cls i) b1) in *.
      set (t3 := us_log lg _) in *. set (q := dcell w (i_cls i) b1) in *.
      assert (FINst : forall y y', st = VLoc y -> rel s2 t2 y y' -> omatch w k keys h (u_heap t2) 0 bs (rel s2 t2) y y').
      { intros y y' E RL. apply (late_fin s t l p t1 s2 t2 y y' I F OP A); auto. rewrite <- E. apply EARLY. unfold parts. simpl; auto. }
      destruct (reduce_state_run s2 t2 t3 x (i_cls i) (mkrec a') st st' I2 LA0 RST Ms RS FINst) as (t4 & i4 & RUN4 & LA4 & EI4 & ST4).
      destruct (listitems_run s2 t2 t4 x q i4 li li' xs LA4) as (t5 & ys & RUN5 & LA5 & FY); auto.
      { rewrite EI4. reflexivity. }
      { rewrite EI4. exact RLI. }
      set (i5 := upd i4 (i_dict i4) (i_items i4) ys (i_state i4)) in *.
      destruct (dictitems_run s2 t2 t5 x q i5 di di' d I2 LA5) as (t6 & its & RUN6 & LA6 & FI); auto.
      { unfold i5. rewrite EI4. reflexivity. }
      { unfold i5. cbn [i_cls upd]. rewrite EI4. exact RDI. }
      set (i6 := upd i5 (i_dict i5) its (i_elems i5) (i_state i5)) in *.
      assert (EC6 : i_cls i6 = i_cls i) by (unfold i6, i5; cbn [i_cls upd]; rewrite EI4; reflexivity).
      assert (HDE : dict_exists (u_heap t6) x).
      { intros i0 d0 Hi Hd. rewrite (la_at _ _ _ _ _ LA6) in Hi. injection Hi as <-. change (i_dict i4 = Some d0) in Hd.
        destruct (truthy cls h st); [destruct (c_setstate (cls (i_cls i)))|].
        - destruct ST4 as [_ E]. exists []. apply (la_q _ _ _ _ _ LA6). unfold q, b1. congruence.
        - destruct ST4 as (_ & y & a & _ & E & HY). exists a. rewrite (la_old _ _ _ _ _ LA6); [congruence|].
          assert (d0 = y) by congruence. subst d0. eapply hget_lt; eauto.
        - destruct ST4 as [_ E]. exists []. apply (la_q _ _ _ _ _ LA6). unfold q, b1. congruence. }
      assert (DEC : restore w uo (S m) (JObj [(REDUCE, JList (strip_nulls js))]) t = (Ret (VLoc x), swapped (length (p_objs s)) p x t6)).
      { change (restore w uo (S m) (JObj [(REDUCE, JList (strip_nulls js))]) t) with (restore_reduce w rs [(REDUCE, JList (strip_nulls js))] t).
        unfold restore_reduce. change (jfield REDUCE [(REDUCE, JList (strip_nulls js))]) with (JList (strip_nulls js)).
        rewrite (bind_eq _ _ t (VProxy p) (us_prox (u_prox t ++ [None]) t)) by reflexivity.
        rewrite (bind_eq _ _ _ (VProxy p) t1).
        2: { unfold umkref. simpl u_idx. rewrite (idx_None cl h bs s t); auto. intros C. apply (D_prox cl h bs s t p I) in C. unfold p in C. lia. }
        rewrite (bind_eq _ _ t1 (Some vs1) t2).
        2: { apply catch_ret. cbn [jiter]. rewrite (bind_eq _ _ t1 (strip_nulls js) t1) by reflexivity. rewrite (bind_eq _ _ _ _ _ R1). reflexivity. }
        cbv iota beta. rewrite EV6. rewrite (bind_eq _ _ _ _ _ MKR). fold x. rewrite (bind_eq _ _ _ _ _ RUN4), (bind_eq _ _ _ _ _ RUN5), (bind_eq _ _ _ _ _ RUN6).
        eapply lc_run; eauto. }
      eexists _, _. split; [exact DEC|]. apply (lc_close s t l i p t1 s2 t2 t6 x _ _ I H OP A LA6 EC6 HDE).
      set (t7 := swapped (length (p_objs s)) p x t6).
      assert (VM : forall a b, vm s2 t2 a b -> vm s2 t7 a b) by (eapply lc_vm; eauto).
      eapply im_reduce with (args' := a'); [exact RD | | | | | |].
      - eapply Forall2_impl; [|exact FA]. auto.
      - unfold i6, i5. cbn [i_rec upd]. rewrite EI4. reflexivity.
      - change (i_state i6) with (i_state i4). change (i_dict i6) with (i_dict i4).
        destruct (truthy cls h st); [destruct (c_setstate (cls (i_cls i)))|].
        + destruct ST4 as [E _]. exists st'. split; auto.
        + destruct ST4 as (E & y & a & -> & E3 & _). split; auto. exists y. split; auto.
        + destruct ST4 as [E1' E2']. split; auto. intros y Hy. destruct (la_q _ _ _ _ _ LA6 y) as (X & _ & Y); [unfold q, b1; congruence|]. auto.
      - eapply Forall2_impl; [|exact FY]. auto.
      - eapply Forall2_impl; [|exact FI]. intros ? ? [X Y]. split; auto.
      - unfold i6, i5. cbn [i_slots upd]. rewrite EI4. reflexivity.
    Qed.

    (** ** Tuple subclasses *)
    Lemma vm_within s t a a' x : vm s t a a' -> SpecGraph.within a x -> exists x', vm s t x x'.
    Proof.
      intros M W. revert a' M. induction W as [v|xs y z Hy W IHW]; intros a' M; [eauto|].
      apply vm_tuple_inv in M as (ys & -> & FF). clear - FF Hy IHW.
      induction FF as [|a b la lb Mab FF IHF]; [destruct Hy|]. destruct Hy as [<-|Hy]; eauto.
    Qed.
    (** What is numbered is encoded again as a reference: nothing changes. *)
    Definition still (n1 : nat) (j : json) : Prop := jwf j = true /\ walk keys n1 j n1.
    Lemma still_tuple n1 js : forallb jwf js = true /\ walks keys n1 js n1 -> still n1 (JObj [(TUPLE, JList js)]).
    Proof.
      intros [W WS]. split; [|apply walk_group; [left; auto|auto]].
      cbn [jwf map fst nodupb forallb]. replace (str_ok TUPLE) with true by reflexivity. cbn [negb smem existsb andb]. rewrite W. reflexivity.
    Qed.
    Lemma still_set n1 js : forallb jwf js = true /\ walks keys n1 js n1 -> still n1 (JObj [(SET_, JList js)]).
    Proof.
      intros [W WS]. split; [|apply walk_group; [right; left; auto|auto]].
      cbn [jwf map fst nodupb forallb]. replace (str_ok SET_) with true by reflexivity. cbn [negb smem existsb andb]. rewrite W. reflexivity.
    Qed.
    Lemma again_mapM s xs n1 : (forall x, In x xs -> wp (flatten w k po n1 x) s (fun j s' => still (length (p_objs s)) j /\ s' = s)) ->
      wp (mapM (flatten w k po n1) xs) s (fun js s' => (forallb jwf js = true /\ walks keys (length (p_objs s)) js (length (p_objs s))) /\ s' = s).
    Proof.
      induction xs as [|x xs IHx]; intros H; cbn [mapM]; [apply wp_ret; split; [split; [auto|apply walks_nil]|auto]|]. apply wp_bind.
      eapply wp_mono; [apply H; left; auto|]. intros j s1 _ [[W WK] ->]. apply wp_bind.
      eapply wp_mono; [apply IHx; intros; apply H; right; auto|]. intros js s1 _ [[W2 WK2] ->]. apply wp_ret. simpl. rewrite W.
      split; [split; [auto|eapply walks_cons; eauto]|auto].
    Qed.
    Lemma again s0 t0 x x' : Inv s0 t0 -> vm s0 t0 x x' -> supported x -> (forall md, ~ held h x (VMod md)) ->
      forall n1 d, (0 <= d)%Z -> wp (flatten w k po n1 x) (set_depth d s0) (fun j s' => still (length (p_objs s0)) j /\ s' = set_depth d s0).
    Proof.
      intros I0 M. pose proof (i_heap _ _ _ _ _ I0) as HP.
      assert (PUSH : forall v n1 d, (0 <= d)%Z -> prim_json v = None -> (forall b, v <> VBytes b) ->
        (forall l b, v = VLoc l -> hget h l <> Some (OByteArray b)) ->
        wp (get_flattener w k po n1 (flatten w k po n1) v) (set_depth (d + 1)%Z s0)
          (fun r s1 => exists j, r = Some j /\ still (length (p_objs s0)) j /\ s1 = set_depth (d + 1)%Z s0) ->
        wp (flatten w k po (S n1) v) (set_depth d s0) (fun j s' => still (length (p_objs s0)) j /\ s' = set_depth d s0)).
      { intros v n1 d Hd P B C W. apply (wp_flatten_push w k po Ou Or Od); auto.
        - intros y b E. simpl. rewrite HP. eauto.
        - eapply wp_mono; [exact W|]. intros r s1 _ (j & -> & J & ->). exists j. split; [auto|]. split; [reflexivity|]. split; [auto|reflexivity]. }
      induction M as [v A|xs ys F FP|y y' xs ys H1 H2 H3 F FP|y y' b H1 H2 H3|y y' R] using vmatch_ind'; intros S NM n1 d Hd.
      - assert (P : pure v = true) by (destruct v; try discriminate; try reflexivity; exfalso; eapply NM; constructor).
        eapply wp_mono; [apply (flatten_pure w k keys cl h po); auto|]. intros j s1 _ (-> & -> & _). split; auto. split; [eapply pdoc_wf; eauto|apply walk_pure; auto].
      - destruct n1 as [|n1]; [exact Logic.I|]. apply PUSH; try (intros; discriminate); auto.
        cbn [get_flattener]. unfold list_recurse. apply wp_bind, wp_bind. eapply wp_mono.
        + apply again_mapM. intros x Hx. clear F. 
          assert (S' : supported x) by (eapply supported_tuple; eauto).
          assert (NM' : forall md, ~ held h x (VMod md)) by (intros md C; apply (NM md); eapply he_tuple; eauto).
          clear S NM. induction FP as [|a b la lb Pab FP IHF]; [destruct Hx|]. destruct Hx as [->|Hx]; auto. apply Pab; auto. lia.
        + intros js s1 _ [W ->]. apply wp_ret, wp_ret. rewrite Ou. eexists. split; [reflexivity|]. split; [apply still_tuple; exact W|auto].
      - destruct n1 as [|n1]; [exact Logic.I|]. apply PUSH; try (intros; discriminate); auto; [intros l0 b0 E; injection E as <-; congruence|].
        cbn [get_flattener]. apply wp_bind. apply (wp_eq _ (ret (OSet xs))).
        { unfold get_obj, bind, gets. simpl. rewrite HP, H1. reflexivity. }
        apply wp_ret. unfold list_recurse. apply wp_bind, wp_bind. eapply wp_mono.
        + apply again_mapM. intros x Hx. clear F.
          assert (S' : supported x).
          { pose proof (supported_node _ _ _ _ _ _ S) as [[cs SH] _].
            eapply supported_sub; [exact S|]. eapply sub_obj; [exact SH|]. inversion SH; subst; try congruence. }
          assert (NM' : forall md, ~ held h x (VMod md)) by (intros md C; apply (NM md); eapply he_set; eauto).
          clear S NM H1 H3. induction FP as [|a b la lb Pab FP IHF]; [destruct Hx|]. destruct Hx as [->|Hx]; auto. apply Pab; auto. lia.
        + intros js s1 _ [W ->]. apply wp_ret, wp_ret. rewrite Ou. eexists. split; [reflexivity|]. split; [apply still_set; exact W|auto].
      - destruct n1 as [|n1]; [exact Logic.I|]. rewrite (flatten_S w k po Ou Or). unfold wp.
        rewrite (flatten_impl_bytearray w k po n1 _ y b (set_depth d s0)) by (simpl; rewrite HP; auto). split; auto. split; [|apply walk_leaf; [simpl; tauto|unfold flatten_bytestring; destruct (po_b85 po); reflexivity]].
        cbn [jwf map fst nodupb forallb]. rewrite jwf_bytes. reflexivity.
      - destruct n1 as [|n1]; [exact Logic.I|]. destruct R as (ix & R1 & R2).
        destruct (mkref_cases po Ou Or (VLoc y) (set_depth (d + 1)%Z s0)) as [(i & E1 & E2)|(E1 & E2)].
        2: { exfalso. apply E1. simpl. eapply nth_error_In; eauto. }
        assert (G : wp (getref (VLoc y)) (set_depth (d + 1)%Z s0) (fun j s1 => still (length (p_objs s0)) j /\ s1 = set_depth (d + 1)%Z s0)).
        { unfold getref. apply wp_bind, wp_gets, wp_ret. rewrite E1. split; [|reflexivity]. split; [reflexivity|]. apply walk_ref. apply index_of_Some in E1. apply nth_error_Some. simpl in E1. congruence. }
        pose proof (supported_node _ _ _ _ _ _ S) as [[cs SH] _].
        destruct (hget h y) as [o|] eqn:HY; [|inversion SH; congruence].
        assert (NB : forall b, o <> OByteArray b).
        { intros b ->. destruct (ent_at _ _ _ _ _ _ _ I0 R1) as (x & Hx & EX). rewrite R2 in Hx. injection Hx as <-.
          simpl in EX. unfold RTBase.head_ok in EX. rewrite HY in EX. tauto. }
        apply PUSH; try (intros; discriminate); auto; [intros l0 b0 E; injection E as <-; rewrite HY; congruence|].
        cbn [get_flattener]. apply wp_bind. apply (wp_eq _ (ret o)).
        { unfold get_obj, bind, gets. simpl. rewrite HP, HY. reflexivity. }
        apply wp_ret. destruct o; try (exfalso; eapply NB; reflexivity).
        + apply wp_bind. apply (wp_eq _ (ret false)); [exact E2|]. apply wp_ret. apply wp_bind.
          eapply wp_mono; [exact G|]. intros j s1 _ [W ->]. apply wp_ret. eauto.
        + exfalso. destruct (ent_at _ _ _ _ _ _ _ I0 R1) as (x & Hx & EX). rewrite R2 in Hx. injection Hx as <-.
          simpl in EX. unfold RTBase.head_ok in EX. rewrite HY in EX. tauto.
        + apply wp_bind. apply (wp_eq _ (ret false)); [exact E2|]. apply wp_ret. apply wp_bind.
          eapply wp_mono; [exact G|]. intros j s1 _ [W ->]. apply wp_ret. eauto.
        + apply wp_bind. unfold ref_obj_instance. rewrite Ou. apply wp_bind. apply (wp_eq _ (ret false)); [exact E2|]. apply wp_ret.
          eapply wp_mono; [exact G|]. intros j s1 _ [W ->]. apply wp_ret. eauto.
        + inversion SH; congruence.
    Qed.

    Lemma cells_fcells ci args kw b : cells w ci None args kw b = fcells ci (CNew args kw) b.
    Proof. unfold cells, fcells. destruct (c_dict (cls ci)); reflexivity. Qed.
    Lemma sset_snoc {A} x (v : A) (d : list (pystr * A)) : ~ In x (map fst d) -> sset x v d = d ++ [(x, v)].
    Proof.
      induction d as [|[y v'] d IHd]; simpl; intros N; auto. destruct (seqb_spec x y) as [->|N2]; [exfalso; auto|]. rewrite IHd; auto.
    Qed.

    Lemma rt_tupleobj l i cs args kw s t : hget h l = Some (OInst i) ->
      c_kind (cls (i_cls i)) = KTuple -> class_ok w cl (i_cls i) (length args) (map fst kw) -> no_reduce k (cls (i_cls i)) l ->
      no_state w k h (cls (i_cls i)) l -> ctor k h (cls (i_cls i)) l cs args kw -> cs <> [] ->
      c_dict (cls (i_cls i)) = false -> i_dict i = None -> i_slots i = [] -> c_deffac (cls (i_cls i)) = false ->
      (forall x, In x (i_elems i) -> (exists a, In a (args ++ map snd kw) /\ SpecGraph.within a x) /\ forall md, ~ held h x (VMod md)) ->
      shape l (cs ++ i_elems i) -> supported (VLoc l) -> Inv s t -> front s t (VLoc l) ->
      wp (get_flattener w k po n fl (VLoc l)) s (fun r s1 => exists j, r = Some j /\ delivers (S m) (VLoc l) s t j s1).
    Proof.
      intros H KT CO NR NS CT NE CD ID IS FD EL SH SU I F. cbn [get_flattener]. apply wp_bind.
      apply (wp_eq _ (ret (OInst i))); [eapply get_obj_run; eauto|]. apply wp_ret. apply wp_bind.
      unfold ref_obj_instance. rewrite Ou. apply wp_bind.
      destruct (mkref_cases po Ou Or (VLoc l) s) as [(ix & E1 & E2)|(E1 & E2)].
      { apply (wp_eq _ (ret false)); [exact E2|]. apply wp_ret.
        eapply wp_mono; [eapply deliver_ref; eauto|]. intros j s1 _ D. apply wp_ret. eauto. }
      apply (wp_eq _ (fun _ => (Ret true, openE (VLoc l) s))); [exact E2|]. cbn [wp].
      pose proof CO as (NM & LC & RL & _ & NEW). set (name := importable_name (cls (i_cls i))) in *.
      destruct (u_loadclass_opened s t name _ I LC) as (lg & ELC & OP0).
      set (p := length (u_prox t)) in *.
      set (t1 := uref (VProxy p) (us_prox (u_prox t ++ [None]) (us_log lg t))) in *.
      assert (OP : opened t p t1) by (specialize (OP0 (u_log t1)); destruct OP0; constructor; auto).
      assert (I1 : Inv (openE (VLoc l) s) t1) by (eapply late_inv; eauto).
      assert (EARLY : forall x, In x cs -> ~ reach x (VLoc l)).
      { intros x Hx. destruct (supported_node _ _ _ _ _ _ SU) as [_ EA]. apply EA. eapply ea_ctor; eauto. split; auto. }
      assert (INC : forall x, In x cs -> In x (cs ++ i_elems i)) by (intros; apply in_or_app; auto).
      cbn [flatten_object]. unfold flatten_obj_instance. apply wp_bind.
      apply (wp_eq _ (ret (OInst i))); [eapply get_obj_run; eauto|]. apply wp_ret.
      fold name. rewrite RL, Op. apply wp_bind, wp_ret. rewrite Ou. apply wp_bind, wp_bind.
      apply (wp_eq _ (ret RNone)); [apply reduce_none; auto|]. apply wp_ret, wp_ret.
      apply (wp_eq _ _ _ _ (inst_rest_split w k po Ou n l i name _)). apply wp_bind.
      eapply wp_mono.
      { apply (rt_ctor w k keys cl h bs po uo Ok Uk Uv n m IH (i_cls i) l name cs args kw (openE (VLoc l) s) t1 true); auto.
        - intros x Hx. eapply supported_sub; eauto. eapply sub_obj; eauto.
        - intros x s' t' Hx A. apply (late_front s t l p t1 (cs ++ i_elems i) x s' t'); auto.
        - intros kd s' t' y Hy A R. apply (late_fin s t l p t1 s' t' kd y I F OP A); auto.
        - intros _ C. congruence. }
      intros data4 s2 _ (cd & ED4 & KC & NDC & [WC WKC] & DAG & args' & kw' & t2 & A & MA & MK & DEC).
      pose proof (a_inv _ _ _ _ _ _ _ _ _ _ _ _ A) as I2.
      assert (KD : forall y, In y (Json.keys data4) -> In y head_tags).
      { rewrite ED4. intros y [<-|Hy]; [left; auto|]. right. apply KC; auto. }
      apply (wp_eq _ (by_kind w k po n l i data4)); [apply (body_nostate w k h po n); auto; apply I2|].
      unfold by_kind. rewrite KT. unfold flatten_sequence_obj. rewrite ID. apply wp_bind, wp_ret, wp_bind.
      assert (SS : s2 = set_depth (p_depth s2) s2) by (destruct s2; reflexivity).
      eapply wp_mono.
      { apply again_mapM. intros x Hx. destruct (EL x Hx) as ((a & Ha & Wi) & NMd).
        assert (exists a', vm s2 t2 a a') as (a' & Ma).
        { apply in_app_or in Ha as [Ha|Ha].
          - clear - MA Ha. induction MA as [|? ? ? ? M0 ? IHM]; [destruct Ha|]. destruct Ha as [<-|Ha]; eauto.
          - clear - MK Ha. induction MK as [|? ? ? ? [_ M0] ? IHM]; [destruct Ha|]. destruct Ha as [<-|Ha]; eauto. }
        destruct (vm_within s2 t2 a a' x Ma Wi) as [x' Mx]. 
        assert (SX : supported x) by (eapply supported_sub; [exact SU|]; eapply sub_obj; eauto; apply in_or_app; auto).
        pose proof (again s2 t2 x x' I2 Mx SX NMd n (p_depth s2) (i_depth _ _ _ _ _ I2)) as AG. rewrite <- SS in AG. exact AG. }
      intros js s3 _ [[W WSJ] ->]. rewrite Ou. apply wp_ret, wp_ret. eexists. split; [reflexivity|].
      assert (NSQ : ~ In SEQ (map fst data4)) by (intros C; apply KD, head_tags_ok in C; tauto).
      rewrite sset_snoc by auto. set (ob := data4 ++ [(SEQ, JList js)]).
      assert (JW : jwf (JObj ob) = true).
      { apply jwf_obj.
        - unfold ob. rewrite map_app. apply NoDup_app_intro.
          + rewrite ED4. constructor; auto. intros C. apply KC in C. revert C. clear. intros [C|[C|[C|[]]]]; discriminate.
          + repeat constructor. intros [].
          + intros y Hy [<-|[]]. auto.
        - intros y Hy. unfold ob in Hy. rewrite map_app in Hy. apply in_app_or in Hy as [Hy|[<-|[]]]; [|reflexivity].
          apply KD, head_tags_ok in Hy. tauto.
        - unfold ob. rewrite map_app, forallb_app, ED4. cbn [map snd forallb]. rewrite WC. change (jwf (JStr name)) with (str_ok name). rewrite NM.
          cbn [andb jwf]. rewrite W. reflexivity. }
      split; [exact JW|].
      assert (SG : forall y, In y head_tags -> sget y ob = sget y data4).
      { intros y Hy. unfold ob. rewrite sget_app. destruct (sget y data4); auto. apply sget_notin. intros [C|[]]. subst y. apply head_tags_ok in Hy. tauto. }
      assert (WALK : counted w keys h (JObj ob) s s2).
      { intros NU. apply walk_object.
        - intros tg Htg. apply sget_notin. intros C.
          assert (X : forallb (fun tg => negb (smem tg (SEQ :: head_tags))) special_tags = true) by reflexivity.
          rewrite forallb_forall in X. apply X in Htg. apply negb_true_iff in Htg.
          assert (X3 : In tg (SEQ :: head_tags)); [|apply smem_In in X3; congruence].
          unfold ob in C. rewrite map_app in C. apply in_app_or in C as [C|[<-|[]]]; [right; apply KD; auto|left; auto].
        - specialize (WKC NU). cbn [openE p_objs set_objs] in WKC. rewrite app_length, Nat.add_comm in WKC.
          unfold ob. rewrite ED4.
          eapply walkf_value; [intros [C|[C|[C|[C|[]]]]]; discriminate|reflexivity|apply walk_scalar; reflexivity|].
          eapply walkf_app; [exact WKC|]. eapply walkf_bare; [left; reflexivity|exact WSJ|apply walkf_nil]. }
      split; [split; [|exact WALK]|].
      { apply de_new.
        - intros c (i0 & H0 & <- & _). assert (i0 = i) by congruence. subst i0. unfold ob. rewrite ED4. reflexivity.
        - intros f v PT. destruct f as [a|].
          + exfalso. eapply part_kind; [eauto..|exact H| |exact PT]. congruence.
          + apply part_args in PT as (i0 & a & -> & H0 & P1 & P2 & P3). assert (i0 = i) by congruence. subst i0.
            destruct (DAG a P1 P2 P3) as (j & G & D). exists j. split; [|exact D]. cbn [fname].
            rewrite SG by (right; simpl; auto). rewrite ED4. cbn [sget]. exact G. }
      destruct (DEC ob) as (aj & kj & ta & tb & D1 & D2 & D3).
      { intros y Hy. rewrite SG by (right; auto). rewrite ED4. cbn [sget]. destruct (seqb_spec y OBJECT) as [->|]; auto.
        exfalso. revert Hy. clear. intros [C|[C|[C|[]]]]; discriminate. }
      { rewrite SG by (left; auto). rewrite ED4. reflexivity. }
      { unfold ob, shas. rewrite sget_app. rewrite (sget_notin SEQ data4) by auto. reflexivity. }
      assert (NW : w_new w (u_heap t2) (i_cls i) args' kw' = CInst (i_cls i)).
      { apply NEW.
        - symmetry. eapply Forall2_len; eauto.
        - clear - MK. induction MK as [|a b ? ? [X _] ? IHM]; simpl; congruence. }
      pose proof (new_attempt_run w keys po uo n m Hnm (i_cls i) None args' kw' t2 Logic.I NW) as E3. cbn [olist app] in E3.
      rewrite cells_fcells in E3.
      set (b1 := length (u_heap t2)) in *. set (x := cell w (i_cls i) b1) in *.
      set (lg2 := u_log t2 ++ [EvNew (i_cls i) args' kw']) in *.
      pose proof (fresh_late (i_cls i) (CNew args' kw') lg2 t2) as LA. fold b1 in LA. fold x in LA.
      set (t4 := us_log lg2 (us_heap (u_heap t2 ++ fcells (i_cls i) (CNew args' kw') b1) t2)) in *.
      set (q := dcell w (i_cls i) b1) in *.
      assert (EQ : q = None) by (unfold q, dcell; rewrite CD; reflexivity).
      assert (HDE : dict_exists (u_heap t4) x).
      { intros i0 d Hi Hd. rewrite (la_at _ _ _ _ _ LA) in Hi. injection Hi as <-. cbn [i_dict finst] in Hd. congruence. }
      assert (DOB : restore w uo (S m) (JObj ob) t = (Ret (VLoc x), swapped (length (p_objs s)) p x t4)).
      { change (restore w uo (S m) (JObj ob) t) with (restore_step w uo rs (JObj ob) t).
        assert (EOB : sget OBJECT ob = Some (JStr name)) by (rewrite SG by (left; auto); rewrite ED4; reflexivity).
        rewrite dispatch_object.
        2: { unfold shas. rewrite EOB. reflexivity. }
        2: { intros y Hy. unfold ob, Json.keys in Hy. rewrite map_app in Hy. apply in_app_or in Hy as [Hy|[<-|[]]]; auto. }
        unfold restore_object, jfield. rewrite EOB. rewrite (bind_eq _ _ _ _ _ ELC). cbv zeta. rewrite RL. unfold restore_object_instance.
        rewrite (bind_eq _ _ (us_log lg t) (VProxy p) (us_prox (u_prox t ++ [None]) (us_log lg t))) by reflexivity.
        rewrite (bind_eq _ _ _ (VProxy p) t1).
        2: { unfold umkref. simpl u_idx. rewrite (idx_None cl h bs s t); auto. intros C. apply (D_prox cl h bs s t p I) in C. unfold p in C. lia. }
        assert (LFO : loadfactory rs ob t1 = (Ret (None, ob), t1)).
        { unfold loadfactory.
          assert (NK : forall y, In y (map fst ob) -> In y head_tags \/ y = SEQ).
          { intros y Hy. unfold ob in Hy. rewrite map_app in Hy. apply in_app_or in Hy as [Hy|[<-|[]]]; auto. }
          rewrite (sget_notin DEFAULT_FACTORY).
          2: { intros C. apply NK in C. revert C. clear. intros [[C|[C|[C|[C|[]]]]]|C]; discriminate. }
          rewrite (sget_notin (u "default_factory")); [reflexivity|].
          intros C. apply NK in C as [C|C]; [apply head_tags_ok in C; tauto | discriminate]. }
        rewrite (bind_eq _ _ _ _ _ LFO). cbv beta iota.
        rewrite (bind_eq _ _ _ _ _ D1). cbn [fst snd]. rewrite (bind_eq _ _ _ _ _ D2), (bind_eq _ _ _ _ _ D3).
        rewrite (bind_eq _ _ t2 (Some (VLoc x)) t4).
        2: { apply catch_ret. rewrite (bind_eq _ _ _ _ _ E3). reflexivity. }
        rewrite (bind_eq _ _ t4 (Some (VLoc x)) t4) by reflexivity.
        pose proof (lc_run s t l p t1 s2 t2 t4 x q _ I OP A LA) as RUN.
        set (t5 := swapped (length (p_objs s)) p x t4) in *.
        assert (TT : is_tuple w (u_heap t5) (VLoc x) = true).
        { unfold is_tuple. rewrite (la_at _ _ _ _ _ LA : hget (u_heap t5) x = _). cbn [i_cls finst]. rewrite KT. reflexivity. }
        rewrite (bind_eq _ _ t4 tt (us_prox (list_set (u_prox t4) p (Some (VLoc x))) t4)) by reflexivity.
        rewrite (bind_eq _ _ t4 tt (us_prox (list_set (u_prox t4) p (Some (VLoc x))) t4)) in RUN by reflexivity.
        destruct (swapref (VProxy p) (VLoc x) (us_prox (list_set (u_prox t4) p (Some (VLoc x))) t4)) as [[[]|e|] t6] eqn:ESW.
        2, 3: unfold bind in RUN; rewrite ESW in RUN; discriminate.
        rewrite (bind_eq _ _ _ _ _ ESW) in RUN. injection RUN as <-. rewrite (bind_eq _ _ _ _ _ ESW).
        rewrite (bind_eq _ _ t6 (u_heap t6) t6) by reflexivity. rewrite TT. reflexivity. }
      eexists _, _. split; [exact DOB|]. apply (lc_close s t l i p t1 s2 t2 t4 x _ _ I H OP A LA eq_refl HDE).
      eapply im_attrs; [split; [exact RL|exact NR] | exact NS | congruence | exact CT | | | | reflexivity].
      - exists args', kw'. split; [reflexivity|]. split; [eapply lc_vms; eauto|].
        eapply Forall2_impl; [|exact MK]. intros a b [X Y]. split; auto. eapply lc_vm; eauto.
      - split; [|split; [|split]].
        + cbn [i_dict finst]. congruence.
        + intros a. unfold inst_attr. cbn [i_dict i_slots finst]. rewrite ID, IS. fold q. rewrite EQ. destruct (kept _ a); simpl; auto.
        + intros _. cbn [i_dict finst]. exact EQ.
        + intros its. unfold attrs_of. rewrite ID. discriminate.
      - intros [C|C]; congruence.
    Qed.
  End level.
End late.
