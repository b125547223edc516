(** Round trip, part 9: instances, without their contents. *)
From Verif Require Import PyStr Tags Json JsonText JsonTextProofs B64 B85 Base Heap Registry LoadClass Pickler Unpickler SpecJson SpecGraph.
From Verif Require Import CodecProofs PlainProofs WP RTBase RTStep RTPure RTDesc SpecRefs RTWalk RTCont RTOrder RTKinds RTInst.
From Coq Require Import Permutation.
Open Scope nat_scope.
Local Open Scope monad_scope.

Lemma sget_app {A} x (a b : list (pystr * A)) : sget x (a ++ b) = match sget x a with Some v => Some v | None => sget x b end.
Proof. induction a as [|[y v] a IH]; simpl; auto. destruct (seqb x y); auto. Qed.
Lemma sget_some_in {A} x (a : list (pystr * A)) v : sget x a = Some v -> In x (map fst a).
Proof.
  induction a as [|[y v'] a IH]; simpl; intros H; [discriminate|]. destruct (seqb_spec x y) as [->|N]; auto.
Qed.
Lemma shas_false {A} x (a : list (pystr * A)) : ~ In x (map fst a) -> shas x a = false.
Proof. intros H. unfold shas. rewrite sget_notin; auto. Qed.
Lemma sdel_mid {A} x v (a b : list (pystr * A)) : ~ In x (map fst a) -> sdel x (a ++ (x, v) :: b) = a ++ b.
Proof.
  induction a as [|[y v'] a IH]; simpl; intros N.
  - destruct (seqb_spec x x); congruence.
  - destruct (seqb_spec x y) as [->|N2]; [exfalso; auto|]. rewrite IH; auto.
Qed.

Lemma nth_error_list_set {A} (l : list A) n x i :
  nth_error (list_set l n x) i = if Nat.eqb i n then match nth_error l n with Some _ => Some x | None => None end else nth_error l i.
Proof.
  revert n i. induction l as [|y l IH]; intros [|n] [|i]; simpl; auto. destruct (Nat.eqb i n); reflexivity.
Qed.
Lemma NoDup_app_intro {A} (a b : list A) : NoDup a -> NoDup b -> (forall x, In x a -> ~ In x b) -> NoDup (a ++ b).
Proof.
  induction 1 as [|x a N H IH]; simpl; auto. intros HB D. constructor; [|apply IH; auto].
  intros C. apply in_app_or in C as [C|C]; auto. apply (D x); auto.
Qed.

(** The keys of instance documents. *)
Definition head_tags : list pystr := [OBJECT; NEWARGSEX; NEWARGS; INITARGS].
Definition out_key (y : pystr) : Prop :=
  (y = SEQ \/ y = STATE \/ is_reserved y = false /\ seqb y B64 = false /\ seqb y B85 = false) /\
  y <> u "default_factory" /\ str_ok y = true.
Lemma head_tags_ok y : In y head_tags -> is_reserved y = true /\ str_ok y = true /\ y <> SEQ /\ y <> STATE /\ y <> u "default_factory".
Proof.
  intros H. assert (X : forallb (fun y => is_reserved y && str_ok y && negb (seqb y SEQ) && negb (seqb y STATE) && negb (seqb y (u "default_factory"))) head_tags = true) by reflexivity.
  rewrite forallb_forall in X. apply X in H. rewrite !andb_true_iff, !negb_true_iff in H. destruct H as ((((A & B) & C) & D) & E).
  repeat split; auto; intros ->.
  - destruct (seqb_spec SEQ SEQ); congruence.
  - destruct (seqb_spec STATE STATE); congruence.
  - destruct (seqb_spec (u "default_factory") (u "default_factory")); congruence.
Qed.
Lemma out_not_head y : out_key y -> ~ In y head_tags.
Proof.
  intros [[->|[->|(A & _)]] _] H; apply head_tags_ok in H as (B & _ & C & D & _); congruence.
Qed.
Lemma dispatch_object w uo rs ob t : shas OBJECT ob = true ->
  (forall x, In x (Json.keys ob) -> In x head_tags \/ x = SEQ \/ x = STATE \/ is_reserved x = false /\ seqb x B64 = false /\ seqb x B85 = false) ->
  restore_step w uo rs (JObj ob) t = restore_object w uo rs ob t.
Proof.
  intros HO H. unfold restore_step.
  assert (X : forall tg, In tg [TUPLE; SET_; B64; B85; BYTEARRAY; ID; ITERATOR] -> shas tg ob = false).
  { intros tg Htg. destruct (shas tg ob) eqn:E; auto. apply shas_In in E. apply H in E.
    assert (Y : forallb (fun tg => negb (smem tg (SEQ :: STATE :: head_tags)) && (is_reserved tg || seqb tg B64 || seqb tg B85)) [TUPLE; SET_; B64; B85; BYTEARRAY; ID; ITERATOR] = true) by reflexivity.
    rewrite forallb_forall in Y. apply Y in Htg. apply andb_true_iff in Htg as [Y1 Y2]. apply negb_true_iff in Y1.
    assert (Z : smem tg (SEQ :: STATE :: head_tags) = true \/ is_reserved tg = false /\ seqb tg B64 = false /\ seqb tg B85 = false).
    { destruct E as [E|[E|[E|E]]]; auto; left; apply smem_In; simpl; auto. }
    destruct Z as [Z|(Z1 & Z2 & Z3)]; [congruence|]. rewrite Z1, Z2, Z3 in Y2. discriminate. }
  rewrite !X by (simpl; tauto). rewrite HO. reflexivity.
Qed.

Section obj.
  Variables (w : world) (k : hooks) (keys : bool) (cl : list (pystr * val)) (h : heap) (bs : nat) (po : popts) (uo : uopts).
  Notation cls := (w_cls w).
  Notation shape := (shape w k keys cl h).
  Notation reach := (reach w k keys cl h).
  Notation sub := (sub w k keys cl h).
  Notation supported := (supported w k keys cl h).
  Notation Inv := (Inv cl h bs).
  Notation front := (front w k keys cl h bs).
  Notation adv := (adv w k keys cl h bs).
  Notation head_ok := (head_ok h).
  Notation pdoc := (pdoc w po).
  Notation desc := (desc w k keys cl h po).
  Notation kname := (kname w k keys cl h po).
  Notation kapart := (kapart w k h).
  Notation apart := (apart w k h).
  Notation key_ok := (key_ok w keys h).
  Notation dict_ok := (dict_ok w k keys h).
  Notation item_doc := (item_doc w k keys cl h po).
  Notation delivers := (delivers w k keys cl h bs po uo).
  Notation PP := (PP w k keys cl h bs po uo).
  Notation vm s t := (vmatch h (u_heap t) bs (rel s t)).
  Notation cell := (cell w).
  Notation dcell := (dcell w).

  Hypothesis Ou : po_unpicklable po = true.
  Hypothesis Or : po_make_refs po = true.
  Hypothesis Od : po_max_depth po = None.
  Hypothesis Op : po_props po = false.
  Hypothesis Oro : po_readonly po = false.
  Hypothesis Os : po_sort po = false.
  Hypothesis Ok : po_keys po = keys.
  Hypothesis Uk : uo_keys uo = keys.
  Hypothesis Uv : uo_v1 uo = false.

  Section level.
    Variables (n m : nat).
    Hypothesis IH : PP n m.
    Hypothesis Hnm : n <= m.
    Hypothesis Hm1 : 1 <= m.
    Notation fl := (flatten w k po n).
    Notation rs := (restore w uo m).

    (** What the encoder does after the constructor arguments (pickler.py:715-787). *)
    Definition inst_body (l : loc) (i : inst) (data4 : jobj) : MP json :=
      let c := cls (i_cls i) in
      gs <- (if c_getstate c then
               catch (st <- lift (k_getstate k l) ;; ret (Some st)) is_TypeError (fun _ => ret None)
             else ret (Some VNone)) ;;
      match gs with
      | None => pickle_warning po (VLoc l) ;;; ret JNull
      | Some st0 =>
          h <- gets p_heap ;;
          st <- (match c_exclude c, st0 with
                 | _ :: _, VLoc sl =>
                     match hget h sl with
                     | Some (ODict its) =>
                         let (d', h') := halloc (ODict (items (c_exclude c) its)) h in
                         modify (set_heap h') ;;; ret (VLoc d')
                     | _ => ret st0
                     end
                 | _, _ => ret st0
                 end) ;;
          t <- truthy_p w st ;;
          if t && c_getstate c then
            j <- fl st ;;
            if po_unpicklable po then ret (JObj (sset STATE j data4)) else ret j
          else
          match c_kind c with
          | KDict => d <- flatten_dict_subclass w k po fl l i data4 ;; ret (JObj d)
          | KList | KSet | KTuple => flatten_sequence_obj w k po fl i data4
          | KIter => js <- iter_loop k fl n l (po_max_iter po) ;; ret (JObj (sset ITERATOR (JList js) data4))
          | _ =>
              match i_dict i with
              | Some d => dt <- flatten_plain_dict w k po fl d (c_exclude c) data4 ;; ret (JObj dt)
              | None =>
                  match c_slots c with
                  | Some _ => flatten_newstyle_with_slots w k po fl l i data4
                  | None =>
                      match data4 with
                      | _ :: _ => ret (JObj data4)
                      | [] =>
                          (if po_unpicklable po then pickle_warning po (VLoc l) ;;; ret JNull
                           else
                             r <- reduce_of w k l i ;;
                             match r with
                             | RTup rl =>
                                 let state := nth 2 rl VNone in
                                 let args := nth 1 rl VNone in
                                 ts <- truthy_p w state ;;
                                 if ts then fl state else
                                 ta <- truthy_p w args ;;
                                 if ta then fl args else
                                 pickle_warning po (VLoc l) ;;; ret JNull
                             | _ => pickle_warning po (VLoc l) ;;; ret JNull
                             end)
                      end
                  end
              end
          end
      end.
    Lemma inst_rest_split l i name s :
      flatten_inst_rest w k po n fl l i name [] s =
      (data4 <- ctor_enc k fl (cls (i_cls i)) l [(OBJECT, JStr name)] ;; inst_body l i data4) s.
    Proof.
      unfold flatten_inst_rest, inst_body. rewrite Ou. change (sset OBJECT (JStr name) []) with [(OBJECT, JStr name)].
      unfold ctor_enc. rewrite bind_assoc. apply bind_ext; auto. intros data2 s1 _. rewrite bind_assoc. reflexivity.
    Qed.

    Section one.
      Variables (l : loc) (i : inst) (cs args : list val) (kw : list (pystr * val)) (all : list val).
      Variables (ff : option nat) (sq : bool).
      Notation ci := (i_cls i).
      Notation name := (importable_name (cls (i_cls i))).
      Notation fo := (option_map VType ff).
      Hypothesis H : hget h l = Some (OInst i).
      Hypothesis KT : c_kind (cls ci) <> KTuple.
      Hypothesis CO : class_ok w cl ci (length (olist fo) + length args) (map fst kw).
      Hypothesis NR : no_reduce k (cls ci) l.
      Hypothesis CT : ctor k h (cls ci) l cs args kw.
      Hypothesis SH : shape l all.
      Hypothesis INC : forall x, In x cs -> In x all.
      Hypothesis SU : supported (VLoc l).
      Hypothesis FO : forall f, ff = Some f -> In (VType f) all /\ c_deffac (cls ci) = true /\ c_setattr (cls ci) (u "default_factory") = SAOk.
      Hypothesis SQ : sq = true -> cs = [] -> c_fields (cls ci) = None.

      Definition fad : jobj := match ff with Some f => [(u "default_factory", mktyperef w f)] | None => [] end.
      Definition own (x : loc) (d : option loc) (y : loc) : Prop := y = x \/ d = Some y.

      Definition contents (n0 b0 : nat) : Prop := forall data4 s2 t4 args' kw' b1,
        let x := cell ci b1 in
        let dc := dcell ci b1 in
        (forall y, In y (Json.keys data4) -> In y head_tags) -> b0 <= b1 -> Inv s2 t4 ->
        hget (u_heap t4) x = Some (OInst (new_inst ci dc fo (olist fo ++ args') kw')) ->
        (forall q, dc = Some q -> hget (u_heap t4) q = Some (ODict [])) ->
        nth_error (p_objs s2) n0 = Some (VLoc l) -> nth_error (u_objs t4) n0 = Some (VLoc x) ->
        made_match h (u_heap t4) bs (rel s2 t4) (olist fo ++ args) kw (CNew (olist fo ++ args') kw') ->
        (forall c s' t', In c all -> adv (own x dc) none s2 t4 s' t' -> front s' t' c) ->
        (forall y y' s' t', adv (own x dc) none s2 t4 s' t' -> ~ reach (VLoc y) (VLoc l) -> rel s' t' y y' ->
           omatch w k keys h (u_heap t') 0 bs (rel s' t') y y') ->
        wp (inst_body l i data4) s2 (fun j s3 => exists out1 out2, j = JObj (data4 ++ out1 ++ fad ++ out2) /\
          (forall y, In y (map fst (out1 ++ out2)) -> out_key y) /\
          NoDup (map fst (out1 ++ out2)) /\ (forallb jwf (map snd (out1 ++ out2)) = true /\
            (unhandled w h -> walkf keys (length (p_objs s2)) (out1 ++ fad ++ out2) (length (p_objs s3)))) /\
          shas SEQ (out1 ++ out2) = sq /\
          (forall a v, part w k h l (FAttr a) v -> exists j, sget a (out1 ++ out2) = Some j /\ desc (p_objs s3) v j) /\
          exists t5, restore_object_instance_variables w uo rs (data4 ++ out1 ++ out2) (VLoc x) t4 = (Ret (VLoc x), t5) /\
            adv (own x dc) none s2 t4 s3 t5 /\
            (forall f, inst_factory w (u_heap t5) (VLoc x) = Some f -> is_proxy f = false) /\
            omatch w k keys h (u_heap t5) b0 bs (rel s3 t5) l x).

      Lemma reduce_none s : reduce_of w k l i s = (Ret RNone, s).
      Proof.
        unfold reduce_of. destruct NR as [E|[E|E]].
        - rewrite E. reflexivity.
        - destruct (c_reduce (cls ci)); auto. apply catch_ret. rewrite E. reflexivity.
        - destruct (c_reduce (cls ci)); auto. rewrite E. reflexivity.
      Qed.

      Lemma fin_run x t : (forall f, inst_factory w (u_heap t) x = Some f -> is_proxy f = false) -> fin w x t = (Ret x, t).
      Proof.
        intros F. unfold fin, bind, gets. destruct (inst_factory w (u_heap t) x) as [f|]; [|reflexivity].
        rewrite F; reflexivity.
      Qed.

      Lemma rt_inst s t : Inv s t -> front s t (VLoc l) ->
        contents (length (p_objs s)) (length (u_heap t)) ->
        wp (get_flattener w k po n fl (VLoc l)) s (fun r s1 => exists j, r = Some j /\ delivers (S m) (VLoc l) s t j s1).
      Proof.
        intros I F CN. cbn [get_flattener]. apply wp_bind.
        apply (wp_eq _ (ret (OInst i))); [eapply get_obj_run; eauto|]. apply wp_ret. apply wp_bind.
        unfold ref_obj_instance. rewrite Ou. apply wp_bind.
        destruct (mkref_cases po Ou Or (VLoc l) s) as [(ix & E1 & E2)|(E1 & E2)].
        { apply (wp_eq _ (ret false)); [exact E2|]. apply wp_ret.
          eapply wp_mono; [eapply deliver_ref; eauto|]. intros j s1 _ D. apply wp_ret. eauto. }
        apply (wp_eq _ (fun _ => (Ret true, openE (VLoc l) s))); [exact E2|]. cbn [wp].
        destruct CO as (NM & LC & RL & _ & NEW).
        destruct (loadclass_run w cl t name _ (i_tab _ _ _ _ _ I) LC) as [lg EL].
        set (p := length (u_prox t)). set (t1 := uref (VProxy p) (us_prox (u_prox t ++ [None]) (us_log lg t))).
        assert (NP : ~ In (VProxy p) (u_objs t)).
        { intros C. apply (D_prox cl h bs s t p I) in C. unfold p in C. lia. }
        assert (I1 : Inv (openE (VLoc l) s) t1).
        { apply (inv_open cl h bs s t (VLoc l) (VProxy p) t1 I); auto.
          - simpl. rewrite app_length. lia.
          - apply evolve_refl.
          - simpl. rewrite app_length. simpl. unfold p. lia. }
        assert (LF : exists lg2, forall f, ff = Some f -> rs (mktyperef w f) t1 = (Ret (VType f), us_log lg2 t1)).
        { destruct ff as [f|].
          - destruct (FO f eq_refl) as (INF & _). destruct m as [|m']; [lia|].
            assert (SF : supported (VType f)) by (eapply supported_sub; eauto; eapply sub_obj; eauto).
            destruct (supported_node _ _ _ _ _ _ SF) as [_ LT].
            destruct (restore_type_doc w cl uo m' f t1 (i_tab _ _ _ _ _ I1) LT) as [lg2 E]. exists lg2. intros f' E'. injection E' as <-. exact E.
          - exists []. intros; discriminate. }
        destruct LF as [lg2 LF]. set (t1f := match ff with Some _ => us_log lg2 t1 | None => t1 end).
        assert (Q1 : u_heap t1f = u_heap t /\ u_objs t1f = u_objs t ++ [VProxy p] /\ u_swaps t1f = u_swaps t).
        { unfold t1f. destruct ff; auto. }
        destruct Q1 as (Q1h & Q1o & Q1s).
        assert (I1f : Inv (openE (VLoc l) s) t1f) by (unfold t1f; destruct ff; [apply inv_log; auto | auto]).
        assert (N0 : length (u_objs t) = length (p_objs s)) by (symmetry; eapply length_objs; eauto).
        (* facts about progress after the registration *)
        assert (HD1 : forall ix x, nth_error (u_objs t) ix = Some x -> nth_error (u_objs t1f) ix = Some x).
        { intros ix x Hx. rewrite Q1o. apply nth_error_app_l; auto. }
        assert (FR : forall (O : loc -> Prop) J c s' t', adv O J (openE (VLoc l) s) t1f s' t' -> (forall x, O x -> length (u_heap t) <= x) ->
          (exists x, nth_error (u_objs t') (length (p_objs s)) = Some (VLoc x)) \/ ~ reach c (VLoc l) -> In c all -> front s' t' c).
        { intros O J c s' t' A HO Hp Hc. apply (front_open w k keys cl h bs O J s t l t1f s' t' c I F); auto.
          - rewrite Q1h; auto.
          - rewrite Q1h; auto.
          - apply reach_sub. eapply sub_obj; eauto. }
        assert (FIN : forall (O : loc -> Prop) J y y' s' t', adv O J (openE (VLoc l) s) t1f s' t' -> (forall x, O x -> length (u_heap t) <= x) ->
          ~ reach (VLoc y) (VLoc l) -> rel s' t' y y' -> omatch w k keys h (u_heap t') 0 bs (rel s' t') y y').
        { intros O J y y' s' t' A HO NRe R. apply (finished w k keys cl h bs po uo O J s t l t1f s' t' y y' I F); auto.
          - rewrite Q1h; auto.
          - rewrite Q1h; auto. }
        assert (EARLY : forall x, In x cs -> ~ reach x (VLoc l)).
        { intros x Hx. destruct (supported_node _ _ _ _ _ _ SU) as [_ EA]. apply EA. eapply ea_ctor; eauto. split; auto. }
        cbn [flatten_object]. unfold flatten_obj_instance. apply wp_bind.
        apply (wp_eq _ (ret (OInst i))); [eapply get_obj_run; eauto|]. apply wp_ret.
        rewrite RL, Op. apply wp_bind, wp_ret. rewrite Ou. apply wp_bind, wp_bind.
        apply (wp_eq _ (ret RNone)); [apply reduce_none|]. apply wp_ret, wp_ret.
        apply (wp_eq _ _ _ _ (inst_rest_split l i name _)). apply wp_bind.
        eapply wp_mono.
        { apply (rt_ctor w k keys cl h bs po uo Ok Uk Uv n m IH ci l name cs args kw (openE (VLoc l) s) t1f sq); auto.
          - intros x Hx. eapply supported_sub; eauto. eapply sub_obj; eauto.
          - intros x s' t' Hx A. eapply FR; eauto. intros ? [].
          - intros kd s' t' y Hy A R. eapply FIN; eauto. intros ? []. }
        intros data4 s2 _ (cd & ED4 & KC & NDC & [WC WKC] & DNA & args' & kw' & t2 & A2 & MA & MK & DEC).
        pose proof (a_inv _ _ _ _ _ _ _ _ _ _ _ _ A2) as I2. pose proof (a_len _ _ _ _ _ _ _ _ _ _ _ _ A2) as L2. rewrite Q1h in L2.
        set (n0 := length (p_objs s)).
        assert (HE2 : nth_error (p_objs s2) n0 = Some (VLoc l)) by (eapply adv_E_nth; [exact A2|]; simpl; apply nth_end).
        assert (HD2 : nth_error (u_objs t2) n0 = Some (VProxy p)).
        { apply (a_D _ _ _ _ _ _ _ _ _ _ _ _ A2); [|intros []]. rewrite Q1o. unfold n0. rewrite <- N0. apply nth_end. }
        set (t4 := after_new w ci fo args' kw' n0 p t2). set (b1 := length (u_heap t2)) in *.
        set (x := cell ci b1). set (dc := dcell ci b1).
        assert (I4 : Inv s2 t4) by (eapply (new_inv w keys cl h bs po uo n m Hnm); eauto).
        assert (H4 : u_heap t4 = u_heap t2 ++ cells w ci fo (olist fo ++ args') kw' b1) by reflexivity.
        assert (O4 : u_objs t4 = list_set (u_objs t2) n0 (VLoc x)) by reflexivity.
        assert (LT0 : n0 < length (u_objs t2)) by (apply nth_error_Some; congruence).
        assert (HX : hget (u_heap t4) x = Some (OInst (new_inst ci dc fo (olist fo ++ args') kw'))) by (rewrite H4; apply (cells_at w keys po uo n m Hnm)).
        assert (HQ : forall q, dc = Some q -> hget (u_heap t4) q = Some (ODict [])).
        { intros q. unfold dc, RTInst.dcell. destruct (c_dict (cls ci)) eqn:CD; [|discriminate]. intros E. injection E as <-. rewrite H4. apply cells_dict; auto. }
        assert (OWN : forall y, own x dc y -> b1 <= y).
        { intros y [->|E]; unfold x, dc, RTInst.cell, RTInst.dcell in *; destruct (c_dict (cls ci)); try lia; try discriminate.
          injection E as ->. lia. }
        assert (STEP : forall s' t', adv (own x dc) none s2 t4 s' t' ->
          adv (own x dc) (eq n0) (openE (VLoc l) s) t1f s' t').
        { intros s' t' A. eapply (adv_fresh w k keys cl h bs po uo); [exact OWN | exact A2 |].
          apply (adv_swapped w k keys cl h bs po uo) with (t4 := t4); auto.
          - intros ix y Hy HJ. rewrite O4, nth_error_list_set. destruct (Nat.eqb_spec ix n0) as [->|N]; auto.
            rewrite HD2 in Hy. injection Hy as <-. discriminate HJ; auto.
          - rewrite H4, app_length. lia.
          - intros y Hy. rewrite H4. apply cells_old; auto. }
        assert (OWNt : forall y, own x dc y -> length (u_heap t) <= y) by (intros y Hy; apply OWN in Hy; lia).
        assert (D4 : nth_error (u_objs t4) n0 = Some (VLoc x)).
        { rewrite O4, nth_error_list_set, Nat.eqb_refl. rewrite HD2. reflexivity. }
        assert (RI : forall a b, rel s2 t2 a b -> rel s2 t4 a b).
        { intros a b (ix & R1 & R2). exists ix. split; auto. rewrite O4, nth_error_list_set.
          destruct (Nat.eqb_spec ix n0) as [->|N]; auto. rewrite HD2 in R2. discriminate. }
        assert (VM4 : forall a b, vm s2 t2 a b -> vm s2 t4 a b).
        { intros a b M. eapply vmatch_mono; [apply le_n | exact RI | | exact M].
          intros y o _ Hy. rewrite H4, cells_old; auto. eapply hget_lt; eauto. }
        assert (MM : made_match h (u_heap t4) bs (rel s2 t4) (olist fo ++ args) kw (CNew (olist fo ++ args') kw')).
        { exists (olist fo ++ args'), kw'. split; [reflexivity|]. split.
          - apply Forall2_app; [|eapply Forall2_impl; [|exact MA]; auto]. destruct ff; simpl; repeat constructor.
          - eapply Forall2_impl; [|exact MK]. intros a b [X Y]. split; auto. }
        assert (KD : forall y, In y (Json.keys data4) -> In y head_tags).
        { rewrite ED4. intros y [<-|Hy]; [left; auto|]. right. apply KC; auto. }
        eapply wp_mono.
        { apply (CN data4 s2 t4 args' kw' b1); auto.
          - intros c s' t' Hc A. eapply FR; [apply STEP; exact A | exact OWNt | | exact Hc]. left. exists x.
            eapply adv_Dloc; [exact A | exact D4].
          - intros y y' s' t' A NRe R. eapply FIN; [apply STEP; exact A | exact OWNt | exact NRe | exact R]. }
        intros j s3 _ (out1 & out2 & -> & KO & NDO & [WO WKO] & SQO & DAT & t5 & R5 & A5 & FP & OM).
        apply wp_ret. eexists. split; [reflexivity|].
        set (ob := data4 ++ out1 ++ fad ++ out2). set (ob' := data4 ++ out1 ++ out2).
        assert (NH : forall y, In y (map fst data4) -> ~ In y (map fst (out1 ++ out2))).
        { intros y Hy Ho. eapply out_not_head; eauto. }
        assert (NF : ~ In (u "default_factory") (map fst (data4 ++ out1 ++ out2))).
        { rewrite map_app. intros C. apply in_app_or in C as [C|C].
          - apply KD, head_tags_ok in C. tauto.
          - apply KO in C. destruct C as (_ & C & _). auto. }
        assert (KF : forall y, In y (map fst fad) -> y = u "default_factory").
        { intros y. unfold fad. destruct ff; simpl; [intros [C|[]]; auto | intros []]. }
        assert (KOB : forall y, In y (map fst ob) -> In y (map fst data4) \/ In y (map fst (out1 ++ out2)) \/ y = u "default_factory").
        { intros y. unfold ob. rewrite !map_app, !in_app_iff. intros [C|[C|[C|C]]]; auto. }
        assert (ND : NoDup (map fst ob)).
        { assert (PM : Permutation (map fst (fad ++ ob')) (map fst ob)).
          { apply Permutation_map. unfold ob, ob'. rewrite !(app_assoc data4 out1). apply Permutation_app_swap_app. }
          apply (Permutation_NoDup PM).
          rewrite map_app. apply NoDup_app_intro.
            + unfold fad. destruct ff; repeat constructor. intros [].
            + unfold ob'. rewrite map_app. apply NoDup_app_intro; auto. rewrite ED4. constructor; auto.
              intros C. apply KC in C. revert C. clear. intros [C|[C|[C|[]]]]; discriminate.
            + intros y Hy. apply KF in Hy. subst y. exact NF. }
        assert (JW : jwf (JObj ob) = true).
        { apply jwf_obj; auto.
          - intros y Hy. destruct (KOB y Hy) as [C|[C| ->]]; [|apply KO in C; apply C|reflexivity]. apply KD, head_tags_ok in C. tauto.
          - unfold ob. rewrite !map_app, !forallb_app. rewrite !map_app, !forallb_app in WO. apply andb_true_iff in WO as [WO1 WO2].
            rewrite WO1, WO2, ED4. cbn [map snd forallb]. rewrite WC. change (jwf (JStr name)) with (str_ok name). rewrite NM.
            unfold fad. destruct ff as [f|]; [|reflexivity]. destruct (FO f eq_refl) as (INF & _).
            assert (SF : supported (VType f)) by (eapply supported_sub; eauto; eapply sub_obj; eauto).
            destruct (supported_node _ _ _ _ _ _ SF) as [NF2 _]. cbn [map snd forallb andb]. unfold mktyperef.
            cbn [jwf map fst nodupb forallb]. rewrite NF2. reflexivity. }
        split; [exact JW|].
        assert (SOB : forall y, In y head_tags -> sget y ob' = sget y data4).
        { intros y Hy. unfold ob'. rewrite sget_app. destruct (sget y data4); auto. apply sget_notin. intros C. eapply out_not_head; eauto. }
        assert (EOB : sget OBJECT ob = Some (JStr name)).
        { unfold ob. rewrite sget_app, ED4. reflexivity. }
        assert (WALK : counted w keys h (JObj ob) s s3).
        { intros NU. apply walk_object.
          - intros tg Htg. apply sget_notin. intros C.
            assert (X : forallb (fun tg => negb (smem tg (u "default_factory" :: SEQ :: STATE :: head_tags)) && (is_reserved tg || seqb tg B64 || seqb tg B85)) special_tags = true) by reflexivity.
            rewrite forallb_forall in X. apply X in Htg. apply andb_true_iff in Htg as [X1 X2]. apply negb_true_iff in X1.
            assert (X3 : ~ In tg (u "default_factory" :: SEQ :: STATE :: head_tags)) by (intros Y; apply smem_In in Y; congruence).
            clear X1. rename X3 into X1. destruct (KOB tg C) as [C1|[C1| ->]].
            + apply X1. right. right. right. apply KD; auto.
            + apply KO in C1 as [[->|[->|(C1 & C2 & C3)]] _]; [apply X1; right; left; auto|apply X1; right; right; left; auto|].
              rewrite C1, C2, C3 in X2. discriminate.
            + apply X1. left. auto.
          - specialize (WKC NU). specialize (WKO NU). cbn [openE p_objs set_objs] in WKC. rewrite app_length, Nat.add_comm in WKC.
            unfold ob. eapply walkf_app; [|exact WKO]. rewrite ED4.
            eapply walkf_value; [intros [C|[C|[C|[C|[]]]]]; discriminate|reflexivity|apply walk_scalar; reflexivity|exact WKC]. }
        split; [split; [|exact WALK]|].
        { apply de_new.
          - intros c (i0 & Hi0 & <- & _). assert (i0 = i) by congruence. subst i0. exact EOB.
          - intros f v PA. destruct f as [a|].
            + destruct (DAT a v PA) as (j & SJ & DJ). exists j. split; auto. cbn [fname].
              assert (KA : out_key a) by (apply KO; eapply sget_some_in; eauto).
              unfold ob. rewrite sget_app, (sget_notin a data4).
              2: { intros C. eapply out_not_head; [exact KA|]. apply KD; auto. }
              rewrite !sget_app. rewrite sget_app in SJ. destruct (sget a out1); auto. rewrite (sget_notin a fad); auto.
              intros C. apply KF in C. destruct KA as (_ & KA & _). auto.
            + destruct (part_args _ _ _ _ _ PA) as (i0 & a & -> & Hi0 & X1 & X2 & X3). assert (i0 = i) by congruence. subst i0.
              destruct (DNA a X1 X2 X3) as (j & SJ & DJ). exists j. split; [|eapply desc_adv; eauto].
              unfold ob. rewrite sget_app, ED4. cbn [fname sget]. change (seqb NEWARGS OBJECT) with false. cbv iota. rewrite SJ. reflexivity. }
        assert (LFO : loadfactory rs ob t1 = (Ret (fo, ob'), t1f)).
        { unfold loadfactory.
          assert (X1 : sget DEFAULT_FACTORY ob = None).
          { apply sget_notin. intros C. destruct (KOB _ C) as [C1|[C1|C1]]; [| |discriminate].
            - apply KD in C1. revert C1. clear. intros [C|[C|[C|[C|[]]]]]; discriminate.
            - apply KO in C1 as ([C1|[C1|(C1 & _)]] & _); discriminate. }
          rewrite X1. unfold t1f, ob, fad. revert LF. destruct ff as [f|]; intros LF.
          - assert (X2 : sget (u "default_factory") (data4 ++ out1 ++ [(u "default_factory", mktyperef w f)] ++ out2) = Some (mktyperef w f)).
            { rewrite app_assoc, sget_app. rewrite sget_notin; [reflexivity|]. intros C. apply NF. rewrite app_assoc, map_app. apply in_or_app. auto. }
            assert (X3 : sdel (u "default_factory") (data4 ++ out1 ++ [(u "default_factory", mktyperef w f)] ++ out2) = ob').
            { unfold ob'. rewrite !app_assoc. rewrite <- (app_assoc _ [_] out2). apply sdel_mid. intros C. apply NF. rewrite app_assoc, map_app. apply in_or_app. auto. }
            rewrite X2, X3. specialize (LF f eq_refl). unfold mktyperef in *. rewrite (bind_eq _ _ _ _ _ LF). reflexivity.
          - assert (X2 : sget (u "default_factory") (data4 ++ out1 ++ [] ++ out2) = None) by (apply sget_notin; exact NF).
            rewrite X2. reflexivity. }
        destruct (DEC ob') as (aj & kj & ta & tb & DE1 & DE2 & DE3).
        { intros y Hy. rewrite SOB by (right; auto). rewrite ED4. cbn [sget]. destruct (seqb_spec y OBJECT) as [->|]; auto.
          exfalso. revert Hy. clear. intros [C|[C|[C|[]]]]; discriminate. }
        { rewrite SOB by (left; auto). rewrite ED4. reflexivity. }
        { unfold ob', shas. rewrite sget_app. rewrite (sget_notin SEQ data4); [exact SQO|]. intros C. apply KD, head_tags_ok in C. tauto. }
        assert (RUN : restore w uo (S m) (JObj ob) t = (Ret (VLoc x), t5)).
        { rewrite (new_run w keys cl h bs po uo n m Hnm ob ob' name ci fo args' kw' aj kj t lg t1 t1f ta tb s2 t2 p n0); auto.
          - fold t4. fold x. rewrite (bind_eq _ _ _ _ _ R5). apply fin_run; auto.
          - change (restore w uo (S m) (JObj ob) t) with (restore_step w uo rs (JObj ob) t). apply dispatch_object.
            + unfold shas. rewrite EOB. reflexivity.
            + intros y Hy. destruct (KOB y Hy) as [C|[C| ->]]; [left; apply KD; auto|right; apply KO in C; apply C|].
              right. right. right. repeat split.
          - apply (idx_None cl h bs s t); auto.
          - unfold fac_ok. destruct ff as [f|]; simpl; auto. destruct (FO f eq_refl) as (_ & X & Y). eauto.
          - apply NEW.
            + rewrite app_length. f_equal. symmetry. eapply Forall2_len; eauto.
            + clear - MK. induction MK as [|a b ? ? [X _] ? IHM]; simpl; congruence. }
        pose proof (STEP _ _ A5) as A15.
        assert (HD5 : nth_error (u_objs t5) n0 = Some (VLoc x)) by (eapply adv_Dloc; [exact A5|exact D4]).
        assert (HE3 : nth_error (p_objs s3) n0 = Some (VLoc l)) by (eapply adv_E_nth; [exact A5|exact HE2]).
        exists (VLoc x), t5. split; [exact RUN|]. split.
        + apply (adv_close w k keys cl h bs (own x dc) (eq n0) s t l t1f s3 t5 x I); auto.
          * rewrite Q1o, app_length. simpl. lia.
          * rewrite Q1h; auto.
          * rewrite Q1h; auto.
        + apply vm_obj. exists n0. auto.
      Qed.
    End one.
  End level.
End obj.
