(** Round trip, part 7: values that are not instances. *)
From Verif Require Import PyStr Tags Json JsonText JsonTextProofs B64 B85 Base Heap Registry LoadClass Pickler Unpickler SpecJson SpecGraph.
From Verif Require Import CodecProofs PlainProofs WP RTBase RTStep RTPure RTDesc SpecRefs RTWalk RTCont RTOrder.
From Coq Require Import Permutation.
Open Scope nat_scope.
Local Open Scope monad_scope.

Definition ualloc (ob : obj) (t : ust) : ust := us_heap (u_heap t ++ [ob]) t.
Definition uref (v : val) (t : ust) : ust :=
  us_objs (u_objs t ++ [v]) (us_idx ((v, length (u_objs t)) :: u_idx t) t).
Definition uset (l : loc) (ob : obj) (t : ust) : ust := us_heap (hset (u_heap t) l ob) t.

Lemma sget_notin {A} x (a : list (pystr * A)) : ~ In x (map fst a) -> sget x a = None.
Proof.
  induction a as [|[y v] a IH]; simpl; intros H; auto. destruct (seqb_spec x y) as [->|N]; [exfalso; auto|]. apply IH; auto.
Qed.
Lemma untagged_names ob : (forall x, In x (Json.keys ob) -> is_reserved x = false /\ seqb x B64 = false /\ seqb x B85 = false) ->
  untagged ob = true.
Proof.
  intros H. unfold untagged. apply forallb_forall. intros tg Htg. apply negb_true_iff.
  destruct (shas tg ob) eqn:E; auto. apply shas_In in E. apply H in E as (A & B & C).
  revert tg Htg A B C.
  assert (X : forallb (fun tg => is_reserved tg || seqb tg B64 || seqb tg B85) dispatch_tags = true) by reflexivity.
  rewrite forallb_forall in X. intros tg Htg A B C. apply X in Htg. rewrite A, B, C in Htg. discriminate.
Qed.
Lemma jwf_obj (ob : jobj) : NoDup (map fst ob) -> (forall x, In x (map fst ob) -> str_ok x = true) ->
  forallb jwf (map snd ob) = true -> jwf (JObj ob) = true.
Proof.
  intros H1 H2 H3. cbn [jwf]. apply nodupb_NoDup in H1. rewrite H1. cbn [andb].
  apply forallb_forall. intros [x j] Hx. rewrite forallb_forall in H3.
  rewrite H2, H3; auto; apply in_map_iff; exists (x, j); auto.
Qed.
(** Two passes over a list, each of which ignores what the other handles. *)
Lemma two_passes {S A} (f g e : unit -> A -> M S unit) o1 o2 s :
  (forall x s, In x o1 -> g tt x s = (Ret tt, s)) -> (forall x s, In x o2 -> f tt x s = (Ret tt, s)) ->
  (forall x s, In x o1 -> e tt x s = f tt x s) -> (forall x s, In x o2 -> e tt x s = g tt x s) ->
  (foldM f (o1 ++ o2) tt ;;; foldM g (o1 ++ o2) tt) s = foldM e (o1 ++ o2) tt s.
Proof.
  intros H1 H2 H3 H4. rewrite foldM_app.
  assert (X : forall s, foldM f (o1 ++ o2) tt s = foldM f o1 tt s).
  { intros s0. rewrite foldM_app. unfold bind. destruct (foldM f o1 tt s0) as [[[]|x|] s1]; auto. apply foldM_skip; auto. }
  assert (Y : forall s, foldM g (o1 ++ o2) tt s = foldM g o2 tt s).
  { intros s0. rewrite foldM_app. rewrite (bind_eq _ _ s0 tt s0) by (apply foldM_skip; auto). reflexivity. }
  apply bind_ext.
  - rewrite X. symmetry. apply foldM_ext. intros [] x s0 Hx. auto.
  - intros [] s1 _. rewrite Y. symmetry. apply foldM_ext. intros [] x s0 Hx. auto.
Qed.
Lemma items_nil d : items [] d = d.
Proof.
  unfold items. induction d as [|[q v] d IH]; simpl; auto. rewrite IH.
  destruct q; reflexivity.
Qed.
Lemma strings_first_In kv d : In kv (strings_first d) <-> In kv d.
Proof.
  unfold strings_first. rewrite in_app_iff, !filter_In. destruct (is_str (fst kv)); simpl; intuition congruence.
Qed.
Lemma kdistinct_NoDup l : kdistinct l = true <-> NoDup (map norm_key l).
Proof.
  induction l as [|x l IH]; simpl; [split; auto; constructor|]. rewrite andb_true_iff, negb_true_iff, IH. split.
  - intros [A B]. constructor; auto. intros C. apply in_map_iff in C as (y & E & Hy).
    assert (X : existsb (key_eqb x) l = true); [|congruence]. apply existsb_exists. exists y. split; auto.
    unfold key_eqb. rewrite E. apply val_eqb_refl.
  - intros A. inversion A as [|? ? A1 A2]; subst. split; auto. destruct (existsb (key_eqb x) l) eqn:E; auto.
    apply existsb_exists in E as (y & Hy & E). apply val_eqb_eq in E. exfalso. apply A1. rewrite E. apply in_map; auto.
Qed.
Lemma filter_split_perm {A} (p : A -> bool) l : Permutation (filter p l ++ filter (fun x => negb (p x)) l) l.
Proof.
  induction l as [|x l IH]; simpl; auto. destruct (p x); simpl.
  - constructor; auto.
  - rewrite <- Permutation_middle. constructor; auto.
Qed.
Lemma strings_first_perm d : Permutation (strings_first d) d.
Proof. apply filter_split_perm. Qed.
Lemma kdistinct_perm l1 l2 : Permutation l1 l2 -> kdistinct l1 = true -> kdistinct l2 = true.
Proof.
  rewrite !kdistinct_NoDup. intros P. apply Permutation_NoDup. apply Permutation_map; auto.
Qed.

Section kinds.
  Variables (w : world) (k : hooks) (keys : bool) (cl : list (pystr * val)) (h : heap) (bs : nat) (po : popts) (uo : uopts).
  Notation cls := (w_cls w).
  Notation shape := (shape w k keys cl h).
  Notation reach := (reach w k keys cl h).
  Notation sub := (sub w k keys cl h).
  Notation supported := (supported w k keys cl h).
  Notation Inv := (Inv cl h bs).
  Notation front := (front w k keys cl h bs).
  Notation adv := (adv w k keys cl h bs).
  Notation head_ok := (head_ok h).
  Notation pdoc := (pdoc w po).
  Notation desc := (desc w k keys cl h po).
  Notation kname := (kname w k keys cl h po).
  Notation kapart := (kapart w k h).
  Notation apart := (apart w k h).
  Notation key_ok := (key_ok w keys h).
  Notation dict_ok := (dict_ok w k keys h).
  Notation item_doc := (item_doc w k keys cl h po).
  Notation delivers := (delivers w k keys cl h bs po uo).
  Notation PP := (PP w k keys cl h bs po uo).

  Hypothesis Ou : po_unpicklable po = true.
  Hypothesis Or : po_make_refs po = true.
  Hypothesis Od : po_max_depth po = None.
  Hypothesis Op : po_props po = false.
  Hypothesis Oro : po_readonly po = false.
  Hypothesis Os : po_sort po = false.
  Hypothesis Ok : po_keys po = keys.
  Hypothesis Uk : uo_keys uo = keys.
  Hypothesis Uv : uo_v1 uo = false.

  Lemma umkref_new s t v : Inv s t -> ~ In v (u_objs t) -> umkref v t = (Ret v, uref v t).
  Proof. intros I N. unfold umkref. rewrite (idx_None cl h bs s t v I N). reflexivity. Qed.
  Lemma adv_alloc s t ob : Inv s t -> adv none none s t s (ualloc ob t).
  Proof.
    intros I. apply adv_own; auto.
    - apply evolve_alloc.
    - intros x Hx _. apply hget_app_old; auto.
    - simpl. rewrite app_length. lia.
  Qed.
  Lemma inv_log s t lg : Inv s t -> Inv s (us_log lg t).
  Proof. intros I. exact (a_inv _ _ _ _ _ _ _ _ _ _ _ _ (adv_log w k keys cl h bs s t lg I)). Qed.
  Lemma inv_alloc s t ob : Inv s t -> Inv s (ualloc ob t).
  Proof. intros I. exact (a_inv _ _ _ _ _ _ _ _ _ _ _ _ (adv_alloc s t ob I)). Qed.
  Lemma fresh_loc s t : Inv s t -> ~ In (VLoc (length (u_heap t))) (u_objs t).
  Proof. intros I C. eapply D_lt in C; eauto. lia. Qed.
  Lemma adv_mono (O O' : loc -> Prop) (J J' : nat -> Prop) s t s' t' :
    (forall x, O x -> O' x) -> (forall x, J x -> J' x) -> adv O J s t s' t' -> adv O' J' s t s' t'.
  Proof.
    intros HO HJ [A B C D E F F2 G H]. constructor; auto.
  Qed.

  Section level.
    Variables (n m : nat).
    Hypothesis IH : PP n m.
    Hypothesis Hnm : n <= m.
    Notation fl := (flatten w k po n).
    Notation rs := (restore w uo m).

    Lemma rt_pure v s t : pure v = true -> supported v -> Inv s t ->
      wp (flatten w k po (S n) v) s (fun j s' => delivers (S m) v s t j s').
    Proof.
      intros P S I. eapply wp_mono; [apply (flatten_pure w k keys cl h po); auto; apply I|].
      intros j s1 _ (-> & -> & L). split; [eapply pdoc_wf; eauto|]. split; [split; [apply de_pure; auto|intros _; apply walk_pure; auto]|].
      destruct (restore_pure w k keys cl h po uo v (Datatypes.S m) t) as [lg E]; auto; [apply I | lia |].
      exists v, (us_log lg t). split; auto. split; [apply adv_log; auto|]. apply pure_vmatch; auto.
    Qed.

    Lemma rt_tuple l s t : supported (VTuple l) -> Inv s t -> front s t (VTuple l) ->
      wp (get_flattener w k po n fl (VTuple l)) s (fun r s1 => exists j, r = Some j /\ delivers (S m) (VTuple l) s t j s1).
    Proof.
      intros S I F. cbn [get_flattener]. unfold list_recurse. apply wp_bind, wp_bind. eapply wp_mono.
      { apply (rt_mapM w k keys cl h bs po uo n m IH l s t); auto.
        - intros; eapply supported_tuple; eauto.
        - intros v s1 t1 Hv A. eapply front_adv; eauto. apply reach_sub. constructor; auto. }
      intros js s1 _ (W & L & DS & WS & vs & t1 & R & A & M). apply wp_ret, wp_ret. rewrite Ou. eexists. split; [reflexivity|].
      split.
      { cbn [jwf map fst nodupb forallb]. replace (str_ok TUPLE) with true by reflexivity.
        cbn [negb smem existsb andb]. rewrite W. reflexivity. }
      split; [split; [apply de_tuple; auto|intros NH; apply walk_group; [left; auto|auto]]|].
      exists (VTuple vs), t1. split; [|split; [auto | apply vm_tuple; auto]].
      change (restore w uo (Datatypes.S m) (JObj [(TUPLE, JList js)]) t) with (restore_tuple rs [(TUPLE, JList js)] t).
      unfold restore_tuple. apply catch_ret. change (jfield TUPLE [(TUPLE, JList js)]) with (JList js).
      rewrite (bind_eq _ _ t js t) by reflexivity. rewrite (bind_eq _ _ _ _ _ R). reflexivity.
    Qed.

    Lemma rt_module md s t : supported (VMod md) -> Inv s t -> front s t (VMod md) ->
      wp (get_flattener w k po n fl (VMod md)) s (fun r s1 => exists j, r = Some j /\ delivers (S m) (VMod md) s t j s1).
    Proof.
      intros S I F. cbn [get_flattener]. unfold ref_obj_instance. rewrite Ou. apply wp_bind, wp_bind.
      destruct (mkref_cases po Ou Or (VMod md) s) as [(i & E1 & E2)|(E1 & E2)].
      - apply (wp_eq _ (ret false)); [exact E2|]. apply wp_ret. unfold getref. apply wp_bind, wp_gets, wp_ret, wp_ret.
        rewrite E1. eexists. split; [reflexivity|]. split; [reflexivity|].
        split; [split; [apply de_mod|intros _; apply walk_ref; apply index_of_Some in E1; apply nth_error_Some; congruence]|].
        apply index_of_Some in E1. destruct (ent_at _ _ _ _ _ _ _ I E1) as (x & Hx & EX).
        destruct x; simpl in EX; try tauto. subst m0. exists (VMod md), t.
        split; [apply restore_id_doc; auto|]. split; [apply adv_refl; auto | constructor; reflexivity].
      - apply (wp_eq _ (fun _ => (Ret true, openE (VMod md) s))); [exact E2|]. cbn [wp].
        cbn [flatten_object]. unfold flatten_module. rewrite Ou. apply wp_ret, wp_ret. eexists. split; [reflexivity|].
        pose proof (supported_node _ _ _ _ _ _ S) as [N1 N2]. split.
        { cbn [jwf map fst nodupb forallb]. rewrite N1. reflexivity. }
        split; [split; [apply de_mod|intros _; cbn [openE p_objs set_objs]; rewrite app_length, Nat.add_comm; apply walk_module]|].
        assert (NI : ~ In (VMod md) (u_objs t)).
        { intros C. apply E1. apply In_nth_error in C as [i C].
          destruct (Forall2_nth_r _ _ _ _ _ (i_ent _ _ _ _ _ I) C) as (e & He & EE). destruct e; simpl in EE; try tauto.
          subst. eapply nth_error_In; eauto. }
        set (doc := JStr (w_mod w md ++ 47%N :: w_mod w md)) in *.
        set (t1 := us_log (u_log t ++ [EvModule doc]) t).
        assert (I1 : Inv s t1) by (apply inv_log; auto).
        exists (VMod md), (uref (VMod md) t1). split; [|split; [|constructor; reflexivity]].
        + change (restore w uo (Datatypes.S m) (JObj [(MODULE, doc)]) t) with (restore_module w [(MODULE, doc)] t).
          unfold restore_module. change (jfield MODULE [(MODULE, doc)]) with doc.
          rewrite (bind_eq _ _ t tt t1) by reflexivity. rewrite N2. rewrite (bind_eq _ _ t1 (VMod md) t1) by reflexivity.
          eapply umkref_new; eauto.
        + constructor; auto.
          * eapply inv_open; eauto; try reflexivity. apply evolve_refl.
          * exists [VMod md]. reflexivity.
          * intros i x Hx _. simpl. apply nth_error_app_l; auto.
          * intros i l L Hl. simpl in Hl. apply nth_error_snoc in Hl as [Hl|[_ Hl]]; [|discriminate].
            apply nth_error_None in L. congruence.
    Qed.

    (** The document of a location that is not an instance. *)
    Lemma de_other objs l ob dd : hget h l = Some ob -> (forall i, ob <> OInst i) -> desc objs (VLoc l) (JObj dd).
    Proof.
      intros H N. apply de_new.
      - intros c B. apply by_name_inst in B as [i B]. exfalso. apply (N i). congruence.
      - intros f v P. apply part_name in P as [c B]. apply by_name_inst in B as [i B]. exfalso. apply (N i). congruence.
    Qed.

    Lemma rt_bytearray l b s t : hget h l = Some (OByteArray b) -> Inv s t ->
      wp (flatten w k po (S n) (VLoc l)) s (fun j s' => delivers (S m) (VLoc l) s t j s').
    Proof.
      intros H I. rewrite (flatten_S w k po Ou Or). unfold wp.
      rewrite (flatten_impl_bytearray w k po n _ l b s) by (rewrite (i_heap _ _ _ _ _ I); auto).
      split.
      { cbn [jwf map fst nodupb forallb]. rewrite jwf_bytes. reflexivity. }
      split; [split; [eapply de_other; eauto; discriminate|intros _; apply walk_leaf; [simpl; tauto|unfold flatten_bytestring; destruct (po_b85 po); reflexivity]]|].
      exists (VLoc (length (u_heap t))), (ualloc (OByteArray b) t). split; [apply restore_bytearray_doc|].
      split; [apply adv_alloc; auto|]. eapply vm_bytearray; eauto; [apply I|]. apply hget_app_new.
    Qed.

    Lemma get_obj_run s t l ob : Inv s t -> hget h l = Some ob -> get_obj l s = (Ret ob, s).
    Proof. intros I H. unfold get_obj, bind, gets. rewrite (i_heap _ _ _ _ _ I), H. reflexivity. Qed.

    Lemma rt_setobj l xs s t : supported (VLoc l) -> hget h l = Some (OSet xs) -> Inv s t -> front s t (VLoc l) ->
      wp (get_flattener w k po n fl (VLoc l)) s (fun r s1 => exists j, r = Some j /\ delivers (S m) (VLoc l) s t j s1).
    Proof.
      intros S H I F. cbn [get_flattener]. apply wp_bind.
      apply (wp_eq _ (ret (OSet xs))); [eapply get_obj_run; eauto|]. apply wp_ret.
      pose proof (supported_node _ _ _ _ _ _ S) as [[cs SH] _].
      assert (SH2 : shape l xs /\ forallb (hashable cls h) xs = true /\ kdistinct xs = true).
      { inversion SH; subst; try congruence. assert (xs = cs) by congruence. subst. auto. }
      clear cs SH. destruct SH2 as (SH & HH & HD).
      unfold list_recurse. apply wp_bind, wp_bind. eapply wp_mono.
      { apply (rt_set w k keys cl h bs po uo n m IH xs [] [] s t); auto.
        - intros v Hv. eapply supported_sub; eauto. eapply sub_obj; eauto.
        - intros v s1 t1 Hv A. eapply front_adv; eauto. apply reach_sub. eapply sub_obj; eauto. }
      intros js s1 _ (W & WS & vs & t1 & R & A & M). apply wp_ret, wp_ret. rewrite Ou. eexists. split; [reflexivity|].
      split.
      { cbn [jwf map fst nodupb forallb]. replace (str_ok SET_) with true by reflexivity.
        cbn [negb smem existsb andb]. rewrite W. reflexivity. }
      split; [split; [eapply de_other; eauto; discriminate|intros NH; apply walk_group; [right; left; auto|auto]]|].
      pose proof (a_inv _ _ _ _ _ _ _ _ _ _ _ _ A) as I1.
      pose proof (adv_alloc s1 t1 (OSet vs) I1) as A2. pose proof (a_len _ _ _ _ _ _ _ _ _ _ _ _ A) as L.
      exists (VLoc (length (u_heap t1))), (ualloc (OSet vs) t1). split; [|split].
      - change (restore w uo (Datatypes.S m) (JObj [(SET_, JList js)]) t) with (restore_set w rs [(SET_, JList js)] t).
        unfold restore_set. apply catch_ret. change (jfield SET_ [(SET_, JList js)]) with (JList js).
        rewrite (bind_eq _ _ t js t) by reflexivity. rewrite (bind_eq _ _ _ _ _ R). reflexivity.
      - eapply adv_trans; [intros ? []|exact A|exact A2].
      - eapply vm_set; eauto; [apply I1 | apply hget_app_new|]. cbn [app] in M.
        eapply vmatches_adv; [exact A2 | exact M].
    Qed.

    Lemma list_swaps_nil p vs : Forall (fun v => is_proxy v = false) vs -> list_swaps p vs = [].
    Proof.
      unfold list_swaps. generalize 0%Z. induction vs as [|v vs IHv]; intros z H; auto.
      inversion H as [|? ? H1 H2]; subst. rewrite H1. simpl. apply IHv; auto.
    Qed.
    Lemma matches_noprox h' b R vs vs' : Forall2 (vmatch h h' b R) vs vs' -> Forall (fun v => is_proxy v = false) vs'.
    Proof. induction 1; constructor; auto. eapply vmatch_not_proxy; eauto. Qed.
    Lemma us_swaps_id t : us_swaps (u_swaps t) t = t.
    Proof. destruct t; reflexivity. Qed.
    Lemma length_objs s t : Inv s t -> length (p_objs s) = length (u_objs t).
    Proof. apply ent_len. Qed.
    Lemma nth_end {A} (l : list A) x : nth_error (l ++ [x]) (length l) = Some x.
    Proof. rewrite nth_error_app2, Nat.sub_diag; auto. Qed.
    Lemma adv_E_nth O J s t s' t' i e : adv O J s t s' t' -> nth_error (p_objs s) i = Some e -> nth_error (p_objs s') i = Some e.
    Proof. intros A H. destruct (a_E _ _ _ _ _ _ _ _ _ _ _ _ A) as [X E]. rewrite E. apply nth_error_app_l; auto. Qed.

    (** A list or dict just created by the decoder. *)
    Lemma open_container s t l ob : Inv s t -> ~ In (VLoc l) (p_objs s) ->
      head_ok (u_heap (ualloc ob t)) l (length (u_heap t)) ->
      Inv (openE (VLoc l) s) (uref (VLoc (length (u_heap t))) (ualloc ob t)).
    Proof.
      intros I N HO. eapply inv_open; eauto; try reflexivity.
      - eapply fresh_loc; eauto.
      - apply evolve_alloc.
      - exact HO.
    Qed.

    Lemma rt_list l xs s t : supported (VLoc l) -> hget h l = Some (OList xs) -> Inv s t -> front s t (VLoc l) ->
      wp (get_flattener w k po n fl (VLoc l)) s (fun r s1 => exists j, r = Some j /\ delivers (S m) (VLoc l) s t j s1).
    Proof.
      intros S H I F. cbn [get_flattener]. apply wp_bind.
      apply (wp_eq _ (ret (OList xs))); [eapply get_obj_run; eauto|]. apply wp_ret. apply wp_bind.
      destruct (mkref_cases po Ou Or (VLoc l) s) as [(i & E1 & E2)|(E1 & E2)].
      - apply (wp_eq _ (ret false)); [exact E2|]. apply wp_ret. apply wp_bind.
        eapply wp_mono; [eapply deliver_ref; eauto|]. intros j s1 _ D. apply wp_ret. eauto.
      - apply (wp_eq _ (fun _ => (Ret true, openE (VLoc l) s))); [exact E2|]. cbn [wp].
        set (p := length (u_heap t)). set (t1 := uref (VLoc p) (ualloc (OList []) t)).
        assert (I1 : Inv (openE (VLoc l) s) t1).
        { apply open_container; auto. unfold RTBase.head_ok. rewrite H. simpl. rewrite hget_app_new. auto. }
        assert (SH : shape l xs) by (constructor; auto).
        assert (FR : forall c s2 t2, In c xs -> adv none none (openE (VLoc l) s) t1 s2 t2 -> front s2 t2 c).
        { intros c s2 t2 Hc A. apply (front_open w k keys cl h bs none none s t l t1 s2 t2 c I F); auto.
          - intros i x Hx. simpl. apply nth_error_app_l; auto.
          - intros x Hx. simpl. apply hget_app_old; auto.
          - simpl. rewrite app_length. lia.
          - intros ? [].
          - left. exists p. eapply adv_Dloc; eauto. simpl. rewrite (length_objs s t I). apply nth_end.
          - apply reach_sub. eapply sub_obj; eauto. }
        unfold list_recurse. apply wp_bind, wp_bind. eapply wp_mono.
        { apply (rt_mapM w k keys cl h bs po uo n m IH xs (openE (VLoc l) s) t1); auto.
          intros v Hv. eapply supported_sub; eauto. eapply sub_obj; eauto. }
        intros js s2 _ (W & L & _ & WS & vs & t2 & R & A & M). apply wp_ret, wp_ret. eexists. split; [reflexivity|].
        split; [exact W|].
        split; [split; [eapply de_list; eauto|intros NH; apply walk_list; specialize (WS NH); cbn [openE p_objs set_objs] in WS; rewrite app_length, Nat.add_comm in WS; exact WS]|].
        set (t3 := uset p (OList vs) t2).
        assert (LP : length (u_heap t1) = Datatypes.S p) by (simpl; rewrite app_length; simpl; unfold p; lia).
        pose proof (a_len _ _ _ _ _ _ _ _ _ _ _ _ A) as LL. rewrite LP in LL.
        assert (HP : hget (u_heap t2) p = Some (OList [])).
        { rewrite (a_heap _ _ _ _ _ _ _ _ _ _ _ _ A); [|lia|intros []]. apply hget_app_new. }
        assert (A3 : adv (eq p) none s2 t2 s2 t3).
        { apply adv_own; auto; [apply A | | |].
          - simpl. eapply evolve_set; eauto. exact Logic.I.
          - intros x Hx Hn. simpl. rewrite hget_hset_other by auto. auto.
          - simpl. rewrite hset_length. auto. }
        assert (A13 : adv (eq p) none (openE (VLoc l) s) t1 s2 t3).
        { eapply adv_trans; [|apply adv_weaken; exact A|exact A3]. intros x <-. lia. }
        assert (HD : nth_error (u_objs t3) (length (p_objs s)) = Some (VLoc p)).
        { eapply adv_Dloc; [exact A13|]. simpl. rewrite (length_objs s t I). apply nth_end. }
        assert (HE : nth_error (p_objs s2) (length (p_objs s)) = Some (VLoc l)).
        { eapply adv_E_nth; [exact A13|]. simpl. apply nth_end. }
        exists (VLoc p), t3. split; [|split].
        + change (restore w uo (Datatypes.S m) (JList js) t) with (restore_list rs (JList js) t).
          unfold restore_list. rewrite (bind_eq _ _ t (VLoc p) (ualloc (OList []) t)) by reflexivity.
          rewrite (bind_eq _ _ (ualloc (OList []) t) (VLoc p) t1).
          2: { eapply umkref_new; [apply inv_alloc; eauto|]. apply (fresh_loc s t); auto. }
          rewrite (bind_eq _ _ t1 js t1) by reflexivity. rewrite (bind_eq _ _ _ _ _ R).
          rewrite (bind_eq _ _ t2 tt t3) by reflexivity.
          rewrite (bind_eq _ _ t3 tt t3); [reflexivity|].
          unfold modify. rewrite list_swaps_nil, app_nil_r, us_swaps_id; auto. eapply matches_noprox; eauto.
        + apply (adv_close w k keys cl h bs (eq p) none s t l t1 s2 t3 p I); auto.
          * simpl. rewrite app_length. simpl. lia.
          * intros i x Hx. simpl. apply nth_error_app_l; auto.
          * lia.
          * intros x Hx. simpl. apply hget_app_old; auto.
          * intros x <-. unfold p. lia.
          * intros i [].
          * eapply om_list; eauto.
            -- simpl. apply hget_hset_same. lia.
            -- eapply vmatches_adv; [exact A3 | exact M].
        + apply vm_obj. exists (length (p_objs s)). auto.
    Qed.

    (** ** Dicts *)
    Definition dstr (p : loc) (kv : pystr * json) : MU unit :=
      v <- rs (snd kv) ;;
      dict_assign w p (VStr (fst kv)) v ;;;
      (if keys then ret tt else swap_if_proxy (VLoc p) (VStr (fst kv)) v SetValue).
    Definition dkey (p : loc) (kv : pystr * json) : MU unit :=
      key <- restore_pickled_key rs (fst kv) ;;
      v <- rs (snd kv) ;;
      dict_assign w p key v ;;;
      swap_if_proxy (VLoc p) key v SetValue.
    Definition dbody (p : loc) (_ : unit) (kv : pystr * json) : MU unit :=
      if keys then if prefixb JSON_KEY (fst kv) then dkey p kv else dstr p kv
      else dstr p kv.

    (** The text of the dict as the decoder's two passes see it. *)
    Definition sameK (d1 d2 : jobj) : Prop := if keys then same d1 d2 else d1 = d2.
    Lemma sameK_perm d1 d2 : sameK d1 d2 -> Permutation d1 d2.
    Proof.
      unfold sameK. destruct (Bool.bool_dec keys true) as [E|E]; [|apply not_true_is_false in E]; rewrite E; intros H; [apply same_perm; auto | subst; auto].
    Qed.
    Lemma sameK_refl d1 : sameK d1 d1.
    Proof. unfold sameK. destruct keys; auto. apply same_refl. Qed.
    Lemma restore_dict_run p out dd t (A B : list (val * val)) objs : p = length (u_heap t) ->
      Forall2 (fun kv o => kname objs (fst kv) (fst o)) (A ++ B) out ->
      (forall kv, In kv A -> plain_key keys (fst kv) = true) -> (forall kv, In kv B -> plain_key keys (fst kv) = false) ->
      (forall kv, In kv (A ++ B) -> key_ok (fst kv) = true) -> sameK out dd ->
      forall s, Inv s t ->
      restore w uo (S m) (JObj dd) t =
        (foldM (dbody p) out tt ;;; ret (VLoc p)) (uref (VLoc p) (ualloc (ODict []) t)).
    Proof.
      intros Ep EO HA HB HK SK s I. rewrite restore_untagged.
      2: { apply untagged_names. unfold Json.keys. intros x Hx.
           assert (Hx' : In x (map fst out)).
           { eapply Permutation_in; [|exact Hx]. apply Permutation_map. symmetry. apply sameK_perm; auto. }
           destruct (kname_In w k keys cl h po objs _ _ _ EO Hx') as (kv & Hkv & N). eapply kname_tags; eauto. }
      unfold restore_dict. rewrite (bind_eq _ _ t (VLoc p) (ualloc (ODict []) t)) by (subst; reflexivity).
      rewrite Uv.
      assert (EU : umkref (VLoc p) (ualloc (ODict []) t) = (Ret (VLoc p), uref (VLoc p) (ualloc (ODict []) t))).
      { eapply umkref_new; [apply inv_alloc; eauto|]. subst p. apply (fresh_loc s t); auto. }
      rewrite (bind_eq _ _ (ualloc (ODict []) t) tt (uref (VLoc p) (ualloc (ODict []) t))).
      2: { rewrite (bind_eq _ _ _ _ _ EU). reflexivity. }
      apply bind_ext; [|auto]. rewrite Uk. unfold sameK in SK. destruct (Bool.bool_dec keys true) as [E|E]; [|apply not_true_is_false in E]; rewrite E; rewrite E in SK.
      - apply Forall2_app_inv_l in EO as (o1 & o2 & E1 & E2 & ->).
        assert (P1 : forall x, In x o1 -> prefixb JSON_KEY (fst x) = false).
        { intros x Hx. apply In_nth_error in Hx as [i Hi]. destruct (Forall2_nth_r _ _ _ _ _ E1 Hi) as (kv & Hk & N).
          apply nth_error_In in Hk. rewrite (kname_prefix w k keys cl h po objs _ _ E N), HA; auto. }
        assert (P2 : forall x, In x o2 -> prefixb JSON_KEY (fst x) = true).
        { intros x Hx. apply In_nth_error in Hx as [i Hi]. destruct (Forall2_nth_r _ _ _ _ _ E2 Hi) as (kv & Hk & N).
          apply nth_error_In in Hk. rewrite (kname_prefix w k keys cl h po objs _ _ E N), HB; auto. }
        rewrite <- (two_passes (fun _ kv => if prefixb JSON_KEY (fst kv) then ret tt
                                else v <- rs (snd kv) ;; dict_assign w p (VStr (fst kv)) v)
             (fun _ kv => if negb (prefixb JSON_KEY (fst kv)) then ret tt
                                else key <- restore_pickled_key rs (fst kv) ;;
                                     v <- rs (snd kv) ;;
                                     dict_assign w p key v ;;;
                                     swap_if_proxy (VLoc p) key v SetValue) (dbody p) o1 o2).
        + destruct SK as [SK1 SK2]. unfold jk in SK1, SK2. apply bind_ext.
          * rewrite (foldM_filter _ (fun o => negb (prefixb JSON_KEY (fst o))) dd).
            2: { intros b x s0 _ X. apply negb_false_iff in X. rewrite X. destruct b. reflexivity. }
            rewrite <- SK2. symmetry. apply foldM_filter.
            intros b x s0 _ X. apply negb_false_iff in X. rewrite X. destruct b. reflexivity.
          * intros [] s1 _. rewrite (foldM_filter _ (fun o => prefixb JSON_KEY (fst o)) dd).
            2: { intros b x s0 _ X. rewrite X. destruct b. reflexivity. }
            rewrite <- SK1. symmetry. apply foldM_filter.
            intros b x s0 _ X. rewrite X. destruct b. reflexivity.
        + intros x s0 Hx. rewrite P1; auto.
        + intros x s0 Hx. rewrite P2; auto.
        + intros x s0 Hx. unfold dbody. rewrite E, P1 by auto. unfold dstr. rewrite E. apply bind_ext; auto. intros v s1 _.
          unfold bind. destruct (dict_assign w p (VStr (fst x)) v s1) as [[[]|y|] s2]; reflexivity.
        + intros x s0 Hx. unfold dbody. rewrite E, P2 by auto. reflexivity.
      - subst dd. apply foldM_ext. intros [] x s0 _. unfold dbody, dstr. rewrite E. reflexivity.
    Qed.

    Lemma noprox_snoc d q v : noprox d -> is_proxy v = false -> noprox (d ++ [(q, v)]).
    Proof. intros A B. apply Forall_app. split; auto. Qed.

    (** One assignment to the new dict. *)
    Definition jdict (p : loc) (acc : list (val * val)) (s : pst) (t : ust) : Prop :=
      exists d', hget (u_heap t) p = Some (ODict d') /\ Forall2 (pmatch h (u_heap t) bs (rel s t)) acc d'.
    Lemma key_ok_hash q : key_ok q = true -> hashable cls h q = true.
    Proof. destruct q; cbn [SpecGraph.key_ok]; intros H; try (apply andb_true_iff in H; tauto); reflexivity. Qed.
    Lemma pmatch_keys h' b R d d' : Forall2 (pmatch h h' b R) d d' -> Forall2 (vmatch h h' b R) (map fst d) (map fst d').
    Proof. induction 1 as [|p p' d d' [A B] F IHF]; simpl; constructor; auto. Qed.
    Lemma assign_step p q q' v v' acc rest s t : Inv s t -> jdict p acc s t -> 
      (forall kv, In kv (acc ++ (q, v) :: rest) -> key_ok (fst kv) = true) ->
      kdistinct (map fst (acc ++ (q, v) :: rest)) = true ->
      vmatch h (u_heap t) bs (rel s t) q q' -> vmatch h (u_heap t) bs (rel s t) v v' ->
      exists t3, dict_assign w p q' v' t = (Ret tt, t3) /\ adv (eq p) none s t s t3 /\ jdict p (acc ++ [(q, v)]) s t3.
    Proof.
      intros I (d' & HP & F) HK HD MQ M. pose proof (vmatch_not_proxy _ _ _ _ _ _ M) as NP.
      pose proof (hget_lt _ _ _ HP) as LP.
      assert (HQ : hashable cls h q = true) by (apply key_ok_hash, (HK (q, v)); apply in_or_app; right; left; auto).
      assert (HH : hashable cls (u_heap t) q' = true) by (eapply hash_match; eauto).
      rewrite map_app in HD. simpl in HD. apply kdistinct_split in HD as (HD & _ & _).
      assert (HD' : existsb (key_eqb q') (map fst d') = false).
      { eapply existsb_key_Forall2; [eapply pmatch_keys; exact F| |exact HD].
        intros y y' Hy My. apply in_map_iff in Hy as (kv & <- & Hkv).
        apply (key_eqb_match w cl h bs s t bs); auto. apply key_ok_hash, HK. apply in_or_app; auto. }
      set (t3 := uset p (ODict (d' ++ [(q', v')])) t).
      assert (A3 : adv (eq p) none s t s t3).
      { apply adv_own; auto.
        - simpl. eapply evolve_set; eauto. intros NX. apply noprox_snoc; auto.
        - intros x Hx Hn. simpl. rewrite hget_hset_other by auto. auto.
        - simpl. rewrite hset_length. auto. }
      exists t3. split; [|split; auto].
      - unfold dict_assign, get_uobj. rewrite bind_assoc. rewrite (bind_eq _ _ t (u_heap t) t) by reflexivity. rewrite HP.
        rewrite (bind_eq _ _ t (ODict d') t) by reflexivity. rewrite (bind_eq _ _ t (u_heap t) t) by reflexivity.
        rewrite HH. rewrite dset_snoc by auto. reflexivity.
      - exists (d' ++ [(q', v')]). split; [simpl; apply hget_hset_same; auto|]. apply Forall2_app.
        + eapply pmatches_adv; [exact A3 | exact F].
        + constructor; [|constructor]. split; cbn [fst snd]; (eapply vmatch_adv; [exact A3 | assumption]).
    Qed.

    (** Two keys of a dict. *)
    Lemma fop_kapart l : NoDup l -> ForallOrdPairs (fun x y => pure x && pure y = true \/ apart x y) (filter (fun q => negb (is_str q)) l) ->
      ForallOrdPairs kapart l.
    Proof using w k h.
      clear Ok Uk IH Hnm.
      induction 1 as [|x l Hx ND IHl]; intros F; [constructor|]. cbn [filter] in F. constructor.
      - rewrite Forall_forall. intros y Hy. split; [intros ->; auto|]. destruct (is_str x) eqn:Sx; auto. destruct (is_str y) eqn:Sy; auto.
        right. right. cbn [negb] in F. inversion F as [|? ? F1 F2]; subst. rewrite Forall_forall in F1.
        destruct (F1 y) as [P|A]; auto; [apply filter_In; rewrite Sy; auto|]. apply andb_true_iff in P as [P1 P2].
        apply ap_pure; auto. intros ->; auto.
      - apply IHl. destruct (is_str x); auto. inversion F; auto.
    Qed.
    Lemma kdistinct_ND l : kdistinct l = true -> NoDup l.
    Proof. intros H. apply kdistinct_NoDup in H. eapply NoDup_map_inv; eauto. Qed.
    Lemma filter_nonstr (d : list (val * val)) : filter (fun q => negb (is_str q)) (map fst d) = map fst (non_strings d).
    Proof. unfold non_strings. induction d as [|kv d IHd]; simpl; auto. destruct (is_str (fst kv)); simpl; rewrite IHd; auto. Qed.
    Lemma non_strings_app a b : non_strings (a ++ b) = non_strings a ++ non_strings b.
    Proof. apply filter_app. Qed.
    Lemma non_strings_none d : (forall kv, In kv d -> is_str (fst kv) = true) -> non_strings d = [].
    Proof.
      unfold non_strings. induction d as [|kv d IHd]; intros H; simpl; auto. rewrite H by (left; auto). apply IHd. intros; apply H; right; auto.
    Qed.
    Lemma non_strings_idem d : non_strings (non_strings d) = non_strings d.
    Proof.
      unfold non_strings. induction d as [|kv d IHd]; simpl; auto. destruct (is_str (fst kv)) eqn:T; simpl; auto. rewrite T. simpl. f_equal; auto.
    Qed.
    Lemma escaped_str q : is_escaped keys q = true -> is_str q = true.
    Proof. destruct q; try discriminate; auto. Qed.
    Lemma dict_order_perm d : Permutation (dict_order keys d) d.
    Proof.
      unfold dict_order, non_strings. induction d as [|[q v] d IHd]; simpl; auto. destruct (is_str q) eqn:T; cbn [andb negb].
      - destruct (is_escaped keys q) eqn:E; cbn [negb app].
        + rewrite <- Permutation_middle. constructor. exact IHd.
        + constructor. exact IHd.
      - destruct (is_escaped keys q) eqn:E; [apply escaped_str in E; congruence|].
        rewrite app_assoc, <- Permutation_middle, <- app_assoc. constructor. exact IHd.
    Qed.
    Lemma dict_order_non d : non_strings (dict_order keys d) = non_strings d.
    Proof.
      unfold dict_order. rewrite !non_strings_app, non_strings_idem.
      rewrite (non_strings_none (filter (fun kv => is_escaped keys (fst kv)) d)).
      - rewrite non_strings_none; [reflexivity|]. intros kv H. apply filter_In in H as [_ H]. apply andb_true_iff in H. tauto.
      - intros kv H. apply filter_In in H as [_ H]. apply escaped_str; auto.
    Qed.
    Lemma strings_first_non d : non_strings (strings_first d) = non_strings d.
    Proof.
      unfold strings_first. rewrite non_strings_app, non_strings_none; [apply non_strings_idem|].
      intros kv H. apply filter_In in H as [_ H]. auto.
    Qed.
    Lemma dict_ok_kapart d d2 : dict_ok d -> Permutation d2 d -> non_strings d2 = non_strings d ->
      (forall kv, In kv d2 -> key_ok (fst kv) = true) /\ kdistinct (map fst d2) = true /\ ForallOrdPairs kapart (map fst d2).
    Proof.
      clear IH. intros (DK & DD & DA) P N. rewrite forallb_forall in DK.
      assert (D2 : kdistinct (map fst d2) = true) by (eapply kdistinct_perm; [|exact DD]; apply Permutation_map; symmetry; auto).
      split; [intros kv Hk; apply DK; eapply Permutation_in; eauto|]. split; auto.
      apply fop_kapart; [apply kdistinct_ND; auto|]. rewrite filter_nonstr, N. exact DA.
    Qed.
    Lemma order_ok_strings d : order_ok keys d -> order_ok keys (filter (fun kv => is_str (fst kv)) d).
    Proof.
      induction d as [|[q v] d IHd]; simpl; auto. intros [H1 H2]. destruct (is_str q); auto. simpl. split; auto.
      intros E. destruct (H1 E) as [P|P]; auto. right. intros kv Hkv T. apply filter_In in Hkv as [Hkv _]. auto.
    Qed.
    Lemma filter_filter {A} (f g : A -> bool) l : filter f (filter g l) = filter (fun x => g x && f x) l.
    Proof. induction l as [|x l IHl]; simpl; auto. destruct (g x); simpl; rewrite IHl; auto. Qed.

    (** The encoder's loop over a plain dict, as if it took the keys in the order of the decoder. *)
    Lemma wp_dict_order d s Q : (0 <= p_depth s)%Z -> order_ok keys d -> (forall kv, In kv d -> supported (fst kv) /\ supported (snd kv)) ->
      wp (foldM (gstep w k keys po n) (dict_order keys d) []) s Q ->
      wp (foldM (estep w k keys po n) (strings_first d) []) s (fun dd s2 => exists d', sameK d' dd /\
        (length d' = length d -> forall n n', walkf keys n d' n' -> walkf keys n dd n') /\ Q d' s2).
    Proof.
      intros D HO HS W. apply gfold_wp. unfold sameK.
      destruct (Bool.bool_dec keys true) as [E|E]; [|apply not_true_is_false in E].
      - unfold strings_first. apply wp_mono with (Q := fun dd s2 => exists d', moved keys (0 + length (strings_first d)) d' dd /\ Q d' s2);
          [|intros a s1 _ (d' & (X & _ & Y) & HQ); exists d'; rewrite E; split; [exact X|]; split; [intros LD; rewrite <- E; apply Y; rewrite LD; symmetry; apply Permutation_length, strings_first_perm|exact HQ]].
        eapply (wp_reorder w k keys cl h po Ou Or Od Os Ok E n (filter (fun kv => is_str (fst kv)) d)); auto.
        + intros kv Hkv. apply filter_In in Hkv as [H1 H2]. split; auto.
        + apply order_ok_strings; auto.
        + rewrite !filter_filter. unfold dict_order in W.
          replace (filter (fun x => is_str (fst x) && (is_str (fst x) && negb (is_escaped keys (fst x)))) d)
            with (filter (fun x => is_str (fst x) && negb (is_escaped keys (fst x))) d)
            by (apply filter_ext; intros x; destruct (is_str (fst x)); reflexivity).
          replace (filter (fun x => is_str (fst x) && is_escaped keys (fst x)) d) with (filter (fun x => is_escaped keys (fst x)) d); [exact W|].
          apply filter_ext. intros x. destruct (is_escaped keys (fst x)) eqn:X; [rewrite escaped_str by auto; auto|]. rewrite andb_false_r; auto.
      - replace (strings_first d) with (dict_order keys d); [eapply wp_mono; [exact W|]; intros a s1 _ HQ; exists a; rewrite E; split; [reflexivity|split; [auto|exact HQ]]|].
        unfold dict_order, strings_first, non_strings.
        assert (X : forall q, is_escaped keys q = false) by (intros []; auto; cbn [is_escaped]; unfold escaped; rewrite E; auto).
        rewrite (filter_ext (fun kv => is_str (fst kv) && negb (is_escaped keys (fst kv))) (fun kv => is_str (fst kv))).
        2: { intros kv. rewrite X, andb_true_r. auto. }
        rewrite (filter_ext (fun kv => is_escaped keys (fst kv)) (fun kv => false)); [|auto].
        replace (filter (fun _ : val * val => false) d) with (@nil (val * val)); auto. clear. induction d; auto.
    Qed.

    Lemma rt_plain_dict l d s t : supported (VLoc l) -> hget h l = Some (ODict d) -> Inv s t -> front s t (VLoc l) ->
      ~ In (VLoc l) (p_objs s) ->
      wp (flatten_plain_dict w k po fl l [] []) (openE (VLoc l) s)
         (fun dd s' => delivers (S m) (VLoc l) s t (JObj dd) s').
    Proof.
      intros S H I F E1.
      assert (SH : shape l (map fst d ++ map snd d) /\ dict_ok d /\ order_ok keys d).
      { pose proof (supported_node _ _ _ _ _ _ S) as [[cs SH] _]. inversion SH; subst; try congruence.
        assert (d0 = d) by congruence. subst. auto. }
      destruct SH as (SH & DO & OO).
      set (p := length (u_heap t)). set (t1 := uref (VLoc p) (ualloc (ODict []) t)).
      assert (I1 : Inv (openE (VLoc l) s) t1).
      { apply open_container; auto. unfold RTBase.head_ok. rewrite H. simpl. rewrite hget_app_new. constructor. }
      assert (LP : length (u_heap t1) = Datatypes.S p) by (simpl; rewrite app_length; simpl; unfold p; lia).
      unfold flatten_plain_dict. apply wp_bind. apply (wp_eq _ (ret (ODict d))); [eapply get_obj_run; eauto|]. apply wp_ret.
      pose proof (dict_order_perm d) as PM.
      destruct (dict_ok_kapart d (dict_order keys d) DO PM (dict_order_non d)) as (DK & DD & DA).
      assert (KS : forall kv, In kv d -> is_str (fst kv) = false -> keys = true).
      { intros [q v] Hq T. apply (Permutation_in _ (Permutation_sym PM)) in Hq. apply DK in Hq. cbn [fst] in *.
        destruct q; try discriminate; cbn [SpecGraph.key_ok] in Hq; apply andb_true_iff in Hq; tauto. }
      apply (wp_eq _ (foldM (estep w k keys po n) (strings_first d) [])).
      { rewrite (flatten_items_merge w k keys po Ok n d [] []), items_nil; auto.
        intros EK kv Hkv. destruct (is_str (fst kv)) eqn:T; auto. apply KS in T; auto. congruence. }
      assert (HALL : forall kv, In kv (dict_order keys d) -> key_ok (fst kv) = true /\ supported (fst kv) /\ supported (snd kv)).
      { intros kv Hkv. split; [apply DK; auto|]. apply (Permutation_in _ PM) in Hkv.
        split; eapply supported_sub; eauto; eapply sub_obj; eauto; apply in_or_app; [left|right]; apply in_map; auto. }
      eapply wp_mono.
      { apply wp_dict_order; [apply I1 | exact OO | intros kv Hkv; apply (proj2 (HALL kv ltac:(eapply Permutation_in; [symmetry; exact PM|exact Hkv]))) |].
        eapply (rt_gitems w k keys cl h bs po uo Oro Os Ok Uk n m IH (eq p) (openE (VLoc l) s) t1 [] (dict_order keys d) (dbody p) (jdict p)); eauto.
        - intros x <-. lia.
        - intros kv s2 t2 Hkv A. apply (Permutation_in _ PM) in Hkv.
          assert (FF : forall c, In c (map fst d ++ map snd d) -> front s2 t2 c).
          { intros c Hc. apply (front_open w k keys cl h bs (eq p) none s t l t1 s2 t2 c I F); auto.
            + intros i x Hx. simpl. apply nth_error_app_l; auto.
            + intros x Hx. simpl. apply hget_app_old; auto.
            + lia.
            + intros x <-. unfold p. lia.
            + left. exists p. eapply adv_Dloc; eauto. simpl. rewrite (length_objs s t I). apply nth_end.
            + apply reach_sub. eapply sub_obj; eauto. }
          split; [intros _|]; apply FF; apply in_or_app; [left|right]; apply in_map; auto.
        - intros acc s2 t2 s3 t3 (d' & HP & FF) I2 A L. exists d'. split.
          + rewrite (a_heap _ _ _ _ _ _ _ _ _ _ _ _ A); auto. lia.
          + eapply pmatches_adv; [exact A | exact FF].
        - intros a v j s2 t2 v' t3 acc rest EA NO R I2 A J M.
          destruct (assign_step p (VStr a) (VStr a) v v' acc rest s2 t3) as (t4 & E4 & A4 & J4); auto.
          { rewrite <- EA. auto. }
          { rewrite <- EA. auto. }
          { apply vm_atom; reflexivity. }
          exists t4. split; auto. unfold dbody.
          assert (X : dstr p (a, j) t2 = (Ret tt, t4)).
          { unfold dstr. cbn [fst snd]. rewrite (bind_eq _ _ _ _ _ R), (bind_eq _ _ _ _ _ E4). destruct keys; [reflexivity|].
            unfold swap_if_proxy. rewrite (vmatch_not_proxy _ _ _ _ _ _ M). reflexivity. }
          cbn [fst]. destruct (Bool.bool_dec keys true) as [E|E]; [|apply not_true_is_false in E]; rewrite E; auto.
          destruct (plain_not_json keys a NO E) as [NP _]. rewrite NP; auto.
        - intros q v jq j s2 t2 q' v' t2' t3 acc rest EA T EK KO RK WK R I2 A J MQ M.
          destruct (assign_step p q q' v v' acc rest s2 t3) as (t4 & E4 & A4 & J4); auto.
          { rewrite <- EA. auto. }
          { rewrite <- EA. auto. }
          exists t4. split; auto. unfold dbody. rewrite EK. cbn [fst]. rewrite json_key_prefix.
          unfold dkey. cbn [fst snd]. unfold restore_pickled_key. rewrite json_key_prefix, json_key_skip, loads_dumps by auto.
          rewrite (bind_eq _ _ _ _ _ RK), (bind_eq _ _ _ _ _ R), (bind_eq _ _ _ _ _ E4).
          unfold swap_if_proxy. rewrite (vmatch_not_proxy _ _ _ _ _ _ M). reflexivity.
        - exists []. split; [apply hget_app_new | constructor]. }
      intros dd s2 _ (d1 & SK & MV & out & -> & EO & ND & [W WO] & t2 & R & A & (d' & HP & FF)). cbn [app] in SK, MV.
      assert (HD : nth_error (u_objs t2) (length (p_objs s)) = Some (VLoc p)).
      { eapply adv_Dloc; [exact A|]. simpl. rewrite (length_objs s t I). apply nth_end. }
      assert (HE : nth_error (p_objs s2) (length (p_objs s)) = Some (VLoc l)).
      { eapply adv_E_nth; [exact A|]. simpl. apply nth_end. }
      assert (EN : Forall2 (fun kv o => kname (p_objs s2) (fst kv) (fst o)) (dict_order keys d) out).
      { eapply Forall2_impl; [|exact EO]. intros kv o [X _]. exact X. }
      pose proof (sameK_perm _ _ SK) as PD.
      assert (WALK : counted w keys h (JObj dd) s s2).
      { intros NH. apply walk_object.
        - intros tg Htg. apply sget_notin. intros C. eapply Permutation_in in C; [|apply Permutation_map; symmetry; exact PD].
          destruct (kname_In w k keys cl h po _ _ _ _ EN C) as (kv & Hkv & N).
          apply (kname_tags w k keys cl h po) in N as (N1 & N2 & N3); [|apply DK; auto].
          assert (X : forallb (fun tg => is_reserved tg || seqb tg B64 || seqb tg B85) special_tags = true) by reflexivity.
          rewrite forallb_forall in X. apply X in Htg. rewrite N1, N2, N3 in Htg. discriminate.
        - apply MV; [apply Forall2_len in EO; rewrite <- EO; apply Permutation_length; exact PM|].
          specialize (WO NH). cbn [openE p_objs set_objs] in WO. rewrite app_length, Nat.add_comm in WO. exact WO. }
      split; [|split; [split; [eapply de_other; eauto; discriminate|exact WALK]|]].
      - apply jwf_obj.
        + eapply Permutation_NoDup; [apply Permutation_map; exact PD | exact ND].
        + intros x Hx. eapply Permutation_in in Hx; [|apply Permutation_map; symmetry; exact PD].
          destruct (kname_In w k keys cl h po _ _ _ _ EN Hx) as (kv & Hkv & N). eapply kname_ok; eauto.
        + rewrite forallb_forall in *. intros x Hx. apply W. eapply Permutation_in; [|exact Hx]. apply Permutation_map. symmetry; exact PD.
      - exists (VLoc p), t2. split; [|split].
        + unfold dict_order in EN.
          rewrite (restore_dict_run p out dd t _ _ (p_objs s2) eq_refl EN) with (s := s); auto.
          * fold t1. rewrite (bind_eq _ _ _ _ _ R). reflexivity.
          * intros kv Hkv. apply filter_In in Hkv as [_ Hkv]. exact Hkv.
          * intros kv Hkv. unfold plain_key. apply in_app_or in Hkv as [Hkv|Hkv]; apply filter_In in Hkv as [_ Hkv].
            -- rewrite Hkv, andb_false_r. reflexivity.
            -- apply negb_true_iff in Hkv. rewrite Hkv. reflexivity.
        + apply (adv_close w k keys cl h bs (eq p) none s t l t1 s2 t2 p I); auto.
          * simpl. rewrite app_length. simpl. lia.
          * intros i x Hx. simpl. apply nth_error_app_l; auto.
          * lia.
          * intros x Hx. simpl. apply hget_app_old; auto.
          * intros x <-. unfold p. lia.
          * intros i [].
          * eapply om_dict; eauto.
        + apply vm_obj. exists (length (p_objs s)). auto.
    Qed.

    Lemma rt_dict l d s t : supported (VLoc l) -> hget h l = Some (ODict d) -> Inv s t -> front s t (VLoc l) ->
      wp (get_flattener w k po n fl (VLoc l)) s (fun r s1 => exists j, r = Some j /\ delivers (S m) (VLoc l) s t j s1).
    Proof.
      intros S H I F. cbn [get_flattener]. apply wp_bind.
      apply (wp_eq _ (ret (ODict d))); [eapply get_obj_run; eauto|]. apply wp_ret. apply wp_bind.
      destruct (mkref_cases po Ou Or (VLoc l) s) as [(i & E1 & E2)|(E1 & E2)].
      - apply (wp_eq _ (ret false)); [exact E2|]. apply wp_ret. apply wp_bind.
        eapply wp_mono; [eapply deliver_ref; eauto|]. intros j s1 _ D. apply wp_ret. eauto.
      - apply (wp_eq _ (fun _ => (Ret true, openE (VLoc l) s))); [exact E2|]. cbn [wp].
        apply wp_bind. eapply wp_mono; [eapply rt_plain_dict; eauto|]. intros dd s1 _ D. apply wp_ret. eauto.
    Qed.
  End level.
End kinds.
