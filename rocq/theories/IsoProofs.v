(** Isomorphic graphs, and a graph and its decoded copy, look alike to encode. *)
From Verif Require Import PyStr Tags Json JsonText B64 B85 Base Heap Registry LoadClass Pickler SpecGraph SpecIso PRel RTBase RTProps.
Open Scope nat_scope.

Lemma same_script_mono (V V' : val -> val -> Prop) s : (forall v v', V v v' -> V' v v') -> forall s', same_script V s s' -> same_script V' s s'.
Proof.
  intros H. induction s as [r|e|b v kk IH]; intros [r'|e'|b' v' kk'] G; simpl in *; auto. destruct G as (A & B & C). auto.
Qed.
Lemma same_res_mono {A} (P Q : A -> A -> Prop) x y : (forall a b, P a b -> Q a b) -> same_res P x y -> same_res Q x y.
Proof. intros H. destruct x, y; simpl; auto. Qed.
Lemma opt_mono {A B} (P Q : A -> B -> Prop) x y : (forall a b, P a b -> Q a b) -> opt P x y -> opt Q x y.
Proof. intros H. destruct x, y; simpl; auto. Qed.
Lemma same_hooks_mono w k k' h R (V S V' S' : val -> val -> Prop) : (forall v v', V v v' -> V' v v') -> (forall v v', S v v' -> S' v v') ->
  same_hooks w k k' h R V S -> same_hooks w k k' h R V' S'.
Proof.
  intros HV HS []. constructor; auto; intros.
  - eapply same_res_mono; [|apply ho_reduce; eauto]. intros [] []; simpl; auto. apply Forall2_mono; auto.
  - eapply same_res_mono; [exact HS|]. auto.
  - eapply same_res_mono; [exact HV|]. auto.
  - eapply same_res_mono; [|apply ho_newargs_ex; eauto]. intros ? ?. apply Forall2_mono; auto.
  - eapply same_res_mono; [exact HV|]. auto.
  - eapply same_res_mono; [|apply ho_iter; eauto]. intros ? ?. apply opt_mono; auto.
  - eapply same_res_mono; [exact HV|]. auto.
  - eapply same_res_mono; [exact HV|]. auto.
  - eapply same_script_mono; [exact HV|]. eauto.
  - eauto.
Qed.

(** ** Isomorphic graphs *)
Section iso.
  Variables (w : world) (o : popts) (nk : bool) (k k' : hooks) (h h' : heap) (R : loc -> loc -> Prop).
  Notation cls := (w_cls w).
  (** x is a key of some dict. *)
  Definition is_key (hh : heap) (x : val) : Prop := exists l v,
    (exists d, hget hh l = Some (ODict d) /\ In (x, v) d) \/ (exists i, hget hh l = Some (OInst i) /\ In (x, v) (i_items i)).
  Hypothesis ONE : one_to_one R.
  Hypothesis ISO : heap_iso h h' R.
  Hypothesis KEY : po_keys o = false -> forall q q', viso R q q' -> is_key h q -> key_string k o q = key_string k' (set_numeric nk o) q'.
  Notation like := (like h h' R true).
  Fixpoint viso_like v v' (H : viso R v v') {struct H} : like v v'.
  Proof.
    destruct H as [v F|xs ys F|l l' C].
    - constructor. exact F.
    - apply lk_tuple. revert xs ys F. fix go 3. intros xs ys F. destruct F as [|x y xs ys H F]; constructor; [apply viso_like; exact H|apply go; exact F].
    - apply lk_loc. left. exact C.
  Qed.
  Lemma visos xs ys : Forall2 (viso R) xs ys -> Forall2 like xs ys.
  Proof. apply Forall2_mono. exact viso_like. Qed.
  Lemma R_cell l l' : R l l' -> exists ob ob', hget h l = Some ob /\ hget h' l' = Some ob' /\ oiso h R ob ob'.
  Proof.
    intros C. destruct (ISO l l' C) as [A B]. destruct (hget h l) as [ob|]; [|congruence]. destruct (hget h' l') as [ob'|]; [|contradiction].
    exists ob, ob'. auto.
  Qed.
  Lemma viso_truth v v' : viso R v v' -> truthy cls h v = truthy cls h' v'.
  Proof.
    intros H. destruct H as [v F|xs ys F|l l' C].
    - destruct v; auto; discriminate.
    - cbn [truthy]. destruct F; auto.
    - cbn [truthy]. destruct (R_cell l l' C) as (ob & ob' & -> & -> & OI).
      destruct OI as [xs ys F|xs ys F|d d' F|b|i i' [E _ _ F1 F2 _ _]|]; auto; cbn [otruthy]; try (destruct F; auto; fail).
      rewrite <- E. destruct (c_kind (cls (i_cls i))); auto; try (destruct F1; auto; fail); destruct F2; auto.
  Qed.
  Lemma piso_entry l d d' : hget h l = Some (ODict d) -> Forall2 (piso R) d d' -> Forall2 (entry_like o nk k k' h h' R true) d d'.
  Proof.
    intros G F. assert (K : forall q v, In (q, v) d -> is_key h q) by (intros q v X; exists l, v; left; eauto). clear G.
    induction F as [|[q v] [q' v'] d d' [A B] F IH]; constructor.
    - cbn [fst snd] in *. split; [apply viso_like; auto|]. split; [|apply viso_like; auto]. intros KF. apply KEY; auto. eapply K. left. reflexivity.
    - apply IH. intros q0 v0 X. eapply K. right. exact X.
  Qed.
  Lemma entries_dict d d' : Forall2 (entry_like o nk k k' h h' R true) d d' -> dict_like o nk k k' h h' R true d d'.
  Proof.
    intros F. unfold dict_like. destruct (po_keys o); auto. unfold strings, non_strings.
    split; (eapply filter_rel; [|exact F]); intros a b (L & _); rewrite (is_str_like h h' R true _ _ L); auto.
  Qed.
  Lemma names_dict ex d d' its : R d d' -> hget h d = Some (ODict its) -> names_like o nk k k' h h' R true ex d d'.
  Proof.
    intros C G. destruct (R_cell d d' C) as (ob & ob' & G1 & G2 & OI). rewrite G in G1. injection G1 as <-.
    inversion OI as [| |x d2 F| | |]; subst. exists its, d2. split; auto. split; auto.
    apply dict_like_items. apply entries_dict. eapply piso_entry; eauto.
  Qed.
  Lemma sget_iso a s s' : Forall2 (fun p p' : pystr * val => fst p = fst p' /\ viso R (snd p) (snd p')) s s' -> opt (viso R) (sget a s) (sget a s').
  Proof.
    intros F. induction F as [|[x v] [x' v'] s s' [E V] F IH]; simpl; auto. cbn [fst snd] in *. subst x'. destruct (seqb a x); auto.
  Qed.
  Lemma dget_iso a d d' : Forall2 (piso R) d d' -> opt (viso R) (dget (VStr a) d) (dget (VStr a) d').
  Proof.
    intros F. induction F as [|[x v] [x' v'] s s' [E V] F IH]; cbn [dget]; [exact I|]. cbn [fst snd] in *.
    assert (KE : key_eqb (VStr a) x = key_eqb (VStr a) x') by (destruct E; auto). rewrite KE. destruct (key_eqb (VStr a) x'); auto.
  Qed.
  Lemma attr_iso i i' a : inst_iso h R i i' -> opt (viso R) (inst_attr h i a) (inst_attr h' i' a).
  Proof.
    intros [E D S _ _ _ _]. unfold inst_attr. pose proof (sget_iso a _ _ S) as X. destruct (sget a (i_slots i)), (sget a (i_slots i')); simpl in X; try contradiction; auto.
    destruct (i_dict i) as [d|], (i_dict i') as [d'|]; simpl in D; try contradiction; auto.
    destruct D as (C & its & G). destruct (R_cell d d' C) as (ob & ob' & G1 & G2 & OI). rewrite G in G1. injection G1 as <-.
    inversion OI as [| |x d2 F| | |]; subst. rewrite G, G2. apply dget_iso; auto.
  Qed.
  Lemma iso_fields l i i' : hget h l = Some (OInst i) -> inst_iso h R i i' -> fields_like w o nk k k' h h' R true l i i'.
  Proof.
    intros GI II. pose proof II as [E D S IT EL FA PO]. pose proof (fun a => attr_iso i i' a II) as AT. unfold fields_like. cbv zeta.
    assert (LK : forall a b, viso R a b -> like a b) by exact viso_like.
    assert (NM : forall ex, opt (names_like o nk k k' h h' R true ex) (i_dict i) (i_dict i')).
    { intros ex. eapply opt_mono; [|exact D]. intros d d' (C & its & G). eapply names_dict; eauto. }
    assert (SE : opt (names_like o nk k k' h h' R true []) (i_dict i) (i_dict i') /\ Forall2 like (i_elems i) (i_elems i')) by (split; auto; apply visos; auto).
    destruct (c_kind (cls (i_cls i))); auto.
    - split; auto. intros _ _ a _. eapply opt_mono; [exact LK|apply AT].
    - split; [eapply Forall2_len; eauto|]. split.
      { apply dict_like_items. apply entries_dict.
        assert (K : forall q v, In (q, v) (i_items i) -> is_key h q) by (intros q v X; exists l, v; right; eauto). clear - K IT KEY.
        induction IT as [|[q v] [q' v'] d d' [A B] F IH]; constructor.
        - cbn [fst snd] in *. split; [apply viso_like; auto|]. split; [|apply viso_like; auto]. intros KF. apply KEY; auto. eapply K. left. reflexivity.
        - apply IH. intros q0 v0 X. eapply K. right. exact X. }
      split.
      { left. unfold factory_of. rewrite <- E. destruct (c_deffac (cls (i_cls i))); eapply opt_mono; eauto. }
      eapply opt_mono; [|exact D]. intros d d' (C & its & G). split; [eapply names_dict; eauto|].
      destruct (R_cell d d' C) as (ob & ob' & G1 & G2 & OI). rewrite G in G1. injection G1 as <-.
      inversion OI as [| |x d2 F| | |]; subst. exists its, d2. split; auto. split; auto. split; [eapply Forall2_len; eauto|]. left. left. exact C.
    - split; auto. intros _ _ a _. eapply opt_mono; [exact LK|apply AT].
  Qed.
  Lemma there_iso i i' : inst_iso h R i i' -> dict_there h i /\ dict_there h' i'.
  Proof.
    intros [_ D _ _ _ _ _]. split; intros d E; rewrite E in D; [destruct (i_dict i') as [d'|]|destruct (i_dict i) as [d'|]]; try contradiction;
      destruct D as (C & its & G); destruct (R_cell _ _ C) as (ob & ob' & G1 & G2 & _); congruence.
  Qed.
  Fixpoint like_viso v v' (H : like v v') {struct H} : viso (corr h h' R) v v'.
  Proof.
    destruct H as [v F|xs ys F|l l' C|l l' xs ys X|l l' x X]; try discriminate X.
    - apply vi_flat. exact F.
    - apply vi_tuple. revert xs ys F. fix go 3. intros xs ys F. destruct F as [|x y xs ys H F]; constructor; [apply like_viso; exact H|apply go; exact F].
    - apply vi_loc. exact C.
  Qed.
  Lemma iso_alike : same_hooks w k k' h R (viso R) (viso R) ->
    (po_max_depth o = None /\ po_make_refs o = true \/ forall v v', viso (corr h h' R) v v' -> py_repr k v = py_repr k' v') ->
    alike w o nk k k' h h' R true.
  Proof.
    intros HO RP. constructor; auto.
    - intros l l' C. destruct (R_cell l l' C) as (ob & ob' & G & G' & OI). exists ob, ob'. split; auto. split; auto.
      destruct OI as [xs ys F|xs ys F|d d' F|b|i i' II|]; try (constructor; apply visos; auto; fail); try (constructor; fail).
      + constructor. apply entries_dict. eapply piso_entry; eauto.
      + constructor; [|intros _; apply II]. constructor; [apply II| |right; apply iso_fields; auto].
        intros _. destruct (there_iso i i' II). split; auto. split; auto. intros a. eapply opt_mono; [exact viso_like|apply attr_iso; auto].
    - eapply same_hooks_mono; [exact viso_like| |exact HO]. intros v v' H. split; [apply viso_like; auto|apply viso_truth; auto].
    - destruct RP as [RP|RP]; auto. right. intros v v' H. apply RP. apply like_viso. exact H.
  Qed.
  Theorem iso_encode r' n v v' : po_sort o = false -> po_readonly o = false -> same_hooks w k k' h R (viso R) (viso R) ->
    (po_max_depth o = None /\ po_make_refs o = true \/ forall x x', viso (corr h h' R) x x' -> py_repr k x = py_repr k' x') ->
    viso R v v' -> fst (encode w k o n v (new_pickler h)) = fst (encode w k' (set_numeric nk (set_root r' o)) n v' (new_pickler h')).
  Proof.
    intros A B HO RP VI. eapply encode_alike with (extra := fun _ _ => False); auto; [apply iso_alike; auto|discriminate|apply viso_like; auto].
  Qed.
End iso.

(** ** A graph and its copy *)
Section dicts.
  Variables (o : popts) (nk : bool) (k k' : hooks) (h h' : heap) (R0 : loc -> loc -> Prop) (ex : bool).
  Notation dict_like := (dict_like o nk k k' h h' R0 ex).
  Lemma entries_dict_like d d' : Forall2 (entry_like o nk k k' h h' R0 ex) d d' -> dict_like d d'.
  Proof.
    intros F. unfold SpecIso.dict_like. destruct (po_keys o); auto. unfold strings, non_strings.
    split; (eapply filter_rel; [|exact F]); intros p p' (L & _); rewrite (is_str_like h h' R0 ex _ _ L); auto.
  Qed.
  Lemma dict_like_ext d e d' : dict_like e d' -> (po_keys o = true -> strings e = strings d /\ non_strings e = non_strings d) ->
    (po_keys o = false -> e = d) -> dict_like d d'.
  Proof.
    unfold SpecIso.dict_like. destruct (po_keys o); intros A B C; [destruct B as [B1 B2]; auto; rewrite <- B1, <- B2; exact A|rewrite <- C; auto].
  Qed.
End dicts.
Lemma filter_all {A} (f : A -> bool) l : (forall x, In x l -> f x = true) -> filter f l = l.
Proof. induction l as [|x l IH]; intros H; simpl; auto. rewrite H by (left; auto). f_equal. apply IH. intros; apply H; right; auto. Qed.
Lemma items_none d : items [] d = d.
Proof. apply filter_all. intros [q x] _. cbn [fst]. destruct q; auto. Qed.
Section copied.
  Variables (w : world) (k k' : hooks) (o : popts) (nk : bool) (cl : list (pystr * val)) (h : heap) (v : val) (h' : heap) (b : nat) (v' : val) (R : loc -> loc -> Prop).
  Notation keys := (po_keys o).
  Notation cls := (w_cls w).
  Notation reach := (reach w k keys cl h).
  Notation shape := (shape w k keys cl h).
  Notation R0 := (within_v w k keys cl h v R).
  Hypothesis SU : supported w k keys cl h v.
  Hypothesis SE : settled w k keys cl h v.
  Hypothesis CB : copied_by w k keys h v h' b v' R.
  Hypothesis Op : po_props o = false.
  Hypothesis Od : po_max_depth o = None.
  Hypothesis Om : po_make_refs o = true.
  Hypothesis Ou : po_unpicklable o = true.
  Notation like := (like h h' R0 false).
  Notation vm := (vmatch h h' b R).
  Notation pm := (pmatch h h' b R).
  Notation dict_like := (dict_like o nk k k' h h' R0 false).
  Lemma reach_trans x y z : reach x y -> reach y z -> reach x z.
  Proof. intros A B. induction A; auto. econstructor; eauto. Qed.
  Lemma reach_sub x y : reach v x -> sub w k keys cl h x y -> reach v y.
  Proof. intros A B. eapply reach_trans; eauto. econstructor; [exact B|constructor]. Qed.
  Lemma shape_in l cs x : reach v (VLoc l) -> shape l cs -> In x cs -> reach v x.
  Proof. intros A B C. eapply reach_sub; eauto. econstructor; eauto. Qed.
  Lemma shape_of l : reach v (VLoc l) -> exists cs, shape l cs.
  Proof. intros A. pose proof (SU _ A) as X. apply X. Qed.
  Lemma shape_there l cs : shape l cs -> hget h l <> None.
  Proof. intros A. inversion A; congruence. Qed.
  Lemma there l : reach v (VLoc l) -> hget h l <> None.
  Proof. intros A. destruct (shape_of l A) as (cs & S). eapply shape_there; eauto. Qed.
  Lemma set_shape l xs : reach v (VLoc l) -> hget h l = Some (OSet xs) -> shape l xs.
  Proof. intros A G. destruct (shape_of l A) as (cs & S). inversion S; congruence. Qed.
  Lemma list_shape l xs : reach v (VLoc l) -> hget h l = Some (OList xs) -> shape l xs.
  Proof. intros A G. constructor. exact G. Qed.
  Lemma dict_shape l d : reach v (VLoc l) -> hget h l = Some (ODict d) -> shape l (map fst d ++ map snd d) /\ dict_ok w k keys h d.
  Proof.
    intros A G. destruct (shape_of l A) as (cs & S). inversion S as [|l0 d0 G0 D0| | | | | | | | | | | |]; try congruence. subst. rewrite G in G0. injection G0 as <-. auto.
  Qed.
  Fixpoint vm_like x x' (H : vm x x') {struct H} : reach v x -> like x x'.
  Proof.
    destruct H as [x A|xs ys F|l l' xs ys G B G' F|l l' x G B G'|l l' C]; intros RE.
    - apply lk_flat. destruct x; auto; discriminate.
    - apply lk_tuple. assert (RX : forall x, In x xs -> reach v x) by (intros x I; eapply reach_sub; [exact RE|constructor; exact I]). clear RE.
      revert xs ys F RX. fix go 3. intros xs ys F. destruct F as [|x y xs ys H F]; intros RX; constructor.
      + apply vm_like; [exact H|apply RX; left; reflexivity].
      + apply go; [exact F|intros z I; apply RX; right; exact I].
    - eapply lk_set; eauto. assert (RX : forall x, In x xs -> reach v x) by (intros x I; eapply shape_in; [exact RE|apply set_shape; eauto|exact I]). clear RE G G'.
      revert xs ys F RX. fix go 3. intros xs ys F. destruct F as [|x y xs ys H F]; intros RX; constructor.
      + apply vm_like; [exact H|apply RX; left; reflexivity].
      + apply go; [exact F|intros z I; apply RX; right; exact I].
    - eapply lk_bytearray; eauto.
    - apply lk_loc. left. split; auto.
  Qed.
  Lemma vms_like xs ys : Forall2 vm xs ys -> (forall x, In x xs -> reach v x) -> Forall2 like xs ys.
  Proof. intros F. induction F; intros RX; constructor; [apply vm_like; auto; apply RX; left; auto|apply IHF; intros; apply RX; right; auto]. Qed.
  Lemma opt_like x x' : omatch_opt h h' b R x x' -> (forall y, x = Some y -> reach v y) -> opt like x x'.
  Proof. destruct x, x'; simpl; auto. intros M RX. apply vm_like; auto. Qed.
  (** Items in the same order. *)
  Definition str_keys (d : list (val * val)) : Prop := keys = false -> forall kv, In kv d -> is_str (fst kv) = true.
  Lemma pms_entry d d' : Forall2 pm d d' -> (forall x, In x (map fst d ++ map snd d) -> reach v x) -> str_keys d ->
    Forall2 (entry_like o nk k k' h h' R0 false) d d'.
  Proof.
    intros F RX SK. induction F as [|[q x] [q' x'] d d' [A B] F IH]; constructor.
    - cbn [fst snd] in *. split; [apply vm_like; auto; apply RX; simpl; auto|]. split.
      + intros KF. specialize (SK KF (q, x) (or_introl eq_refl)). cbn [fst] in SK. destruct q; try discriminate. inversion A; subst. reflexivity.
      + apply vm_like; auto. apply RX. simpl. right. apply in_or_app. right. left. reflexivity.
    - apply IH.
      + intros y I. apply RX. cbn [map fst snd]. simpl. apply in_app_or in I as [I|I]; [right; apply in_or_app; auto|right; apply in_or_app; right; right; auto].
      + intros KF kv I. apply SK; auto. right. auto.
  Qed.
  Lemma strings_order d : escaped_last keys d -> strings (dict_order keys d) = strings d.
  Proof.
    unfold dict_order, strings, non_strings. rewrite !filter_app. intros E.
    rewrite (filter_none _ (filter (fun kv => negb (is_str (fst kv))) d)), app_nil_r
      by (intros x I; apply filter_In in I as [_ I]; destruct (is_str (fst x)); auto; discriminate).
    rewrite (filter_all _ (filter (fun kv => is_str (fst kv) && negb (is_escaped keys (fst kv))) d))
      by (intros x I; apply filter_In in I as [_ I]; destruct (is_str (fst x)); auto; discriminate).
    rewrite (filter_all _ (filter (fun kv => is_escaped keys (fst kv)) d))
      by (intros [x y] I; apply filter_In in I as [_ I]; cbn [fst] in *; destruct x; auto; discriminate).
    induction d as [|[q x] d IH]; auto. destruct E as [E1 E2]. specialize (IH E2). cbn [filter fst].
    destruct (is_escaped keys q) eqn:EQ.
    - assert (S : is_str q = true) by (destruct q; auto; discriminate). rewrite S. cbn [andb negb].
      assert (N : filter (fun kv => is_str (fst kv) && negb (is_escaped keys (fst kv))) d = []).
      { apply filter_none. intros kv I. destruct (is_str (fst kv)) eqn:SS; auto. rewrite (E1 eq_refl kv I SS). reflexivity. }
      rewrite N in *. cbn [app] in *. rewrite IH. reflexivity.
    - rewrite andb_true_r. destruct (is_str q); cbn [app]; rewrite ?IH; auto.
  Qed.
  Lemma strings_firsts d : strings (strings_first d) = strings d.
  Proof.
    unfold strings_first, strings. rewrite filter_app, filter_twice. rewrite (filter_none _ (filter (fun kv => negb (is_str (fst kv))) d)), app_nil_r; auto.
    intros x I; apply filter_In in I as [_ I]; destruct (is_str (fst x)); auto; discriminate.
  Qed.
  Lemma dict_ok_str d : dict_ok w k keys h d -> str_keys d.
  Proof.
    intros [A _] KF kv I. rewrite forallb_forall in A. specialize (A kv I). destruct (fst kv); auto; simpl in A; rewrite KF in A; discriminate.
  Qed.
  Lemma order_same d : str_keys d -> keys = false -> dict_order keys d = d.
  Proof.
    intros SK KF. specialize (SK KF). unfold dict_order, non_strings.
    assert (E : forall q, is_escaped keys q = false) by (intros q; rewrite KF; destruct q; auto).
    rewrite (filter_all _ d) by (intros x I; rewrite E, (SK x I); auto). rewrite !filter_none, !app_nil_r; auto.
    intros x I. rewrite SK; auto.
  Qed.
  Lemma first_same d : str_keys d -> keys = false -> strings_first d = d.
  Proof.
    intros SK KF. specialize (SK KF). unfold strings_first.
    rewrite (filter_all _ d) by (intros x I; auto). rewrite filter_none, app_nil_r; auto. intros x I. rewrite SK; auto.
  Qed.
  Lemma in_order (d : list (val * val)) x : In x (map fst (dict_order keys d) ++ map snd (dict_order keys d)) -> In x (map fst d ++ map snd d).
  Proof.
    assert (I : incl (dict_order keys d) d).
    { intros y. unfold dict_order, non_strings. rewrite !in_app_iff, !filter_In. tauto. }
    rewrite !in_app_iff. intros [X|X]; [left|right]; apply in_map_iff in X as (p & <- & X); apply in_map; auto.
  Qed.
  Lemma in_first (d : list (val * val)) x : In x (map fst (strings_first d) ++ map snd (strings_first d)) -> In x (map fst d ++ map snd d).
  Proof.
    assert (I : incl (strings_first d) d).
    { intros y. unfold strings_first. rewrite !in_app_iff, !filter_In. tauto. }
    rewrite !in_app_iff. intros [X|X]; [left|right]; apply in_map_iff in X as (p & <- & X); apply in_map; auto.
  Qed.
  Lemma sk_incl d d' : str_keys d -> incl d' d -> str_keys d'.
  Proof. intros A B KF kv I. apply A; auto. Qed.
  Lemma dict_copy l l' d d' : R0 l l' -> hget h l = Some (ODict d) -> Forall2 pm (dict_order keys d) d' -> dict_like d d'.
  Proof.
    intros [C RE] G F. destruct (dict_shape l d RE G) as [S DO]. pose proof (dict_ok_str d DO) as SK.
    eapply dict_like_ext with (e := dict_order keys d).
    - apply entries_dict_like. apply pms_entry; auto.
      + intros x I. eapply shape_in; [exact RE|exact S|]. apply in_order. exact I.
      + eapply sk_incl; [exact SK|]. intros y. unfold dict_order, non_strings. rewrite !in_app_iff, !filter_In. tauto.
    - intros _. split; [apply strings_order; eapply se_order; eauto|apply non_strings_order].
    - apply order_same; auto.
  Qed.
  Lemma R_om l l' : R0 l l' -> omatch w k keys h h' b b R l l'.
  Proof. intros [C _]. apply CB. exact C. Qed.
  Lemma names_copy l l' d : R0 l l' -> hget h l = Some (ODict d) -> names_like o nk k k' h h' R0 false [] l l' /\
    exists d', hget h' l' = Some (ODict d') /\ length d = length d' /\ forall a, opt (fun _ _ => True) (dget (VStr a) d) (dget (VStr a) d').
  Proof.
    intros C G. pose proof (R_om l l' C) as OM. destruct OM as [xs ys G1|d1 d' G1 B G2 F|i i' G1]; try congruence.
    rewrite G in G1. injection G1 as <-. split.
    - exists d, d'. split; auto. split; auto. rewrite !items_none. eapply dict_copy; eauto.
    - exists d'. split; auto. split.
      + rewrite <- (Forall2_len _ _ _ F). unfold dict_order, non_strings. rewrite !app_length.
        clear. induction d as [|[q x] d IH]; auto. cbn [filter fst length]. destruct q; cbn [is_str is_escaped andb negb length]; try lia.
        match goal with |- context [escaped keys ?s] => destruct (escaped keys s) end; cbn [length negb]; lia.
      + intros a. pose proof (dget_at h h' b R (VStr a) _ _ eq_refl F) as X. rewrite dget_dict_order in X.
        destruct (dget (VStr a) d), (dget (VStr a) d'); simpl in *; auto.
  Qed.
  Notation inst_like := (inst_like w o nk k k' h h' R0 false).
  Notation names_like := (names_like o nk k k' h h' R0 false).
  Lemma kept_items c d : items (c_exclude c) d = kept_attrs c d.
  Proof.
    unfold items, kept_attrs. apply filter_ext. intros [q x]. cbn [fst]. unfold excluded, kept. destruct q; auto.
  Qed.
  (** The attributes of an instance with [__dict__]. *)
  Lemma attrs_copy c a i' d : attrs_ok keys c a = true -> hget h d = Some (ODict a) ->
    (forall x, In x (map snd (kept_attrs c a)) -> reach v x) -> dict_match h h' b R (kept_attrs c a) i' ->
    exists d', i_dict i' = Some d' /\ names_like (c_exclude c) d d'.
  Proof.
    intros AO G RX (d' & it' & D & G' & F). exists d'. split; auto. exists a, it'. split; auto. split; auto. rewrite kept_items.
    assert (ST : forall kv, In kv (kept_attrs c a) -> is_str (fst kv) = true).
    { intros kv I. apply filter_In in I as [I _]. unfold attrs_ok in AO. apply andb_true_iff in AO as [AO _]. rewrite forallb_forall in AO.
      specialize (AO kv I). destruct (fst kv); auto; discriminate. }
    assert (E : Forall2 (entry_like o nk k k' h h' R0 false) (kept_attrs c a) it').
    { clear G' D AO. revert ST RX. generalize (kept_attrs c a), it', F. clear it' F. intros e e' F. induction F as [|[q x] [q' x'] e e' [A B] F IH]; intros ST RX; constructor.
      - cbn [fst snd] in *. pose proof (ST (q, x) (or_introl eq_refl)) as SQ. cbn [fst] in SQ. destruct q; try discriminate.
        inversion A; subst. split; [constructor; auto|]. split; [auto|]. cbn [snd]. apply vm_like; auto. apply RX. left. reflexivity.
      - apply IH; [intros kv I; apply ST; right; auto|intros y I; apply RX; right; auto]. }
    assert (K' : items (c_exclude c) it' = it').
    { apply filter_all. intros [q' x'] I. cbn [fst].
      assert (X : exists kv, In kv (kept_attrs c a) /\ fst kv = q').
      { clear - F ST I. induction F as [|[q x] [q2 x2] e e' [A B] F IH]; [destruct I|]. destruct I as [I|I].
        - injection I as -> ->. exists (q, x). split; [left; auto|]. cbn [fst] in *. pose proof (ST (q, x) (or_introl eq_refl)) as SQ. cbn [fst] in SQ.
          destruct q; try discriminate. inversion A; subst; auto.
        - destruct IH as (kv & X & Y); [intros; apply ST; right; auto|auto|]. exists kv. split; auto. right. auto. }
      destruct X as (kv & X & <-). apply filter_In in X as [_ X]. unfold excluded, kept in *. destruct (fst kv); auto. }
    rewrite K'. apply entries_dict_like. exact E.
  Qed.
  Lemma state_reach l i st cs args kw : reach v (VLoc l) -> hget h l = Some (OInst i) -> ordinary w k l i -> own_state w k h (cls (i_cls i)) l st ->
    c_setstate (cls (i_cls i)) = true -> ctor k h (cls (i_cls i)) l cs args kw -> reach v st.
  Proof.
    intros RE G OR OS SS CT. destruct (shape_of l RE) as (vs0 & SH).
    inversion SH as [| | | |l0 i0 a cs0 args0 kw0 G0 c KP CO NR NS0|l0 i0 sl cs0 args0 kw0 G0 c KP CO NR NS0
        |l0 i0 cs0 args0 kw0 G0 c KP CO NR NS0|l0 i0 a cs0 args0 kw0 G0 c KK CO NR NS0|l0 i0 st0 cs0 args0 kw0 G0 c CO NR OS0
        |l0 i0 sd a cs0 args0 kw0 G0 c KP CO NR OS0 CT0 NS0|l0 i0 xa sb bb cs0 args0 kw0 G0 c KP CO NR OS0 CT0 NS0|l0 i0 cs0 args0 kw0 G0 c KT CO NR NS0|l0 i0 hd pre xs G0 LC HD|l0 i0 f args0 mkrec st0 li xs di d G0 RD]; try congruence; subst l0; subst vs0;
        rewrite G in G0; injection G0 as <-; try (destruct (state_excl w k h _ _ _ NS0 OS)).
    - rewrite (state_det w k h _ _ _ _ OS OS0). eapply shape_in; [exact RE|exact SH|]. apply in_or_app. right. left. reflexivity.
    - subst c. congruence.
    - subst c. congruence.
    - destruct (handled_ordinary w k _ _ _ _ _ HD OR).
    - destruct OR as [_ OR]. destruct (reduced_none w k h _ _ _ _ _ _ _ _ _ _ RD OR).
  Qed.
  Lemma fields_copy l l' i i' : R0 l l' -> hget h l = Some (OInst i) -> hget h' l' = Some (OInst i') -> i_cls i' = i_cls i ->
    imatch w k h h' b b R l i i' -> by_user w o k h l i \/ fields_like w o nk k k' h h' R0 false l i i'.
  Proof.
    intros C G G' EC IM. pose proof C as [_ RE]. destruct (shape_of l RE) as (vs0 & SH).
    destruct (se_kind _ _ _ _ _ _ SE l i RE G) as [NIT NTU].
    assert (RX : forall x, In x vs0 -> reach v x) by (intros x I; eapply shape_in; eauto).
    destruct IM as [cs args kw OR NS NK CT MM AM EL IS|cs args kw OR NS KD CT MM IT FA DI S0 S1 IS|st st' cs args kw OR OS SS CT MM IS VM
                   |sd a cs args kw OR OS SS CT MM GS DB AT DM IS|xa sb bb a cs args kw OR OS SS CT MM GS SD DB AT DM IS|hd pre xs xs' HD _ _|f args args' mkrec st li xs di d RD VA IR ST VX VD IS].
    - right. destruct AM as (_ & AT & NN & DM).
      inversion SH as [| | | |l0 i0 a cs0 args0 kw0 G0 c KP CO NR NS0 CT0 CD AO AK SL DF|l0 i0 sl cs0 args0 kw0 G0 c KP CO NR NS0 CT0 CD ID SL ND FK IN UN EX DF
        |l0 i0 cs0 args0 kw0 G0 c KP|l0 i0 a cs0 args0 kw0 G0 c KK CO NR NS0 CT0 FI XE DI SL DF|l0 i0 st cs0 args0 kw0 G0 c CO NR OS
        |l0 i0 sd a cs0 args0 kw0 G0 c KP CO NR OS|l0 i0 xa sb bb cs0 args0 kw0 G0 c KP CO NR OS|l0 i0 cs0 args0 kw0 G0 c KT CO NR NS0|l0 i0 hd pre xs G0 LC HD|l0 i0 f args0 mkrec st li xs di d G0 RD]; try congruence; subst l0; subst vs0;
        rewrite G in G0; injection G0 as <-; clear SH.
      + unfold fields_like. cbv zeta. fold c. rewrite KP. unfold attrs_of in AO. destruct (i_dict i) as [d|] eqn:EI; [|discriminate].
        destruct (hget h d) as [[| |a1| | |]|] eqn:GD; try discriminate. injection AO as ->.
        destruct (attrs_copy c a i' d AK GD) as (d' & -> & NL).
        * intros x I. apply RX. apply in_or_app. right. exact I.
        * apply DM. unfold attrs_of. rewrite EI, GD. reflexivity.
        * split; [exact NL|discriminate].
      + unfold fields_like. cbv zeta. fold c. rewrite KP, ID, (NN ID). split; [exact I|]. intros _ _ a XA.
        assert (KA : kept c (mangle c a) = true) by (apply (se_slots _ _ _ _ _ _ SE l i a RE G); unfold kept; fold c; rewrite XA; reflexivity).
        specialize (AT (mangle c a)). fold c in AT. rewrite KA in AT. apply opt_like; auto.
        intros y Y. apply RX. apply in_or_app. right. apply in_flat_map. unfold inst_attr in Y. rewrite ID in Y.
        destruct (sget (mangle c a) (i_slots i)) as [z|] eqn:SG; [|discriminate]. injection Y as ->.
        assert (MI : In (mangle c a) (map (mangle c) sl)).
        { apply IN. clear - SG. induction (i_slots i) as [|[n x] r IH]; [discriminate|]. cbn [sget] in SG. destruct (seqb (mangle c a) n) eqn:E; [left; symmetry; apply seqb_eq; auto|right; auto]. }
        apply in_map_iff in MI as (a' & EM & MI). rewrite forallb_forall in FK. specialize (FK a' MI). rewrite EM, KA in FK.
        exists a'. split; [exact MI|]. destruct (kept c a'); [|discriminate]. rewrite EM, SG. left. reflexivity.
      + destruct NK. exact KP.
      + assert (KK' : c_kind c = KList \/ c_kind c = KSet) by (destruct KK as [KK|[KK _]]; auto).
        assert (E2 : Forall2 like (i_elems i) (i_elems i')).
        { apply vms_like; [apply EL; auto|]. intros x I. apply RX. rewrite !in_app_iff. auto. }
        assert (D2 : opt (names_like []) (i_dict i) (i_dict i')).
        { destruct (i_dict i) as [d|] eqn:EI.
          - destruct DI as (_ & GD & AK). destruct (attrs_copy c a i' d AK GD) as (d' & -> & NL).
            + intros x I. apply RX. rewrite !in_app_iff. right. left. unfold kept_attrs in I. apply in_map_iff in I as (p & <- & I). apply filter_In in I as [I _]. apply in_map. exact I.
            + apply DM. unfold attrs_of. rewrite EI, GD. reflexivity.
            + rewrite XE in NL. exact NL.
          - rewrite (NN eq_refl). exact I. }
        unfold fields_like. cbv zeta. fold c. destruct KK' as [-> | ->]; auto.
      + destruct (state_excl w k h _ _ _ NS OS).
      + destruct (state_excl w k h _ _ _ NS OS).
      + destruct (state_excl w k h _ _ _ NS OS).
      + destruct (NTU KT). auto.
      + destruct (handled_ordinary w k _ _ _ _ _ HD OR).
      + destruct OR as [_ OR]. destruct (reduced_none w k h _ _ _ _ _ _ _ _ _ _ RD OR).
    - right.
      inversion SH as [| | | |l0 i0 a cs0 args0 kw0 G0 c KP|l0 i0 sl cs0 args0 kw0 G0 c KP
        |l0 i0 cs0 args0 kw0 G0 c KP CO NR NS0 CT0 XE DO NR2 FO SL DD|l0 i0 a cs0 args0 kw0 G0 c KK|l0 i0 st cs0 args0 kw0 G0 c CO NR OS
        |l0 i0 sd a cs0 args0 kw0 G0 c KP CO NR OS|l0 i0 xa sb bb cs0 args0 kw0 G0 c KP CO NR OS|l0 i0 cs0 args0 kw0 G0 c KT CO NR NS0|l0 i0 hd pre xs G0 LC HD|l0 i0 f args0 mkrec st li xs di d G0 RD]; try congruence; subst l0; subst vs0;
        rewrite G in G0; injection G0 as <-; clear SH; try (subst c; congruence).
      + pose proof (dict_ok_str _ DO) as SK.
        assert (DL : dict_like (i_items i) (i_items i')).
        { eapply dict_like_ext with (e := strings_first (i_items i)).
          - apply entries_dict_like. apply pms_entry; auto.
            + intros x I. apply RX. apply in_first in I. rewrite !in_app_iff in *. tauto.
            + eapply sk_incl; [exact SK|]. intros y. unfold strings_first. rewrite !in_app_iff, !filter_In. tauto.
          - intros _. split; [apply strings_firsts|apply non_strings_first].
          - apply first_same; auto. }
        assert (LE : length (i_items i) = length (i_items i')).
        { rewrite <- (Forall2_len _ _ _ IT). unfold strings_first. rewrite app_length. clear.
          induction (i_items i) as [|[q x] r IH]; auto. cbn [filter fst length]. destruct (is_str q); cbn [negb length]; lia. }
        unfold fields_like. cbv zeta. fold c. rewrite KP, XE, !items_none. split; auto. split; auto. split.
        * unfold factory_of. rewrite EC. fold c. unfold factory_ok in FO. cbv zeta in FO. fold c in FO, FA. destruct (c_deffac c).
          -- specialize (FA eq_refl). destruct (i_fac i) as [[]|]; try contradiction; rewrite FA; try (right; split; exact I || reflexivity).
             left. constructor. reflexivity.
          -- left. rewrite FO. unfold inst_attr. rewrite S1. cbn [sget]. destruct (i_dict i') as [d'|]; [|exact I].
             destruct (i_dict i) as [d|] eqn:EI; [|destruct DI]. destruct DD as (_ & _ & a & GD & _).
             unfold inst_attr in FO. rewrite S0, EI, GD in FO. cbn [sget] in FO.
             destruct DI as [RD|(_ & _ & _ & G2)]; [|rewrite G2; exact I].
             assert (RO : R0 d d') by (split; auto; apply RX; rewrite !in_app_iff; right; right; right; right; left; reflexivity).
             destruct (names_copy d d' a RO GD) as (_ & d2 & -> & _ & X). specialize (X (u "default_factory")). rewrite FO in X.
             destruct (dget (VStr (u "default_factory")) d2); [destruct X|exact I].
        * destruct (i_dict i) as [d|], (i_dict i') as [d'|]; try contradiction; [|exact I]. destruct DD as (_ & _ & a & GD & _).
          destruct DI as [RD|(I0 & G1 & _ & G2)].
          -- assert (RO : R0 d d') by (split; auto; apply RX; rewrite !in_app_iff; right; right; right; right; left; reflexivity).
             destruct (names_copy d d' a RO GD) as (NL & d2 & G2 & LL & X). split; auto. exists a, d2. split; auto. split; auto. split; auto. left. left. exact RO.
          -- rewrite GD in G1. injection G1 as ->. split.
             ++ exists [], []. split; auto. split; auto. apply entries_dict_like. constructor.
             ++ exists [], []. split; auto.
      + exfalso. subst c. destruct KK as [KK|[KK _]]; congruence.
      + destruct (state_excl w k h _ _ _ NS OS).
      + destruct (handled_ordinary w k _ _ _ _ _ HD OR).
      + destruct OR as [_ OR]. destruct (reduced_none w k h _ _ _ _ _ _ _ _ _ _ RD OR).
    - left. pose proof OS as (O1 & O2 & O3 & O4). eapply bu_state; eauto. intros x E. split; [destruct O4 as [O4|O4]; [auto|destruct (O4 x E)]|].
      apply there. rewrite <- E. eapply state_reach; eauto.
    - left. pose proof OS as (O1 & O2 & O3 & O4). eapply bu_state; eauto. intros x E. split; [destruct O4 as [O4|O4]; [auto|destruct (O4 x E)]|].
      injection E as <-. congruence.
    - left. pose proof OS as (O1 & O2 & O3 & O4). eapply bu_state; eauto. intros x E. discriminate.
    - left. destruct HD as (_ & HD & _). eapply bu_handler; eauto.
    - left. pose proof RD as [N1 N2 N3 (rl & KR & NE & PAD) MK SS SU2 LI DD].
      assert (N2' : nth 2 rl VNone = st).
      { replace (nth 2 rl VNone) with (nth 2 (rl ++ repeat VNone (6 - length rl)) VNone); [rewrite PAD; reflexivity|].
        destruct rl as [|r0 [|r1 [|r2 rl]]]; reflexivity. }
      eapply bu_reduce; eauto; rewrite ?N2'.
      + intros x ->. apply there. eapply shape_in; [exact RE|eapply sh_reduce; eauto|]. right. right. left. reflexivity.
      + destruct SU2 as [U1 _|U1 _ U2|sd a _ _ _ U1 U2]; auto. destruct U2; auto.
  Qed.
  Lemma copied_alike : same_hooks w k k' h R0 like (truth_like w h h' R0 false) -> alike w o nk k k' h h' R0 false.
  Proof.
    intros HO. constructor; auto.
    - destruct CB as [[F J] _]. split; [intros l x y [A _] [B _]; eauto|intros x y l [A _] [B _]; eauto].
    - intros l l' C. pose proof C as [_ RE]. destruct (R_om l l' C) as [xs ys G _ G' F|d d' G _ G' F|i i' G _ G' EC IM].
      + exists (OList xs), (OList ys). split; auto. split; auto. constructor. apply vms_like; auto. intros x I. eapply shape_in; [exact RE|constructor; eauto|exact I].
      + exists (ODict d), (ODict d'). split; auto. split; auto. constructor. eapply dict_copy; eauto.
      + exists (OInst i), (OInst i'). split; auto. split; auto. constructor.
        * constructor; [auto|congruence|eapply fields_copy; eauto].
        * intros KI. destruct (se_kind _ _ _ _ _ _ SE l i RE G) as [N _]. destruct (N KI).
  Qed.
  Theorem encode_copy r' n : po_sort o = false -> po_readonly o = false -> same_hooks w k k' h R0 like (truth_like w h h' R0 false) ->
    fst (encode w k o n v (new_pickler h)) = fst (encode w k' (set_numeric nk (set_root r' o)) n v' (new_pickler h')).
  Proof.
    intros A B HO. eapply encode_alike with (extra := fun _ _ => False); auto; [apply copied_alike; auto|rewrite Ou, Om; auto|apply vm_like; [apply CB|constructor]].
  Qed.
End copied.
