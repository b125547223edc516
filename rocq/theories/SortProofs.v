(** Sorted documents decode like the documents they are made from. *)
From Verif Require Import PyStr Tags Json JsonText JsonTextProofs Base Heap Registry LoadClass Pickler Unpickler Sort SpecJson SpecGraph SpecPlain SpecHoles SpecLack SpecProps SpecSort.
From Verif Require Import HeapProofs RTBase FillProofs LackProofs PropsProofs PropsEncode.
From Coq Require Import List Sorted Permutation Lia. Import ListNotations.
Open Scope nat_scope.

(** ** The order of strings *)
Lemma leb_refl a : str_leb a a = true.
Proof. induction a as [|x a IH]; cbn; auto. rewrite N.ltb_irrefl, N.eqb_refl. exact IH. Qed.
Lemma leb_total a : forall b, str_leb a b = false -> str_leb b a = true.
Proof.
  induction a as [|x a IH]; intros [|y b]; cbn; auto; try discriminate.
  destruct (N.ltb_spec x y); [discriminate|]. destruct (N.eqb_spec x y) as [->|].
  - intros E. rewrite N.ltb_irrefl, N.eqb_refl. auto.
  - intros _. destruct (N.ltb_spec y x); auto. lia.
Qed.
Lemma leb_trans a : forall b c, str_leb a b = true -> str_leb b c = true -> str_leb a c = true.
Proof.
  induction a as [|x a IH]; intros [|y b] [|z c]; cbn; auto; try discriminate.
  destruct (N.ltb_spec x y), (N.eqb_spec x y), (N.ltb_spec y z), (N.eqb_spec y z), (N.ltb_spec x z), (N.eqb_spec x z); try discriminate; try lia; eauto.
Qed.
Lemma leb_antisym a : forall b, str_leb a b = true -> str_leb b a = true -> a = b.
Proof.
  induction a as [|x a IH]; intros [|y b]; cbn; auto; try discriminate.
  destruct (N.ltb_spec x y), (N.eqb_spec x y), (N.ltb_spec y x), (N.eqb_spec y x); try discriminate; try lia. intros. f_equal; auto.
Qed.

(** ** Sorting *)
Lemma einsert_perm kv l : Permutation (kv :: l) (einsert kv l).
Proof.
  induction l as [|q l IH]; cbn; auto. destruct (str_leb (fst kv) (fst q)); auto.
  eapply perm_trans; [apply perm_swap|]. constructor. exact IH.
Qed.
Lemma sort_perm l : Permutation l (sort_entries l).
Proof. induction l as [|kv l IH]; cbn; auto. eapply perm_trans; [constructor; exact IH|apply einsert_perm]. Qed.
Lemma einsert_sorted kv l : ascending (map fst l) -> ascending (map fst (einsert kv l)).
Proof.
  unfold ascending. induction l as [|q l IH]; intros H; cbn [einsert map].
  - repeat constructor.
  - cbn [map] in H. inversion H as [|? ? H1 H2]; subst. destruct (str_leb (fst kv) (fst q)) eqn:E; cbn [map].
    + constructor; auto. constructor; auto. eapply Forall_impl; [|exact H2]. intros b Hb. eapply leb_trans; eauto.
    + constructor; auto. apply Forall_forall. intros b Hb. apply (Permutation_in b (Permutation_sym (Permutation_map fst (einsert_perm kv l)))) in Hb.
      cbn [map] in Hb. destruct Hb as [<-|Hb]; [apply leb_total; auto|]. rewrite Forall_forall in H2. auto.
Qed.
Lemma sort_sorted l : ascending (map fst (sort_entries l)).
Proof. induction l as [|kv l IH]; cbn; [constructor|]. apply einsert_sorted. exact IH. Qed.
Lemma einsert_first kv l : Forall (fun q => str_leb (fst kv) (fst q) = true) l -> einsert kv l = kv :: l.
Proof. intros H. destruct H as [|q l Hq H]; cbn; auto. rewrite Hq. reflexivity. Qed.
Lemma sort_id l : ascending (map fst l) -> sort_entries l = l.
Proof.
  induction l as [|kv l IH]; cbn [sort_entries fold_right map]; auto. intros H. inversion H as [|? ? H1 H2]; subst.
  fold (sort_entries l). rewrite IH by auto. apply einsert_first. rewrite Forall_map in H2. exact H2.
Qed.
Lemma sorted_unique A (l l' : list (pystr * A)) : NoDup (map fst l) -> Permutation l l' -> ascending (map fst l) -> ascending (map fst l') -> l = l'.
Proof.
  revert l'. induction l as [|q l IH]; intros l' N P S S'.
  - apply Permutation_nil in P. auto.
  - destruct l' as [|q' l']; [apply Permutation_sym, Permutation_nil in P; discriminate|].
    cbn [map] in *. inversion S as [|? ? S1 S2]; subst. inversion S' as [|? ? S1' S2']; subst. inversion N as [|? ? N1 N2]; subst.
    assert (q = q') as <-.
    { assert (I : In q' (q :: l)) by (apply (Permutation_in q' (Permutation_sym P)); left; auto).
      assert (I' : In q (q' :: l')) by (apply (Permutation_in q P); left; auto).
      destruct I as [|I]; auto. destruct I' as [|I']; auto. exfalso. apply N1.
      assert (fst q = fst q') as ->; [|apply in_map; exact I].
      rewrite Forall_forall in S2, S2'. apply leb_antisym; [apply S2|apply S2']; apply in_map; auto. }
    f_equal. apply IH; auto. eapply Permutation_cons_inv; eauto.
Qed.
Lemma filter_ascending (f : pystr -> bool) l : ascending l -> ascending (filter f l).
Proof.
  unfold ascending. induction 1 as [|a l H IH F]; cbn; [constructor|]. destruct (f a); auto. constructor; auto.
  apply Forall_forall. intros b Hb. apply filter_In in Hb as [Hb _]. rewrite Forall_forall in F. auto.
Qed.
Lemma filter_perm A (f : A -> bool) l l' : Permutation l l' -> Permutation (filter f l) (filter f l').
Proof.
  induction 1 as [|x l l' P IH|x y l|l l' l'' P1 IH1 P2 IH2]; cbn; auto.
  - destruct (f x); auto.
  - destruct (f x), (f y); auto. apply perm_swap.
  - eapply perm_trans; eauto.
Qed.
Lemma attr_names ob : map fst (attr_entries ob) = names ob.
Proof. unfold attr_entries, names. induction ob as [|[a j] ob IH]; cbn [filter map fst]; auto. destruct (is_reserved a); cbn [negb map fst]; congruence. Qed.
Lemma sort_attrs_kept ob : NoDup (map fst ob) -> ascending (names ob) -> attr_entries (sort_entries ob) = attr_entries ob.
Proof.
  intros N A. symmetry. apply sorted_unique.
  - rewrite attr_names. apply NoDup_filter. exact N.
  - apply filter_perm, sort_perm.
  - rewrite attr_names. exact A.
  - rewrite attr_names. apply filter_ascending, sort_sorted.
Qed.
Lemma sort_length l : length (sort_entries l) = length l.
Proof. symmetry. apply Permutation_length, sort_perm. Qed.

Definition sub_sort (kv : pystr * json) : pystr * json := match kv with (a, x) => (a, jsort x) end.
Lemma sub_names ob : map fst (map sub_sort ob) = map fst ob.
Proof. rewrite map_map. apply map_ext. intros [a x]. reflexivity. Qed.
Lemma jsort_obj ob : jsort (JObj ob) = JObj (sort_entries (map sub_sort ob)).
Proof. reflexivity. Qed.
Lemma jwf_jsort j : jwf j = true -> jwf (jsort j) = true.
Proof.
  induction j as [| | | | |l IH|ob IH] using json_ind'; auto.
  - cbn [jsort jwf]. rewrite !forallb_forall. intros H x Hx. apply in_map_iff in Hx as (y & <- & Hy). rewrite Forall_forall in IH. auto.
  - rewrite jsort_obj. cbn [jwf]. rewrite !andb_true_iff, !nodupb_NoDup, !forallb_forall. intros [N F]. split.
    + apply (Permutation_NoDup (Permutation_map fst (sort_perm _))). rewrite sub_names. exact N.
    + intros x Hx. apply (Permutation_in x (Permutation_sym (sort_perm _))) in Hx. apply in_map_iff in Hx as ([a y] & <- & Hy). cbn [sub_sort].
      pose proof (F _ Hy) as G. cbn in G. apply andb_true_iff in G as [G1 G2]. rewrite G1. rewrite Forall_forall in IH. apply (IH _ Hy G2).
Qed.

Lemma forallb_perm A (f : A -> bool) l l' : Permutation l l' -> forallb f l = true -> forallb f l' = true.
Proof. intros P. rewrite !forallb_forall. intros H x Hx. apply H. apply (Permutation_in x (Permutation_sym P)). exact Hx. Qed.
Lemma no_json_keys_jsort j : no_json_keys j = true -> no_json_keys (jsort j) = true.
Proof.
  induction j as [| | | | |l IH|ob IH] using json_ind'; auto.
  - cbn [jsort no_json_keys]. rewrite !forallb_forall. intros H x Hx. apply in_map_iff in Hx as (y & <- & Hy). rewrite Forall_forall in IH. auto.
  - rewrite jsort_obj. cbn [no_json_keys]. intros F. apply (forallb_perm _ _ _ _ (sort_perm _)). rewrite forallb_forall in *.
    intros x Hx. apply in_map_iff in Hx as ([a y] & <- & Hy). cbn [sub_sort]. specialize (F _ Hy). cbv beta iota in F. apply andb_true_iff in F as [F1 F2]. rewrite Forall_forall in IH. specialize (IH _ Hy F2). cbn [snd] in IH.
    rewrite F1, IH. reflexivity.
Qed.
Lemma distinct_iff l : distinct l = true <-> NoDup l.
Proof.
  induction l as [|x l IH]; cbn [distinct]; [split; auto; constructor|]. rewrite andb_true_iff, IH, negb_true_iff. split.
  - intros [A B]. constructor; auto. intros C. apply smem_In in C. congruence.
  - intros N. inversion N as [|? ? A B]; subst. split; auto. destruct (smem x l) eqn:E; auto. destruct A. apply smem_In. exact E.
Qed.
Lemma sub_shas t ob : shas t (map sub_sort ob) = shas t ob.
Proof. unfold shas. induction ob as [|[a x] ob IH]; cbn [map sub_sort sget]; auto. destruct (seqb t a); auto. Qed.
Lemma tag_free_jsort j : tag_free j = true -> tag_free (jsort j) = true.
Proof.
  induction j as [| | | | |l IH|ob IH] using json_ind'; auto.
  - cbn [jsort tag_free]. rewrite !forallb_forall. intros H x Hx. apply in_map_iff in Hx as (y & <- & Hy). rewrite Forall_forall in IH. auto.
  - rewrite jsort_obj. cbn [tag_free]. rewrite !andb_true_iff. intros [[Un Di] F].
    assert (N : NoDup (map fst (map sub_sort ob))) by (rewrite sub_names; apply distinct_iff; exact Di). split; [split|].
    + unfold untagged in *. rewrite forallb_forall in *. intros t Ht. specialize (Un t Ht). unfold shas. rewrite <- (sget_perm t _ _ N (sort_perm _)). fold (shas t (map sub_sort ob)).
      rewrite sub_shas. exact Un.
    + apply distinct_iff. apply (Permutation_NoDup (Permutation_map fst (sort_perm _))). exact N.
    + apply (forallb_perm _ _ _ _ (sort_perm _)). rewrite forallb_forall in *.
      intros x Hx. apply in_map_iff in Hx as ([a y] & <- & Hy). cbn [sub_sort]. specialize (F _ Hy). cbn in F. rewrite Forall_forall in IH. apply (IH _ Hy F).
Qed.

Section sortable.
  Variables (w : world) (cl : list (pystr * val)).
  Lemma sortable_alike j : jwf j = true -> sortable w cl j -> alike w cl j (jsort j).
  Proof.
    induction j as [| | | | |l IH|ob IH] using json_ind'; intros J H; try apply al_same.
    - inversion H as [? E|? F|]; subst; [rewrite E; apply al_same|]. cbn [jsort]. apply al_list. cbn [jwf] in J.
      induction l as [|x l IHl]; cbn [map]; [constructor|]. cbn [forallb] in J. apply andb_true_iff in J as [J1 J2].
      inversion IH; subst. inversion F; subst. constructor; auto. apply IHl; auto. apply so_list. auto.
    - inversion H as [? E| |? P Kd F T]; subst; [rewrite E; apply al_same|].
      assert (N : NoDup (map fst ob)) by (cbn [jwf] in J; apply andb_true_iff in J as [J _]; apply nodupb_NoDup; exact J).
      assert (Fe : Forall2 (alike_entry w cl) ob (map sub_sort ob)).
      { cbn [jwf] in J. apply andb_true_iff in J as [_ J]. rewrite forallb_forall in J. clear Kd P N H.
        induction ob as [|[t x] ob IHo]; cbn [map sub_sort]; [constructor|]. inversion IH as [|? ? I1 I2]; subst. inversion F as [|? ? F1 F2]; subst.
        constructor; [|apply IHo; auto; [intros; apply J; right; auto|intros; eapply T; eauto; right; eauto]].
        pose proof (J _ (or_introl eq_refl)) as Jx. cbn in Jx. apply andb_true_iff in Jx as [_ Jx]. cbn [snd] in *. pose proof (I1 Jx F1) as A.
        destruct (smem t list_tags) eqn:Et; [|apply ae_other; auto].
        destruct (T t x (or_introl eq_refl) Et) as [Ex|(l & ->)]; [rewrite Ex in *; apply ae_other; auto|].
        cbn [jsort] in *. apply ae_list. inversion A as [j0 Ea Eb|? ? Fa| | |]; [|exact Fa].
        assert (X : forall z, Forall2 (alike w cl) z z) by (intros z; induction z; constructor; auto; apply al_same).
        match goal with |- Forall2 _ ?a ?b => replace b with a by congruence end. apply X. }
      rewrite jsort_obj. destruct Kd as [[Ho A]|A].
      + eapply al_moved; eauto. right. rewrite sub_names. split; auto. split; [apply sort_perm|]. symmetry. apply sort_attrs_kept; [rewrite sub_names; auto|].
        unfold names in *. rewrite sub_names. exact A.
      + rewrite sort_id by (rewrite sub_names; exact A). apply al_obj; auto.
  Qed.
End sortable.

(** ** Documents of graphs *)
Section written.
  Variables (w w' : world) (k : hooks) (fs : option (exn -> res json)) (cl : list (pystr * val)) (h : heap) (ok : val -> Prop).
  Hypothesis Lk : lacking w w' cl h ok.
  Hypothesis Fd : forall l i, ok (VLoc l) -> hget h l = Some (OInst i) -> found w w' cl (i_cls i) /\ w_blank w' (i_cls i) = true.
  Hypothesis Da : dicts_ascend h ok.
  Hypothesis Ia : forall l i dl d, ok (VLoc l) -> hget h l = Some (OInst i) -> i_dict i = Some dl -> hget h dl = Some (ODict d) -> ascending_items d.
  Notation so := (sortable w' cl).
  Lemma fields_names d (ob : jobj) : ascending_items d -> map fst d = map VStr (map fst ob) -> ascending (map fst ob).
  Proof.
    intros (ks & E & A) E2. assert (X : map VStr ks = map VStr (map fst ob)) by congruence.
    assert (ks = map fst ob) as <-; auto. revert X. generalize (map fst ob). clear. induction ks as [|a ks IH]; intros [|b l]; cbn [map]; try discriminate; auto.
    intros E. pose proof (f_equal (fun z => match z with VStr s :: _ => s | _ => [] end) E) as E1. pose proof (f_equal (@tl val) E) as E2. cbn [tl] in E2. cbv beta iota in E1.
    f_equal; auto.
  Qed.
  Lemma one_list t js : is_reserved t = true -> In t [TUPLE; SET_] -> Forall so js -> so (JObj [(t, JList js)]).
  Proof.
    intros R I F. apply so_obj.
    - split.
      + intros j Hj. cbn [sget] in Hj. destruct (seqb_spec (u "py/object") t) as [<-|]; [|discriminate]. cbn [In] in I. repeat (destruct I as [I|I]; [discriminate I|]). destruct I.
      + intros t' I'. cbn [sget]. destruct (seqb_spec t' t) as [->|]; auto. exfalso. cbn [In] in I, I'.
        repeat (destruct I as [<-|I]; [repeat (destruct I' as [I'|I']; [discriminate I'|]); destruct I'|]). destruct I.
    - right. repeat constructor.
    - constructor; [apply so_list; auto|constructor].
    - intros a j [E|[]] _. right. exists js. congruence.
  Qed.
  Theorem written_sortable : (forall tab v j tab', written w k fs h tab v j tab' -> ok v -> so j) /\
    (forall tab vs js tab', writtens w k fs h tab vs js tab' -> Forall ok vs -> Forall so js) /\
    (forall tab d ob tab', fields_written w k fs h tab d ob tab' -> (forall q, In q d -> ok (snd q)) ->
       Forall (fun kv => so (snd kv)) ob /\ forall t j, In (t, j) ob -> smem t list_tags = false).
  Proof.
    apply (written_mutind w k fs h (fun tab v j tab' => ok v -> so j) (fun tab vs js tab' => Forall ok vs -> Forall so js)
      (fun tab d ob tab' => (forall q, In q d -> ok (snd q)) -> Forall (fun kv => so (snd kv)) ob /\ forall t j, In (t, j) ob -> smem t list_tags = false)).
    1-6: intros; apply so_same; reflexivity.
    - intros tab vs js tab' W IH V. pose proof (Lk _ V) as F. cbn in F. apply one_list; [reflexivity|left; reflexivity|auto].
    - intros tab l vs js tab' G W IH V. destruct (ok_loc w w' cl h ok Lk l _ V G) as (F & _). apply one_list; [reflexivity|right; left; reflexivity|auto].
    - intros. apply so_same. reflexivity.
    - intros tab l vs js tab' NI G W IH V. pose proof (ok_loc w w' cl h ok Lk l _ V G) as F. cbn in F. apply so_list. auto.
    - intros tab l d ob tab' NI G W IH V. pose proof (ok_loc w w' cl h ok Lk l _ V G) as F. cbn in F.
      destruct (fields_dom w k fs h _ _ _ _ W) as (Dm & Nd). destruct (IH (fun q I => proj1 (proj2 F q I))) as (Fs & Ft).
      apply so_obj; auto.
      + split.
        * intros z Hz. change (u "py/object") with OBJECT in Hz. rewrite (field_names w h ok d ob F Dm OBJECT) in Hz by (left; reflexivity). discriminate Hz.
        * intros t I. apply (field_names w h ok d ob F Dm). cbn [In] in I. repeat (destruct I as [<-|I]; [try (left; reflexivity); right; auto|]). destruct I.
      + right. eapply fields_names; eauto.
      + intros t j I T. rewrite (Ft t j I) in T. discriminate T.
    - intros tab l i dl d ob tab' NI G PC Gi Gd W IH V.
      destruct (inst_parts w w' cl h ok Lk l i V G dl d Gi Gd) as (_ & Sn & F & _). destruct (Fd l i V G) as (Fo & Wb).
      destruct (fields_dom w k fs h _ _ _ _ W) as (Dm & Nd). destruct (IH (fun q I => proj1 (proj2 F q I))) as (Fs & Ft).
      pose proof (fields_names d ob (Ia l i dl d V G Gi Gd) Dm) as A.
      apply so_obj.
      + split.
        * intros z Hz. cbn [sget] in Hz. exists (cname w (i_cls i)), (i_cls i). split; [destruct (seqb_spec (u "py/object") (u "py/object")) as [_|X]; [injection Hz as <-; reflexivity|destruct X; reflexivity]|].
          split; [apply (fd_load _ _ _ _ Fo)|]. split; auto. apply (fd_handler _ _ _ _ Fo).
        * intros t I. cbn [sget].
          assert (X : sget t ob = None).
          { apply (field_names w h ok d ob F Dm). cbn [In] in I. repeat (destruct I as [<-|I]; [try (left; reflexivity); right; auto|]). destruct I. }
          destruct (seqb_spec t (u "py/object")) as [->|]; auto. cbn [In] in I. repeat (destruct I as [I|I]; [discriminate I|]). destruct I.
      + left. split; [left; discriminate|]. unfold names. cbn [map fst filter]. change (is_reserved (u "py/object")) with true. cbn [negb].
        apply filter_ascending. exact A.
      + constructor; auto. apply so_same. reflexivity.
      + intros t j [E|I] T; [left; apply (f_equal snd) in E; cbn [snd] in E; subst j; reflexivity|]. rewrite (Ft t j I) in T. discriminate T.
    - intros tab l j NI Ho V. destruct (hole_inst w k fs h l j Ho) as (i & G & NP). destruct (ok_loc w w' cl h ok Lk l _ V G) as (P & _). contradiction.
    - constructor.
    - intros tab v j tab1 vs js tab2 W1 IH1 W2 IH2 V. inversion V; subst. constructor; auto.
    - intros tab _. split; [constructor|intros t j []].
    - intros tab a v j tab1 d ob tab2 Wn Na Nf Ni W1 IH1 W2 IH2 V. destruct (IH2 (fun q I => V q (or_intror I))) as (Fs & Ft). split.
      + constructor; auto. apply IH1. apply (V _ (or_introl eq_refl)).
      + intros t z [E|I]; [apply (f_equal fst) in E; cbn [fst] in E; subst t; apply wire_list; auto|eauto].
  Qed.
End written.

(** ** The attributes of the object given to encode *)
Lemma sinsert_perm kv l : Permutation (kv :: l) (sinsert kv l).
Proof.
  induction l as [|q l IH]; cbn [sinsert]; auto. destruct (fst kv); auto. destruct (fst q); auto. destruct (str_leb s s0); auto.
  eapply perm_trans; [apply perm_swap|]. constructor. exact IH.
Qed.
Lemma sort_items_perm l : Permutation l (sort_items l).
Proof. induction l as [|kv l IH]; cbn; auto. eapply perm_trans; [constructor; exact IH|apply sinsert_perm]. Qed.
Lemma sinsert_ascending a v l : ascending_items l -> ascending_items (sinsert (VStr a, v) l).
Proof.
  induction l as [|[q x] l IH]; intros (ks & E & A); cbn [sinsert fst].
  - exists [a]. split; [reflexivity|repeat constructor].
  - destruct ks as [|b ks]; cbn [map fst] in E; [discriminate|]. pose proof (f_equal (@tl val) E) as E2. cbn [tl] in E2. pose proof (f_equal (@hd val VNone) E) as E1. cbn [hd] in E1. subst q.
    inversion A as [|? ? A1 A2]; subst. destruct (str_leb a b) eqn:L.
    + exists (a :: b :: ks). split; [cbn [map fst]; congruence|]. constructor; auto. constructor; auto. eapply Forall_impl; [|exact A2]. intros c Hc. eapply leb_trans; eauto.
    + destruct (IH (ex_intro _ ks (conj E2 A1))) as (ks' & E' & A'). exists (b :: ks'). split; [cbn [map fst]; congruence|]. constructor; auto.
      apply Forall_forall. intros c Hc. assert (I : In (VStr c) (map fst (sinsert (VStr a, v) l))) by (rewrite E'; apply in_map; auto).
      apply (Permutation_in _ (Permutation_sym (Permutation_map fst (sinsert_perm (VStr a, v) l)))) in I. cbn [map fst] in I. rewrite E2 in I.
      destruct I as [I|I]; [apply (f_equal (fun z => match z with VStr s => s | _ => [] end)) in I; cbv beta iota in I; subst c; apply leb_total; auto|].
      apply in_map_iff in I as (c' & Ec & Ic). apply (f_equal (fun z => match z with VStr s => s | _ => [] end)) in Ec. cbv beta iota in Ec. subst c'. rewrite Forall_forall in A2. auto.
Qed.
Lemma sort_items_ascending l : all_str_keys l = true -> ascending_items (sort_items l).
Proof.
  induction l as [|[q x] l IH]; cbn [sort_items fold_right all_str_keys forallb fst]; intros H.
  - exists []. split; [reflexivity|constructor].
  - apply andb_true_iff in H as [H1 H2]. destruct q; try discriminate. apply sinsert_ascending. apply IH. exact H2.
Qed.

Section root.
  Variables (w w' : world) (o : popts) (cl : list (pystr * val)) (h : heap) (ok : val -> Prop).
  Hypothesis Lk : lacking w w' cl h ok.
  Lemma ok_in l : ok (VLoc l) -> l < length h.
  Proof. intros V. destruct (Lk _ V) as (ob & G & _). unfold hget in G. apply nth_error_Some. congruence. Qed.
  (** sort_attrs on a value of the graph *)
  Lemma root_go v : ok v ->
    (forall l i, v = VLoc l -> hget h l = Some (OInst i) -> (c_slots (w_cls w (i_cls i)) = None \/ po_warn o = false) /\ c_setattr (w_cls w (i_cls i)) (u "__dict__") = SAOk /\ c_dict (w_cls w (i_cls i)) = true) ->
    exists h1, root_sorted h h1 v /\ forall s, p_heap s = h -> sort_attrs w o v s = (Ret tt, set_heap h1 s).
  Proof.
    intros V R.
    assert (X : forall s, p_heap s = h -> set_heap h s = s) by (intros s E; destruct s; cbn in *; subst; reflexivity).
    assert (Y : forall s, p_heap s = h -> gets p_heap s = (Ret h, s)) by (intros s <-; reflexivity).
    destruct v as [| | | | | | | | | | |l| |] eqn:Ev;
      try (exists h; split; [reflexivity|intros st E; unfold sort_attrs; rewrite (bind_eq _ _ _ _ _ (Y st E)), X by auto; reflexivity]; fail).
    unfold root_sorted. destruct (hget h l) as [[xs|xs|d|b|i|p]|] eqn:G;
      try (exists h; split; [reflexivity|intros st E; unfold sort_attrs; rewrite (bind_eq _ _ _ _ _ (Y st E)), X by auto; cbv beta iota; rewrite G; reflexivity]; fail).
    destruct (R l i eq_refl G) as (Sl & Sa & Sd). pose proof (ok_loc w w' cl h ok Lk l _ V G) as (P & St0 & dl & d & Ed & Gd & F & _).
    assert (Z : ((match c_slots (w_cls w (i_cls i)) with Some _ => true | None => false end) && po_warn o)%bool = false).
    { destruct Sl as [-> | ->]; auto. apply andb_false_r. }
    assert (K : all_str_keys d = true).
    { unfold all_str_keys. apply forallb_forall. intros q Hq. destruct F as [_ F]. destruct (F q Hq) as (_ & (a & -> & _) & _). reflexivity. }
    assert (G1 : hget (h ++ [ODict (sort_items d)]) l = Some (OInst i)).
    { unfold hget in *. rewrite nth_error_app1; auto. apply nth_error_Some. congruence. }
    assert (G2 : hget (h ++ [ODict (sort_items d)]) (length h) = Some (ODict (sort_items d))).
    { unfold hget. rewrite nth_error_app2, Nat.sub_diag by lia. reflexivity. }
    set (h1 := hset (h ++ [ODict (sort_items d)]) l (OInst (with_dict i (length h)))). exists h1. split.
    - assert (Ll : l < length h) by (unfold hget in G; apply nth_error_Some; congruence).
      exists dl, d, (sort_items d). split; auto. split; auto. split; [unfold h1; apply hget_hset_same; rewrite app_length; lia|].
      split; [unfold h1; rewrite hget_hset_other by lia; exact G2|]. split; [apply sort_items_perm|]. split; [apply sort_items_ascending; exact K|].
      intros x Lx Nx. unfold h1. rewrite hget_hset_other by auto. unfold hget. apply nth_error_app1. exact Lx.
    - intros s E. unfold sort_attrs. rewrite (bind_eq _ _ _ _ _ (Y s E)). cbv beta iota. rewrite G, Z, Ed, Gd, K. cbv [halloc]. unfold inst_setattr, inst_store.
      rewrite G1, Sa. destruct (seqb_spec (u "__dict__") (u "__dict__")) as [_|Nn]; [|destruct Nn; reflexivity]. rewrite Sd, G2. reflexivity.
  Qed.
  (** the graph afterwards *)
  Lemma root_class h1 v : root_sorted h h1 v -> forall l i, hget h1 l = Some (OInst i) -> l < length h -> exists i0, hget h l = Some (OInst i0) /\ i_cls i0 = i_cls i.
  Proof.
    intros R l i G L. unfold root_sorted in R. destruct v as [| | | | | | | | | | |l0| |]; try (subst h1; eauto; fail).
    destruct (hget h l0) as [[xs|xs|d|b|i0|p]|] eqn:G0; try (subst h1; eauto; fail).
    destruct R as (dl & d & d' & _ & _ & R1 & _ & _ & _ & R2). destruct (Nat.eq_dec l l0) as [->|N].
    - rewrite R1 in G. injection G as <-. eauto.
    - rewrite R2 in G by auto. eauto.
  Qed.
  Lemma root_lacking h1 v : root_sorted h h1 v -> lacking w w' cl h1 ok.
  Proof.
    intros R. pose proof (root_class h1 v R) as Rc.
    assert (Lf : forall d, lack_fields w h ok d -> lack_fields w h1 ok d).
    { intros d (N & F). split; auto. intros q Hq. destruct (F q Hq) as (F1 & F2 & F3). split; auto. split; auto.
      intros l i E G. assert (Ll : l < length h) by (apply ok_in; rewrite <- E; exact F1).
      destruct (Rc l i G Ll) as (i0 & G0 & <-). eauto. }
    assert (Lo : forall ob, (match ob with OInst _ => False | _ => True end) -> lack_obj w w' cl h ok ob -> lack_obj w w' cl h1 ok ob).
    { intros ob Hob. destruct ob; cbn [lack_obj]; auto. destruct Hob. }
    unfold root_sorted in R. destruct v as [| | | | | | | | | | |l0| |]; try (subst h1; exact Lk).
    destruct (hget h l0) as [[xs|xs|d0|b|i0|p]|] eqn:G0; try (subst h1; exact Lk).
    destruct R as (dl & d & d' & Ed & Gd & R1 & R2 & Pm & As & R3).
    intros v V. pose proof (Lk v V) as L. destruct v as [| | | | | | | | | | |l| |]; auto.
    destruct L as (ob & G & L). destruct (Nat.eq_dec l l0) as [->|N].
    - assert (ob = OInst i0) as -> by congruence. exists (OInst (with_dict i0 (length h))). split; auto. cbn [lack_obj] in *.
      destruct L as (P & Sn & dl1 & d1 & Ed1 & Gd1 & F & C). assert (d1 = d) as -> by congruence.
      change (i_cls (with_dict i0 (length h))) with (i_cls i0). split; auto. split; auto. exists (length h), d'. split; [reflexivity|]. split; auto. split.
      + apply Lf. destruct F as (F1 & F2). split; [apply (Permutation_NoDup (Permutation_map fst Pm)); auto|].
        intros q Hq. apply F2. apply (Permutation_in q (Permutation_sym Pm)). exact Hq.
      + destruct C as [(C1 & C2)|(C1 & C2)]; [left|right]; (split; auto; intros a x Hx; eapply C2; apply (Permutation_in _ (Permutation_sym Pm)); exact Hx).
    - exists ob. split; [rewrite R3; auto; apply ok_in; exact V|]. destruct ob as [| | | |i|]; try (apply Lo; auto; exact I).
      cbn [lack_obj] in *. destruct L as (P & Sn & dl1 & d1 & Ed1 & Gd1 & F & C). split; auto. split; auto. exists dl1, d1. split; auto. split; [|auto].
      rewrite R3; auto; [unfold hget in Gd1; apply nth_error_Some; congruence|]. intros ->. congruence.
  Qed.
  Lemma root_ascends h1 v : root_sorted h h1 v -> dicts_ascend h ok -> others_ascend h ok v ->
    dicts_ascend h1 ok /\ (forall l i dl d, ok (VLoc l) -> hget h1 l = Some (OInst i) -> i_dict i = Some dl -> hget h1 dl = Some (ODict d) -> ascending_items d).
  Proof.
    intros R Da Oa. unfold root_sorted in R.
    assert (Same : h1 = h -> (forall l i, v = VLoc l -> hget h l <> Some (OInst i)) -> dicts_ascend h1 ok /\ (forall l i dl d, ok (VLoc l) -> hget h1 l = Some (OInst i) -> i_dict i = Some dl -> hget h1 dl = Some (ODict d) -> ascending_items d)).
    { intros -> Nv. split; auto. intros l i dl d V G Ei Gd. eapply Oa; eauto. intros Ev. eapply Nv; eauto. }
    destruct v as [| | | | | | | | | | |l0| |]; try (apply Same; [exact R|discriminate]).
    destruct (hget h l0) as [[xs|xs|d0|b|i0|p]|] eqn:G0; try (apply Same; [exact R|intros l i [= <-]; congruence]).
    destruct R as (dl0 & d & d' & Ed & Gd & R1 & R2 & Pm & As & R3). split.
    - intros l z V G. destruct (Nat.eq_dec l l0) as [->|N]; [congruence|]. rewrite R3 in G by (auto; apply ok_in; exact V). eauto.
    - intros l i dl z V G Ei Gz. destruct (Nat.eq_dec l l0) as [->|N].
      + rewrite R1 in G. injection G as <-. cbn [i_dict with_dict] in Ei. injection Ei as <-. congruence.
      + rewrite R3 in G by (auto; apply ok_in; exact V). pose proof (ok_loc w w' cl h ok Lk l _ V G) as (_ & _ & dl1 & d1 & Ed1 & Gd1 & _).
        assert (dl1 = dl) as -> by congruence. apply (Oa l i dl z V); auto; [congruence|]. rewrite <- Gz. symmetry. apply R3.
        * unfold hget in Gd1. apply nth_error_Some. congruence.
        * intros ->. congruence.
  Qed.
End root.
