(** The graph that a document without references describes, and decoding it. *)
From Verif Require Import PyStr Tags Json JsonText Base Heap Registry LoadClass SpecGraph SpecPlain SpecRefs SpecFail SpecHoles SpecLack SpecUnfold HeapProofs FillProofs LackProofs.
From Coq Require Import List Lia. Import ListNotations.
Open Scope nat_scope.

(** * Graphs without cycles have such a document *)
Section exists_.
  Variables (w : world) (k : hooks) (tg : bool) (h : heap) (ok : val -> Prop).
  Hypothesis Cl : clean w k None h ok.
  Hypothesis NH : forall l j, ok (VLoc l) -> ~ hole w k None h l j.
  Hypothesis Ac : acyclic h ok.
  Lemma spelleds_all vs : (forall v, In v vs -> exists j, spelled w tg h v j) -> exists js, spelleds w tg h vs js.
  Proof.
    induction vs as [|v vs IH]; intros H; [eexists; constructor|]. destruct (H v (or_introl eq_refl)) as (j & Sj).
    destruct IH as (js & Sjs); [intros; apply H; right; auto|]. eexists. constructor; eauto.
  Qed.
  Lemma spelled_keys d ob : spelled_fields w tg h d ob -> map fst d = map (fun kj => VStr (fst kj)) ob.
  Proof. induction 1; cbn; congruence. Qed.
  Lemma spelled_fields_all d : clean_fields w h ok d -> (forall q v, In (q, v) d -> exists j, spelled w tg h v j) -> exists ob, spelled_fields w tg h d ob.
  Proof.
    intros (ND & F) H. induction d as [|[x v] d IH]; [eexists; constructor|].
    destruct (F (x, v) (or_introl eq_refl)) as (Ov & (a & E & Wn) & Nf & Ni). cbn [fst snd] in *. subst x. cbn [map fst] in ND. inversion ND as [|? ? N1 N2]; subst.
    destruct (H (VStr a) v (or_introl eq_refl)) as (j & Sj). destruct IH as (ob & So); auto.
    { intros kv I. apply F. right. exact I. }
    { intros q v0 I. eapply H. right. exact I. }
    exists ((a, j) :: ob). constructor; auto. intros I. apply N1. rewrite (spelled_keys _ _ So). apply in_map_iff in I. destruct I as (kj & <- & I).
    apply (in_map (fun q => VStr (fst q)) ob kj I).
  Qed.
  Theorem acyclic_spelled v : ok v -> exists j, spelled w tg h v j.
  Proof.
    destruct Ac as (rank & Rk). remember (rank v) as n eqn:En. revert v En. induction n as [n IH] using lt_wf_ind. intros v En O.
    assert (Sub : forall y, ok y -> holds h v y -> exists j, spelled w tg h y j) by (intros y Oy Hy; eapply IH; eauto; subst n; auto).
    pose proof (Cl v O) as C. destruct v; try contradiction; try (eexists; constructor; fail).
    - destruct (spelleds_all l) as (js & Sj); [|eexists; constructor; eauto]. intros y I. rewrite Forall_forall in C. apply Sub; auto. constructor; auto.
    - destruct C as [(j & Ho)|(ob & G & C)]; [destruct (NH _ _ O Ho)|].
      destruct ob as [xs|xs|d|bs|i|xs]; cbn in C; try contradiction.
      + destruct (spelleds_all xs) as (js & Sj); [|eexists; eapply sp_list; eauto]. intros y I. rewrite Forall_forall in C. apply Sub; auto. eapply hd_list; eauto.
      + destruct (spelleds_all xs) as (js & Sj); [|eexists; eapply sp_set; eauto]. destruct C as (C & _). intros y I. rewrite Forall_forall in C. apply Sub; auto. eapply hd_set; eauto.
      + destruct (spelled_fields_all d C) as (ob & Sj); [|eexists; eapply sp_dict; eauto]. intros q y I. apply Sub; [exact (proj1 (proj2 C _ I))|eapply hd_dict; eauto].
      + destruct C as (P & dl & d & Gi & Gd & C). destruct (spelled_fields_all d C) as (ob & Sj); [|eexists; eapply sp_inst; eauto].
        intros q y I. apply Sub; [exact (proj1 (proj2 C _ I))|eapply hd_inst; eauto].
  Qed.
End exists_.

(** * The unfolded graph *)
Definition grows (hu0 hu : heap) : Prop := exists e, hu = hu0 ++ e.
Lemma grows_get hu0 hu l ob : grows hu0 hu -> hget hu0 l = Some ob -> hget hu l = Some ob.
Proof. intros (e & ->) G. unfold hget in *. rewrite nth_error_app1; auto. apply nth_error_Some. congruence. Qed.
Lemma grows_refl hu : grows hu hu. Proof. exists []. rewrite app_nil_r. reflexivity. Qed.
Lemma grows_trans a b c : grows a b -> grows b c -> grows a c.
Proof. intros (x & ->) (y & ->). exists (x ++ y). rewrite app_assoc. reflexivity. Qed.
Lemma grows_len a b : grows a b -> length a <= length b.
Proof. intros (x & ->). rewrite app_length. lia. Qed.
Lemma grows_snoc a b ob : grows a b -> grows a (b ++ [ob]).
Proof. intros (x & ->). exists (x ++ [ob]). rewrite app_assoc. reflexivity. Qed.
Lemma get_last (hu : heap) ob : hget (hu ++ [ob]) (length hu) = Some ob.
Proof. unfold hget. rewrite nth_error_app2, Nat.sub_diag by lia. reflexivity. Qed.

Section make.
  Variables (w : world) (k : hooks) (fs : option (exn -> res json)) (h : heap).
  Notation between a b ls := (forall l : loc, In l ls -> a <= l < b).
  Definition makes (v : val) (j : json) : Prop := forall hu0, exists hu1 vu e,
    grows hu0 hu1 /\ between (length hu0) (length hu1) e /\ NoDup e /\
    (forall hu, grows hu1 hu -> unfolded h hu v vu e /\ (forall l i, vu = VLoc l -> hget hu l = Some (OInst i) -> exists l0 i0, v = VLoc l0 /\ hget h l0 = Some (OInst i0) /\ i_cls i0 = i_cls i) /\
      (forall f, vu = VFun f -> v = VFun f) /\
      forall tab, (forall l, In l tab -> l < length hu0 \/ length hu1 <= l) -> written w k fs hu tab vu j (tab ++ e)).
  Definition makes_list (vs : list val) (js : list json) : Prop := forall hu0, exists hu1 vus e,
    grows hu0 hu1 /\ between (length hu0) (length hu1) e /\ NoDup e /\
    (forall hu, grows hu1 hu -> unfoldeds h hu vs vus e /\
      forall tab, (forall l, In l tab -> l < length hu0 \/ length hu1 <= l) -> writtens w k fs hu tab vus js (tab ++ e)).
  Definition makes_fields (d : list (val * val)) (ob : jobj) : Prop := forall hu0, exists hu1 du e,
    grows hu0 hu1 /\ between (length hu0) (length hu1) e /\ NoDup e /\
    (forall hu, grows hu1 hu -> unfolded_fields h hu d du e /\
      forall tab, (forall l, In l tab -> l < length hu0 \/ length hu1 <= l) -> fields_written w k fs hu tab du ob (tab ++ e)).
  Lemma leaf v j : (forall hu, unfolded h hu v v []) -> (forall l, v <> VLoc l) -> (forall hu tab, written w k fs hu tab v j tab) -> makes v j.
  Proof.
    intros U N W hu0. exists hu0, v, []. split; [apply grows_refl|]. split; [intros l []|]. split; [constructor|]. intros hu _. split; [apply U|].
    split; [intros l i E; destruct (N l E)|]. split; [auto|]. intros tab _. rewrite app_nil_r. apply W.
  Qed.
  Lemma nodup_app (a b : list loc) x y z : between x y a -> between y z b -> NoDup a -> NoDup b -> NoDup (a ++ b).
  Proof.
    intros A B NA NB. induction NA as [|l a NI NA IH]; cbn [app]; auto. constructor; [|apply IH; intros; apply A; right; auto].
    rewrite in_app_iff. intros [I|I]; [auto|]. specialize (A l (or_introl eq_refl)). specialize (B l I). lia.
  Qed.
  Lemma all_make : (forall v j, spelled w true h v j -> makes v j) /\ (forall vs js, spelleds w true h vs js -> makes_list vs js) /\
    (forall d ob, spelled_fields w true h d ob -> makes_fields d ob).
  Proof.
    apply spelled_mutind.
    - apply leaf; [constructor|discriminate|constructor].
    - intros. apply leaf; [constructor|discriminate|constructor].
    - intros. apply leaf; [constructor|discriminate|constructor].
    - intros. apply leaf; [constructor|discriminate|constructor].
    - intros. apply leaf; [constructor|discriminate|constructor].
    - intros. apply leaf; [constructor|discriminate|constructor].
    - intros vs js _ IH hu0. destruct (IH hu0) as (hu1 & vus & e & Gr & Be & ND & H). exists hu1, (VTuple vus), e. split; [auto|]. split; [auto|]. split; [auto|].
      intros hu G. destruct (H hu G) as (U & W). split; [constructor; auto|]. split; [discriminate|]. split; [discriminate|]. intros tab T. constructor. auto.
    - (* set *) intros l vs js G0 _ IH hu0. destruct (IH hu0) as (hu1 & vus & e & Gr & Be & ND & H). exists (hu1 ++ [OSet vus]), (VLoc (length hu1)), e.
      split; [apply grows_snoc; auto|]. split; [intros x I; rewrite app_length; apply Be in I; lia|]. split; [auto|].
      intros hu G. assert (G1 : grows hu1 hu) by (eapply grows_trans; [|exact G]; apply grows_snoc, grows_refl).
      assert (GL : hget hu (length hu1) = Some (OSet vus)) by (eapply grows_get; [exact G|apply get_last]).
      destruct (H hu G1) as (U & W). split; [eapply uf_set; eauto|]. split; [intros ? ? [= <-]; rewrite GL; discriminate|]. split; [discriminate|].
      intros tab T. eapply wr_set; eauto. apply W. intros x I. rewrite app_length in T. cbn in T. specialize (T x I). lia.
    - (* list *) intros l vs js G0 _ IH hu0. destruct (IH hu0) as (hu1 & vus & e & Gr & Be & ND & H). exists (hu1 ++ [OList vus]), (VLoc (length hu1)), (length hu1 :: e).
      pose proof (grows_len _ _ Gr) as GrL.
      split; [apply grows_snoc; auto|]. split; [intros x I; rewrite app_length; cbn [length]; destruct I as [<-|I]; [lia|apply Be in I; lia]|].
      split; [constructor; auto; intros I; apply Be in I; lia|].
      intros hu G. assert (G1 : grows hu1 hu) by (eapply grows_trans; [|exact G]; apply grows_snoc, grows_refl).
      assert (GL : hget hu (length hu1) = Some (OList vus)) by (eapply grows_get; [exact G|apply get_last]).
      destruct (H hu G1) as (U & W). split; [eapply uf_list; eauto|]. split; [intros ? ? [= <-]; rewrite GL; discriminate|]. split; [discriminate|].
      intros tab T. rewrite app_length in T. cbn [length] in T. eapply wr_list; eauto; [intros I; specialize (T _ I); lia|].
      replace (tab ++ length hu1 :: e) with ((tab ++ [length hu1]) ++ e) by (rewrite <- app_assoc; reflexivity). apply W.
      intros x I. apply in_app_or in I. destruct I as [I|[<-|[]]]; [specialize (T x I); lia|lia].
    - (* dict *) intros l d ob G0 _ IH hu0. destruct (IH hu0) as (hu1 & du & e & Gr & Be & ND & H). exists (hu1 ++ [ODict du]), (VLoc (length hu1)), (length hu1 :: e).
      pose proof (grows_len _ _ Gr) as GrL.
      split; [apply grows_snoc; auto|]. split; [intros x I; rewrite app_length; cbn [length]; destruct I as [<-|I]; [lia|apply Be in I; lia]|].
      split; [constructor; auto; intros I; apply Be in I; lia|].
      intros hu G. assert (G1 : grows hu1 hu) by (eapply grows_trans; [|exact G]; apply grows_snoc, grows_refl).
      assert (GL : hget hu (length hu1) = Some (ODict du)) by (eapply grows_get; [exact G|apply get_last]).
      destruct (H hu G1) as (U & W). split; [eapply uf_dict; eauto|]. split; [intros ? ? [= <-]; rewrite GL; discriminate|]. split; [discriminate|].
      intros tab T. rewrite app_length in T. cbn [length] in T. eapply wr_dict; eauto; [intros I; specialize (T _ I); lia|].
      replace (tab ++ length hu1 :: e) with ((tab ++ [length hu1]) ++ e) by (rewrite <- app_assoc; reflexivity). apply W.
      intros x I. apply in_app_or in I. destruct I as [I|[<-|[]]]; [specialize (T x I); lia|lia].
    - (* instance *) intros l i dl d ob G0 PC Gi Gd _ IH hu0. destruct (IH hu0) as (hu1 & du & e & Gr & Be & ND & H).
      set (i' := mkInst (i_cls i) (Some (length hu1)) [] [] [] None CSrc [] 0).
      exists ((hu1 ++ [ODict du]) ++ [OInst i']), (VLoc (length (hu1 ++ [ODict du]))), (length (hu1 ++ [ODict du]) :: e).
      assert (EL : length (hu1 ++ [ODict du]) = S (length hu1)) by (rewrite app_length; cbn; lia).
      pose proof (grows_len _ _ Gr) as GrL.
      split; [apply grows_snoc, grows_snoc; auto|]. split; [intros x I; rewrite app_length, EL; cbn [length]; destruct I as [<-|I]; [rewrite EL; lia|apply Be in I; lia]|].
      split; [constructor; auto; intros I; apply Be in I; lia|].
      intros hu G. assert (G1 : grows hu1 hu) by (eapply grows_trans; [|exact G]; apply grows_snoc, grows_snoc, grows_refl).
      assert (GL : hget hu (length (hu1 ++ [ODict du])) = Some (OInst i')) by (eapply grows_get; [exact G|apply get_last]).
      assert (GL2 : hget hu (length hu1) = Some (ODict du)) by (eapply grows_get; [exact G|]; eapply grows_get; [apply grows_snoc, grows_refl|apply get_last]).
      destruct (H hu G1) as (U & W). split; [eapply uf_inst; eauto; reflexivity|]. split; [intros ? ? [= <-]; rewrite GL; intros [= <-]; exists l, i; auto|]. split; [discriminate|].
      intros tab T. rewrite app_length, EL in T. cbn [length] in T. eapply (wr_inst w k fs hu tab _ i' (length hu1) du ob); eauto; [intros I; specialize (T _ I); lia|].
      replace (tab ++ length (hu1 ++ [ODict du]) :: e) with ((tab ++ [length (hu1 ++ [ODict du])]) ++ e) by (rewrite <- app_assoc; reflexivity). apply W.
      intros x I. apply in_app_or in I. destruct I as [I|[<-|[]]]; [specialize (T x I); lia|lia].
    - intros hu0. exists hu0, [], []. split; [apply grows_refl|]. split; [intros l []|]. split; [constructor|]. intros hu _. split; [constructor|].
      intros tab _. rewrite app_nil_r. constructor.
    - intros v j vs js _ IH1 _ IH2 hu0. destruct (IH1 hu0) as (hu1 & vu & e1 & Gr1 & Be1 & ND1 & H1). destruct (IH2 hu1) as (hu2 & vus & e2 & Gr2 & Be2 & ND2 & H2).
      pose proof (grows_len _ _ Gr1) as L1. pose proof (grows_len _ _ Gr2) as L2.
      exists hu2, (vu :: vus), (e1 ++ e2). split; [eapply grows_trans; eauto|]. split; [intros x I; apply in_app_or in I; destruct I as [I|I]; [apply Be1 in I|apply Be2 in I]; lia|].
      split; [eapply nodup_app; eauto|]. intros hu G. destruct (H1 hu (grows_trans _ _ _ Gr2 G)) as (U1 & _ & _ & W1). destruct (H2 hu G) as (U2 & W2).
      split; [constructor; auto|]. intros tab T. rewrite app_assoc. econstructor; [apply W1|apply W2].
      + intros x I. specialize (T x I). lia.
      + intros x I. apply in_app_or in I. destruct I as [I|I]; [specialize (T x I); lia|]. apply Be1 in I. lia.
    - intros hu0. exists hu0, [], []. split; [apply grows_refl|]. split; [intros l []|]. split; [constructor|]. intros hu _. split; [constructor|].
      intros tab _. rewrite app_nil_r. constructor.
    - intros a v j d ob Wn Na Nf Ni _ IH1 _ IH2 hu0. destruct (IH1 hu0) as (hu1 & vu & e1 & Gr1 & Be1 & ND1 & H1). destruct (IH2 hu1) as (hu2 & du & e2 & Gr2 & Be2 & ND2 & H2).
      pose proof (grows_len _ _ Gr1) as L1. pose proof (grows_len _ _ Gr2) as L2.
      exists hu2, ((VStr a, vu) :: du), (e1 ++ e2). split; [eapply grows_trans; eauto|]. split; [intros x I; apply in_app_or in I; destruct I as [I|I]; [apply Be1 in I|apply Be2 in I]; lia|].
      split; [eapply nodup_app; eauto|]. intros hu G. destruct (H1 hu (grows_trans _ _ _ Gr2 G)) as (U1 & X1 & X2 & W1). destruct (H2 hu G) as (U2 & W2).
      split; [constructor; auto|]. intros tab T. rewrite app_assoc. econstructor; [exact Wn|exact Na| | |apply W1|apply W2].
      + intros f E. apply X2 in E. eapply Nf; eauto.
      + intros l i E Gl. destruct (X1 l i E Gl) as (l0 & i0 & E0 & Gl0 & Ec). rewrite <- Ec. eapply Ni; eauto.
      + intros x I. specialize (T x I). lia.
      + intros x I. apply in_app_or in I. destruct I as [I|I]; [specialize (T x I); lia|]. apply Be1 in I. lia.
  Qed.
End make.

(** * The unfolded graph can be decoded if the graph can *)
Section lack.
  Variables (w w' : world) (cl : list (pystr * val)) (h hu : heap) (ok : val -> Prop).
  Hypothesis L : lacking w w' cl h ok.
  Hypothesis Fd : forall l i, ok (VLoc l) -> hget h l = Some (OInst i) -> found w w' cl (i_cls i).
  Definition ok_u (x : val) : Prop := exists v ls, ok v /\ unfolded h hu v x ls.
  Lemma unfolded_pure v : forall x ls, unfolded h hu v x ls -> pure v = true -> x = v.
  Proof.
    induction v as [| | | | | |vs IHv| | | | |l| |] using val_ind'; intros x ls U P; cbn in P; try discriminate; inversion U; subst; try reflexivity.
    f_equal. match goal with X : unfoldeds _ _ _ _ _ |- _ => rename X into Us end. clear U. revert P Us. revert vs' ls. induction IHv as [|v vs Hv _ IH]; intros vs' ls P Us; inversion Us; subst; auto.
    cbn in P. apply andb_true_iff in P as (P1 & P2). f_equal; eauto.
  Qed.
  Lemma unfoldeds_pure vs : forall xs ls, unfoldeds h hu vs xs ls -> forallb pure vs = true -> xs = vs.
  Proof.
    induction vs as [|v vs IH]; intros xs ls U P; inversion U; subst; auto. cbn in P. apply andb_true_iff in P as (P1 & P2).
    f_equal; eauto using unfolded_pure.
  Qed.
  Lemma ok_list vs xs ls : unfoldeds h hu vs xs ls -> Forall ok vs -> Forall ok_u xs.
  Proof. induction 1 as [|v x l1 vs xs l2 U _ IH]; intros F; constructor; inversion F; subst; auto. exists v, l1. auto. Qed.
  Lemma field_keys d d' ls : unfolded_fields h hu d d' ls -> map fst d' = map fst d.
  Proof. induction 1; cbn; congruence. Qed.
  Lemma field_in d d' ls : unfolded_fields h hu d d' ls -> forall q x, In (q, x) d' -> exists v ls', In (q, v) d /\ unfolded h hu v x ls'.
  Proof.
    induction 1 as [|a v v' l1 d d' l2 U _ IH]; intros q x I; [destruct I|]. destruct I as [[= <- <-]|I]; [exists v, l1; split; [left; auto|auto]|].
    destruct (IH q x I) as (v0 & l0 & I0 & U0). exists v0, l0. split; [right; auto|auto].
  Qed.
  Lemma ok_fields d d' ls : unfolded_fields h hu d d' ls -> lack_fields w h ok d -> lack_fields w hu ok_u d'.
  Proof.
    intros U (ND & F). split; [rewrite (field_keys _ _ _ U); auto|]. intros [q x] I. destruct (field_in _ _ _ U q x I) as (v & l0 & I0 & U0).
    destruct (F _ I0) as (Ov & Nm & Ni). cbn [fst snd] in *. split; [exists v, l0; auto|]. split; [auto|]. intros l i -> G.
    inversion U0 as [| | | | | | |l1 l2 vs vs' ls0 A1 A2 A3|l1 l2 vs vs' ls0 A1 A2 A3|l1 l2 e e' ls0 A1 A2 A3|l1 l2 i1 i2 p p' e e' ls0 A1 A2 A3]; subst; rewrite A2 in G; try discriminate G.
    injection G as <-. rewrite A3. eapply Ni; eauto.
  Qed.
  Lemma lacking_unfolded : lacking w w' cl hu ok_u.
  Proof.
    intros x (v & ls & O & U). pose proof (L v O) as H.
    destruct U as [| | | | | |vs vs' ls U|l1 l2 vs vs' ls A1 A2 U|l1 l2 vs vs' ls A1 A2 U|l1 l2 d d' ls A1 A2 U|l1 l2 i i' p p' d d' ls A1 A2 A3 A4 A5 A6 A7 U]; auto.
    - eapply ok_list; eauto.
    - destruct H as (ob & G & C). rewrite A1 in G. injection G as <-. destruct C as (C1 & C2 & C3). exists (OSet vs'). split; auto. split; [eapply ok_list; eauto|].
      rewrite (unfoldeds_pure _ _ _ U C2). auto.
    - destruct H as (ob & G & C). rewrite A1 in G. injection G as <-. exists (OList vs'). split; auto. eapply ok_list; eauto.
    - destruct H as (ob & G & C). rewrite A1 in G. injection G as <-. exists (ODict d'). split; auto. eapply ok_fields; eauto.
    - destruct H as (ob & G & C). rewrite A1 in G. injection G as <-. destruct C as (C1 & C2 & dl & d0 & C3 & C4 & C5 & C6). rewrite A4 in C3. injection C3 as <-.
      rewrite A5 in C4. injection C4 as <-. exists (OInst i'). split; auto. cbn. rewrite A3. split; auto. split; auto. exists p', d'. split; auto. split; auto. split; [eapply ok_fields; eauto|].
      left. pose proof (Fd _ _ O A1) as F. split; auto. destruct C6 as [(_ & C6)|((N & _) & _)]; [|destruct F as [F _ _ _ _ _]; congruence].
      intros a x I. destruct (field_in _ _ _ U _ _ I) as (v & l0 & I0 & _). eauto.
  Qed.
End lack.

(** * A copy of the unfolded graph has the same data *)
Section copy.
  Variables (w w' : world) (cl : list (pystr * val)) (h hu h' : heap) (b : nat) (R : loc -> loc -> Prop).
  Hypothesis Rs : forall l l', R l l' -> stands_for w w' cl hu h' b R l l'.
  Variable ok : val -> Prop.
  Hypothesis L : lacking w w' cl h ok.
  Hypothesis Fd : forall l i, ok (VLoc l) -> hget h l = Some (OInst i) -> found w w' cl (i_cls i).
  Lemma copy_unfolded : (forall v x ls, unfolded h hu v x ls -> ok v -> forall y, vmatch hu h' b R x y -> exists ls', unfolded h h' v y ls' /\ Forall2 R ls ls') /\
    (forall vs xs ls, unfoldeds h hu vs xs ls -> Forall ok vs -> forall ys, Forall2 (vmatch hu h' b R) xs ys -> exists ls', unfoldeds h h' vs ys ls' /\ Forall2 R ls ls') /\
    (forall d d1 ls, unfolded_fields h hu d d1 ls -> Forall (fun kv => ok (snd kv)) d -> forall d', Forall2 (pmatch hu h' b R) d1 d' -> exists ls', unfolded_fields h h' d d' ls' /\ Forall2 R ls ls').
  Proof.
    assert (LF : forall d, lack_fields w h ok d -> Forall (fun kv => ok (snd kv)) d).
    { intros d (_ & F). apply Forall_forall. intros kv I. apply (F kv I). }
    apply unfolded_mutind.
    - intros _ y M. inversion M; subst. exists []. split; constructor.
    - intros x _ y M. inversion M; subst. exists []. split; constructor.
    - intros x _ y M. inversion M; subst. exists []. split; constructor.
    - intros x _ y M. inversion M; subst. exists []. split; constructor.
    - intros x _ y M. inversion M; subst. exists []. split; constructor.
    - intros x _ y M. inversion M; subst. exists []. split; constructor.
    - intros vs vs' ls _ IH O y M. specialize (IH (L _ O)). inversion M as [v A|xs ys F| | |]; subst; [discriminate|]. destruct (IH _ F) as (ls' & U & F'). exists ls'. split; [constructor; auto|auto].
    - intros l l' vs vs' ls G G' _ IH O y M. destruct (L _ O) as (ob & G0 & C). rewrite G in G0. injection G0 as <-. cbn in C. specialize (IH ltac:(first [exact C|exact (proj1 C)])). inversion M as [v A| |l1 l2 xs ys X1 X2 X3 F|l1 l2 x X1|l1 l2 X]; subst; [discriminate| | |].
      + rewrite G' in X1. injection X1 as <-. destruct (IH _ F) as (ls' & U & F'). exists ls'. split; [eapply uf_set; eauto|auto].
      + rewrite G' in X1. discriminate.
      + apply Rs in X as (_ & X). rewrite G' in X. destruct (hget h' l2) as [[]|]; destruct X.
    - intros l l' vs vs' ls G G' _ IH O y M. destruct (L _ O) as (ob & G0 & C). rewrite G in G0. injection G0 as <-. cbn in C. specialize (IH ltac:(first [exact C|exact (proj1 C)])). inversion M as [v A| |l1 l2 xs ys X1 X2 X3 F|l1 l2 x X1|l1 l2 X]; subst; [discriminate|congruence|congruence|].
      pose proof (Rs _ _ X) as (_ & X1). rewrite G' in X1. destruct (hget h' l2) as [[e| | | | |]|] eqn:G2; try contradiction.
      destruct (IH _ X1) as (ls' & U & F'); exists (l2 :: ls'); split; [eapply uf_list; eauto|constructor; auto].
    - intros l l' d d' ls G G' _ IH O y M. destruct (L _ O) as (ob & G0 & C). rewrite G in G0. injection G0 as <-. cbn in C. specialize (IH (LF _ C)). inversion M as [v A| |l1 l2 xs ys X1 X2 X3 F|l1 l2 x X1|l1 l2 X]; subst; [discriminate|congruence|congruence|].
      pose proof (Rs _ _ X) as (_ & X1). rewrite G' in X1. destruct (hget h' l2) as [[| |e| | |]|] eqn:G2; try contradiction.
      destruct (IH _ X1) as (ls' & U & F'); exists (l2 :: ls'); split; [eapply uf_dict; eauto|constructor; auto].
    - intros l l' i i' dl dl' d d' ls G G' Ec Gi Gd Gi' Gd' _ IH O y M. destruct (L _ O) as (ob & G0 & C). rewrite G in G0. injection G0 as <-. destruct C as (_ & _ & dl0 & d0 & C1 & C2 & C & _). rewrite Gi in C1. injection C1 as <-. rewrite Gd in C2. injection C2 as <-. specialize (IH (LF _ C)). inversion M as [v A| |l1 l2 xs ys X1 X2 X3 F|l1 l2 x X1|l1 l2 X]; subst; [discriminate|congruence|congruence|].
      pose proof (Rs _ _ X) as (_ & X1). rewrite G' in X1. destruct (hget h' l2) as [[| |e| |i2|]|] eqn:G2; try contradiction.
      { destruct X1 as ((X1 & _) & _). rewrite Ec in X1. destruct (Fd _ _ O G) as [Y _ _ _ _ _]. congruence. }
      destruct X1 as (_ & Ec2 & p & dd & p2 & dd2 & Y1 & Y2 & Y3 & Y4 & Y5 & Y6). rewrite Gi' in Y1. injection Y1 as <-. rewrite Gd' in Y2. injection Y2 as <-.
      destruct (IH _ Y6) as (ls' & U & F'); exists (l2 :: ls'); split; [eapply uf_inst; eauto; congruence|constructor; auto].
    - intros _ ys F. inversion F; subst. exists []. split; constructor.
    - intros v v' l1 vs vs' l2 _ IH1 _ IH2 O ys F. inversion O as [|? ? O1 O2]; subst. specialize (IH1 O1). specialize (IH2 O2). inversion F as [|x y xs ys0 M F0]; subst. destruct (IH1 _ M) as (e1 & U1 & F1). destruct (IH2 _ F0) as (e2 & U2 & F2).
      exists (e1 ++ e2). split; [constructor; auto|apply Forall2_app; auto].
    - intros _ ys F. inversion F; subst. exists []. split; constructor.
    - intros a v v' l1 d d' l2 _ IH1 _ IH2 O ys F. inversion O as [|? ? O1 O2]; subst. specialize (IH1 O1). specialize (IH2 O2). inversion F as [|x [q y] xs ys0 (M1 & M) F0]; subst. cbn [fst snd] in *. inversion M1; subst.
      destruct (IH1 _ M) as (e1 & U1 & F1). destruct (IH2 _ F0) as (e2 & U2 & F2).
      exists (e1 ++ e2). split; [constructor; auto|apply Forall2_app; auto].
  Qed.
  Hypothesis Ri : forall a c l, R a l -> R c l -> a = c.
  Lemma copies_distinct ls ls' : Forall2 R ls ls' -> NoDup ls -> NoDup ls' /\ (forall l, In l ls' -> b <= l).
  Proof.
    induction 1 as [|l l' ls ls' Rl F IH]; intros ND; [split; [constructor|intros l []]|]. inversion ND as [|? ? N1 N2]; subst. destruct (IH N2) as (A & B). split.
    - constructor; auto. intros I. apply N1. clear - I F Ri Rl. induction F as [|x y xs ys Rx F IH]; [destruct I|]. destruct I as [->|I]; [left; eauto|right; auto].
    - intros x [<-|I]; auto. apply (Rs _ _ Rl).
  Qed.
End copy.
