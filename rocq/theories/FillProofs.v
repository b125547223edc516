(** Putting the replacements into the graph does not change the document. *)
From Verif Require Import PyStr Tags Json JsonText Base Heap Registry SpecPlain SpecRefs SpecFail SpecHoles.
From Coq Require Import List Lia. Import ListNotations.
Open Scope nat_scope.

Section fill.
  Variables (w : world) (k : hooks) (fs : option (exn -> res json)) (h : heap) (bad : loc -> option val).
  Hypothesis Rp : replacements w k fs h bad.
  Notation h' := (fill_heap bad h).
  Definition good (l : loc) : bool := match bad l with Some _ => false | None => true end.
  Definition ok (tab : list loc) (j : json) : Prop :=
    forall z i l, occurs false z j -> nth_error tab i = Some l -> bad l <> None -> (z < Z.of_nat i)%Z.

  Lemma extends : (forall tab v j tab', written w k fs h tab v j tab' -> exists e, tab' = tab ++ e) /\
    (forall tab vs js tab', writtens w k fs h tab vs js tab' -> exists e, tab' = tab ++ e) /\
    (forall tab d ob tab', fields_written w k fs h tab d ob tab' -> exists e, tab' = tab ++ e).
  Proof.
    assert (T : forall tab (x : list loc) tab1 tab2, (exists e, tab1 = (tab ++ x) ++ e) -> tab2 = tab1 -> exists e, tab2 = tab ++ e).
    { intros tab x tab1 tab2 (e & ->) ->. exists (x ++ e). rewrite app_assoc. reflexivity. }
    apply written_mutind; intros; try (exists []; rewrite app_nil_r; reflexivity); eauto.
    - destruct H0 as (e1 & ->). destruct H2 as (e2 & ->). exists (e1 ++ e2). rewrite app_assoc. reflexivity.
    - destruct H4 as (e1 & ->). destruct H6 as (e2 & ->). exists (e1 ++ e2). rewrite app_assoc. reflexivity.
  Qed.
  Lemma hget_fill l : hget h' l = option_map (fill_obj bad) (hget h l).
  Proof. unfold hget, fill_heap. apply nth_error_map. Qed.
  Lemma ok_prefix tab e j : ok (tab ++ e) j -> ok tab j.
  Proof. intros H z i l O N. apply (H z i l O). rewrite nth_error_app1; auto. apply nth_error_Some. congruence. Qed.
  Lemma filter_nth tab : forall i l, nth_error tab i = Some l -> (forall m x, nth_error tab m = Some x -> bad x <> None -> i < m) ->
    nth_error (filter good tab) i = Some l.
  Proof.
    induction tab as [|x tab IH]; intros i l N B; [destruct i; discriminate|]. cbn [filter].
    assert (G : good x = true). { unfold good. destruct (bad x) eqn:X; auto. specialize (B 0 x eq_refl). rewrite X in B. specialize (B ltac:(discriminate)). lia. }
    rewrite G. destruct i as [|i]; cbn in *; auto. apply IH; auto. intros m y N2 B2. specialize (B (S m) y N2 B2). lia.
  Qed.
  Lemma hole_inst l j : hole w k fs h l j -> exists i, hget h l = Some (OInst i) /\ ~ plain_class w (i_cls i).
  Proof.
    intros [i e f j0 G R _ _ _|i hd G L _|i e G L _ _ _ _ A _ _|c args [(i & G & L & A) _ _]]; exists i; split; auto; intros [].
    - destruct R; congruence.
    - congruence.
    - congruence.
    - congruence.
  Qed.
  Lemma good_loc l ob : hget h l = Some ob -> (forall i, ob <> OInst i) -> bad l = None.
  Proof.
    intros G N. destruct (bad l) as [a|] eqn:B; auto. destruct (proj2 Rp l a B) as (j & Ho). destruct (hole_inst l j Ho) as (i & G1 & _).
    rewrite G in G1. injection G1 as ->. destruct (N i). reflexivity.
  Qed.
  Lemma good_inst l i : hget h l = Some (OInst i) -> plain_class w (i_cls i) -> bad l = None.
  Proof.
    intros G N. destruct (bad l) as [a|] eqn:B; auto. destruct (proj2 Rp l a B) as (j & Ho). destruct (hole_inst l j Ho) as (i1 & G1 & P).
    rewrite G in G1. injection G1 as <-. contradiction.
  Qed.
  Lemma filter_snoc tab l : bad l = None -> filter good (tab ++ [l]) = filter good tab ++ [l].
  Proof. intros B. rewrite filter_app. cbn [filter]. unfold good at 2. rewrite B. reflexivity. Qed.
  Lemma not_in_filter tab (l : loc) : ~ In l tab -> ~ In l (filter good tab).
  Proof. intros N I. apply filter_In in I. tauto. Qed.
  Lemma ok_tuple tab tg js : ok tab (JObj [(tg, JList js)]) -> forall j, In j js -> ok tab j.
  Proof. intros H j I z i l O. apply H. eapply oc_value; [left; reflexivity|]. eapply oc_list; eauto. Qed.
  Lemma ok_list tab js : ok tab (JList js) -> forall j, In j js -> ok tab j.
  Proof. intros H j I z i l O. apply H. eapply oc_list; eauto. Qed.
  Lemma ok_obj tab ob : ok tab (JObj ob) -> forall a j, In (a, j) ob -> ok tab j.
  Proof. intros H a j I z i l O. apply H. eapply oc_value; eauto. Qed.

  Lemma fill_cases v : (exists l b, v = VLoc l /\ bad l = Some b) \/ (exists l, v = VLoc l /\ bad l = None) \/ (forall l, v <> VLoc l).
  Proof. destruct v; try (right; right; discriminate). destruct (bad l) eqn:B; eauto. Qed.
  Lemma scalar_bad l a : bad l = Some a -> match a with VFun _ | VLoc _ => False | _ => True end.
  Proof.
    intros B. destruct (proj2 Rp l _ B) as (j0 & Ho). destruct (proj1 Rp l j0 Ho) as (a0 & B0 & Sj). rewrite B in B0. injection B0 as <-. destruct Sj; exact Logic.I.
  Qed.
  Lemma fill_written :
    (forall tab v j tab', written w k fs h tab v j tab' -> ok tab' j ->
      written w k fs h' (filter good tab) (fill bad v) j (filter good tab')) /\
    (forall tab vs js tab', writtens w k fs h tab vs js tab' -> (forall j, In j js -> ok tab' j) ->
      writtens w k fs h' (filter good tab) (map (fill bad) vs) js (filter good tab')) /\
    (forall tab d ob tab', fields_written w k fs h tab d ob tab' -> (forall a j, In (a, j) ob -> ok tab' j) ->
      fields_written w k fs h' (filter good tab) (map (fun kv => (fst kv, fill bad (snd kv))) d) ob (filter good tab')).
  Proof.
    destruct extends as (E1 & E2 & E3).
    apply (written_mutind w k fs h
      (fun tab v j tab' => ok tab' j -> written w k fs h' (filter good tab) (fill bad v) j (filter good tab'))
      (fun tab vs js tab' => (forall j, In j js -> ok tab' j) -> writtens w k fs h' (filter good tab) (map (fill bad) vs) js (filter good tab'))
      (fun tab d ob tab' => (forall a j, In (a, j) ob -> ok tab' j) ->
        fields_written w k fs h' (filter good tab) (map (fun kv => (fst kv, fill bad (snd kv))) d) ob (filter good tab'))).
    - intros; apply wr_none.
    - intros; apply wr_bool.
    - intros; apply wr_int.
    - intros; apply wr_float.
    - intros; apply wr_str.
    - intros; apply wr_type.
    - intros tab vs js tab' W IH H. cbn [fill]. apply wr_tuple. apply IH. eapply ok_tuple; eauto.
    - intros tab l vs js tab' G W IH H. cbn [fill]. rewrite (good_loc l _ G) by discriminate. eapply wr_set.
      + rewrite hget_fill, G. reflexivity.
      + apply IH. eapply ok_tuple; eauto.
    - intros tab l i ob G N1 N2 N3 I H. assert (B : bad l = None).
      { destruct (bad l) eqn:B; auto. assert (Z.of_nat i < Z.of_nat i)%Z; [|lia]. apply (H _ i l); auto; [apply oc_ref|congruence]. }
      cbn [fill]. rewrite B. eapply wr_ref with (ob := fill_obj bad ob).
      + rewrite hget_fill, G. reflexivity.
      + intros x E. destruct ob as [y|y|y|y|y|y]; cbn in E; try discriminate. destruct (N1 y); reflexivity.
      + intros x E. destruct ob as [y|y|y|y|y|y]; cbn in E; try discriminate. destruct (N2 y); reflexivity.
      + intros x E. destruct ob as [y|y|y|y|y|y]; cbn in E; try discriminate. destruct (N3 y); reflexivity.
      + apply filter_nth; auto. intros m x N X. assert (Z.of_nat i < Z.of_nat m)%Z; [|lia]. eapply H; eauto. apply oc_ref.
    - intros tab l vs js tab' NI G W IH H. pose proof (good_loc l _ G ltac:(discriminate)) as B. cbn [fill]. rewrite B. eapply wr_list.
      + apply not_in_filter; auto.
      + rewrite hget_fill, G. reflexivity.
      + rewrite <- filter_snoc by auto. apply IH. apply ok_list; auto.
    - intros tab l d ob tab' NI G W IH H. pose proof (good_loc l _ G ltac:(discriminate)) as B. cbn [fill]. rewrite B. eapply wr_dict.
      + apply not_in_filter; auto.
      + rewrite hget_fill, G. reflexivity.
      + rewrite <- filter_snoc by auto. apply IH. apply ok_obj; auto.
    - intros tab l i dl d ob tab' NI G P Gi Gd W IH H. pose proof (good_inst l _ G P) as B. cbn [fill]. rewrite B. eapply wr_inst.
      + apply not_in_filter; auto.
      + rewrite hget_fill, G. reflexivity.
      + exact P.
      + exact Gi.
      + rewrite hget_fill, Gd. reflexivity.
      + rewrite <- filter_snoc by auto. apply IH. intros a j I. eapply ok_obj; [exact H|right; exact I].
    - intros tab l j NI Ho H. destruct (proj1 Rp l j Ho) as (a & B & Sj). cbn [fill]. rewrite B.
      rewrite filter_app. cbn [filter]. unfold good at 3. rewrite B, app_nil_r. destruct Sj; [apply wr_none|apply wr_bool|apply wr_int|apply wr_float|apply wr_str].
    - intros; apply ws_nil.
    - intros tab v j tab1 vs js tab2 W1 IH1 W2 IH2 H. cbn [map]. destruct (E2 _ _ _ _ W2) as (e & X). eapply ws_cons.
      + apply IH1. eapply ok_prefix. rewrite <- X. apply H. left; reflexivity.
      + apply IH2. intros; apply H. right; auto.
    - intros; apply fw_nil.
    - intros tab a v j tab1 d ob tab2 Wn Na Nf Ni W1 IH1 W2 IH2 H. cbn [map fst snd]. destruct (E3 _ _ _ _ W2) as (e & X). eapply fw_cons; auto.
      + intros f E. destruct (fill_cases v) as [(l & b & -> & B)|[(l & -> & B)|N]].
        * cbn [fill] in E. rewrite B in E. subst b. exact (scalar_bad l _ B).
        * cbn [fill] in E. rewrite B in E. discriminate.
        * destruct v; try (exact (N _ eq_refl)); try (exact (Nf _ eq_refl)); discriminate.
      + intros l i E G. destruct (fill_cases v) as [(l0 & b & -> & B)|[(l0 & -> & B)|N]].
        * cbn [fill] in E. rewrite B in E. subst b. destruct (scalar_bad l0 _ B).
        * cbn [fill] in E. rewrite B in E. injection E as ->. rewrite hget_fill in G. destruct (hget h l) as [[]|] eqn:G0; try discriminate.
          cbn in G. injection G as ->. eapply Ni; eauto.
        * destruct v; try (destruct (N _ eq_refl)); discriminate.
      + apply IH1. eapply ok_prefix. rewrite <- X. eapply H. left; reflexivity.
      + apply IH2. intros; eapply H. right; eauto.
  Qed.
End fill.
