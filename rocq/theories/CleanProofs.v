(** Every graph of the kind described has a document. *)
From Verif Require Import PyStr Tags Json JsonText Base Heap Registry SpecPlain SpecRefs SpecFail SpecHoles FillProofs.
From Coq Require Import List Lia Arith. Import ListNotations.
Open Scope nat_scope.

Lemma filter_le {A} (f g : A -> bool) xs : (forall x, f x = true -> g x = true) -> length (filter f xs) <= length (filter g xs).
Proof.
  intros H. induction xs as [|x xs IH]; cbn [filter length]; auto. destruct (f x) eqn:F.
  - rewrite (H x F). cbn [length]. lia.
  - destruct (g x); cbn [length]; lia.
Qed.
Lemma filter_lt {A} (f g : A -> bool) xs y : (forall x, f x = true -> g x = true) -> In y xs -> g y = true -> f y = false ->
  length (filter f xs) < length (filter g xs).
Proof.
  intros H I G F. induction xs as [|x xs IH]; [destruct I|]. cbn [filter]. destruct I as [->|I].
  - rewrite F, G. cbn [length]. pose proof (filter_le f g xs H). lia.
  - specialize (IH I). destruct (f x) eqn:X; [rewrite (H x X); cbn [length]; lia|]. destruct (g x); cbn [length]; lia.
Qed.

Section clean.
  Variables (w : world) (k : hooks) (fs : option (exn -> res json)) (h : heap) (ok : val -> Prop).
  Hypothesis Cl : clean w k fs h ok.
  Definition out (tab : list loc) (l : loc) : bool := if in_dec Nat.eq_dec l tab then false else true.
  Definition un (tab : list loc) : nat := length (filter (out tab) (seq 0 (length h))).
  Lemma un_app tab e : un (tab ++ e) <= un tab.
  Proof.
    apply filter_le. intros x. unfold out. destruct (in_dec Nat.eq_dec x (tab ++ e)) as [I|I]; [discriminate|].
    destruct (in_dec Nat.eq_dec x tab) as [I2|I2]; auto. destruct I. apply in_or_app. auto.
  Qed.
  Lemma un_snoc tab l ob : ~ In l tab -> hget h l = Some ob -> un (tab ++ [l]) < un tab.
  Proof.
    intros N G. apply filter_lt with (y := l).
    - intros x. unfold out. destruct (in_dec Nat.eq_dec x (tab ++ [l])) as [I|I]; [discriminate|].
      destruct (in_dec Nat.eq_dec x tab) as [I2|I2]; auto. destruct I. apply in_or_app. auto.
    - apply in_seq. split; [lia|]. apply nth_error_Some. unfold hget in G. rewrite G. discriminate.
    - unfold out. destruct (in_dec Nat.eq_dec l tab); auto; contradiction.
    - unfold out. destruct (in_dec Nat.eq_dec l (tab ++ [l])) as [I|I]; auto. destruct I. apply in_or_app. right. left. reflexivity.
  Qed.
  Definition has (m : nat) (v : val) : Prop := forall tab, un tab <= m -> exists j tab', written w k fs h tab v j tab'.
  Lemma has_list m vs : Forall (has m) vs -> forall tab, un tab <= m -> exists js tab', writtens w k fs h tab vs js tab'.
  Proof.
    induction 1 as [|v vs Hv _ IH]; intros tab L; [do 2 eexists; apply ws_nil|].
    destruct (Hv tab L) as (j & tab1 & W1). destruct (proj1 (extends w k fs h) _ _ _ _ W1) as (e & ->).
    pose proof (un_app tab e). destruct (IH (tab ++ e)) as (js & tab2 & W2); [lia|]. do 2 eexists. eapply ws_cons; eauto.
  Qed.
  Lemma fields_keys tab d ob tab' : fields_written w k fs h tab d ob tab' -> map fst d = map (fun kj => VStr (fst kj)) ob.
  Proof. induction 1; cbn; congruence. Qed.
  Lemma has_fields m d : clean_fields w h ok d -> (forall v, ok v -> has m v) -> forall tab, un tab <= m -> exists ob tab', fields_written w k fs h tab d ob tab'.
  Proof.
    intros (ND & F) Hv. induction d as [|[x v] d IH]; intros tab L; [do 2 eexists; apply fw_nil|].
    destruct (F (x, v) (or_introl eq_refl)) as (Ov & (a & E & Wn) & Nf & Ni). cbn [fst snd] in *. subst x. cbn [map fst] in ND. inversion ND; subst.
    destruct (Hv v Ov tab L) as (j & tab1 & W1). destruct (proj1 (extends w k fs h) _ _ _ _ W1) as (e & ->).
    pose proof (un_app tab e). destruct (IH H2 ltac:(intros kv I; apply F; right; exact I) (tab ++ e)) as (ob & tab2 & W2); [lia|].
    do 2 eexists. eapply fw_cons; eauto. intros I. apply H1. rewrite (fields_keys _ _ _ _ W2). apply in_map_iff in I. destruct I as (kj & <- & I).
    apply (in_map (fun q => VStr (fst q)) ob kj I).
  Qed.
  Lemma has_loc m l : (forall m', m' < m -> forall v, ok v -> has m' v) -> ok (VLoc l) -> (forall vs, hget h l <> Some (OSet vs)) -> has m (VLoc l).
  Proof.
    intros IH O NS tab L. destruct (Cl _ O) as [(j & Ho)|(ob & G & C)].
    - destruct (hole_inst w k fs h l j Ho) as (i & G & _). destruct (in_dec Nat.eq_dec l tab) as [I|I].
      + destruct (In_nth_error _ _ I) as (m0 & N). do 2 eexists. eapply wr_ref; eauto; discriminate.
      + do 2 eexists. apply wr_hole; eauto.
    - destruct (in_dec Nat.eq_dec l tab) as [I|I].
      + destruct (In_nth_error _ _ I) as (m0 & N). destruct ob; cbn in C; try contradiction; try (do 2 eexists; eapply wr_ref; eauto; discriminate).
        destruct (NS _ G).
      + pose proof (un_snoc tab l _ I G) as U. destruct ob as [xs|xs|d|bs|i|xs]; cbn in C; try contradiction.
        * destruct (has_list (un (tab ++ [l])) xs) with (tab := tab ++ [l]) as (js & tab' & W); auto.
          { eapply Forall_impl; [|exact C]. intros v Ov. apply IH; auto. lia. }
          do 2 eexists. eapply wr_list; eauto.
        * destruct (NS _ G).
        * destruct (has_fields (un (tab ++ [l])) d C) with (tab := tab ++ [l]) as (ob & tab' & W); auto.
          { intros v Ov. apply IH; auto. lia. }
          do 2 eexists. eapply wr_dict; eauto.
        * destruct C as (P & dl & d & Gi & Gd & C). destruct (has_fields (un (tab ++ [l])) d C) with (tab := tab ++ [l]) as (ob & tab' & W); auto.
          { intros v Ov. apply IH; auto. lia. }
          do 2 eexists. eapply wr_inst; eauto.
  Qed.
  Lemma has_tuple m vs : Forall (has m) vs -> has m (VTuple vs).
  Proof. intros F tab L. destruct (has_list m vs F tab L) as (js & tab' & W). do 2 eexists. apply wr_tuple. eauto. Qed.
  Lemma flat_all vs : flat h (VTuple vs) -> Forall (flat h) vs.
  Proof. cbn [flat]. induction vs as [|v vs IH]; intros H; constructor; destruct H; auto. Qed.
  Lemma Forall_and2 {A} (P Q R : A -> Prop) xs : Forall (fun v => P v -> Q v -> R v) xs -> Forall P xs -> Forall Q xs -> Forall R xs.
  Proof. induction 1; intros HP HQ; constructor; inversion HP; inversion HQ; subst; auto. Qed.
  Lemma has_flat m v : (forall m', m' < m -> forall v, ok v -> has m' v) -> ok v -> flat h v -> has m v.
  Proof.
    intros IH. induction v as [| | | | | |vs F| | | | |l| | ] using val_ind'; intros O Fl; try (intros tab L; do 2 eexists; constructor; fail); try (destruct (Cl _ O); fail).
    - apply has_tuple. eapply Forall_and2; [exact F|exact (Cl _ O)|apply flat_all; auto].
    - apply has_loc; auto.
  Qed.
  Lemma has_all m : forall v, ok v -> has m v.
  Proof.
    induction m as [m IH] using lt_wf_ind. intros v. induction v as [| | | | | |vs F| | | | |l| | ] using val_ind'; intros O;
      try (intros tab L; do 2 eexists; constructor; fail); try (destruct (Cl _ O); fail).
    - apply has_tuple. pose proof (Cl _ O : Forall ok vs) as C. clear O. induction F as [|v vs Hv _ IHv]; constructor; inversion C; subst; auto.
    - assert (D : (exists vs, hget h l = Some (OSet vs)) \/ forall vs, hget h l <> Some (OSet vs)).
      { destruct (hget h l) as [[]|]; try (right; discriminate). left. eauto. }
      destruct D as [(vs & G)|N]; [|apply has_loc; auto].
      destruct (Cl _ O) as [(j & Ho)|(ob & G1 & C)]; [destruct (hole_inst w k fs h l j Ho) as (i & G1 & _); congruence|].
      rewrite G in G1. injection G1 as <-. destruct C as (C1 & C2). intros tab L.
      destruct (has_list m vs) with (tab := tab) as (js & tab' & W); auto.
      { apply (Forall_and2 ok (flat h)); auto. apply Forall_forall. intros v _ Ov Fv. apply has_flat; auto. }
      do 2 eexists. eapply wr_set; eauto.
  Qed.
  Theorem clean_written v : ok v -> exists j tab, written w k fs h [] v j tab.
  Proof. intros O. exact (has_all (un []) v O [] (le_n _)). Qed.
End clean.
