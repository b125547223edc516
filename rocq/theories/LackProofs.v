(** Decoding documents of [written] where some classes are absent. *)
From Verif Require Import PyStr Tags Json JsonText JsonTextProofs Base Heap Registry LoadClass Pickler Unpickler SpecGraph SpecPlain SpecRefs SpecFail SpecHoles SpecLack.
From Verif Require Import PlainEncode RTBase RTStep RTPure RTCont RTKinds RTInst RTObj RTShapes RTProps PlainProofs CleanProofs FillProofs.
From Coq Require Import List Lia. Import ListNotations.
Open Scope nat_scope.

Definition Rl (tab dtab : list loc) (l l' : loc) : Prop := exists i, nth_error tab i = Some l /\ nth_error dtab i = Some l'.
Lemma Rl_app tab dtab e e' l l' : Rl tab dtab l l' -> Rl (tab ++ e) (dtab ++ e') l l'.
Proof.
  intros (i & A & B). exists i. rewrite !nth_error_app1; auto; apply nth_error_Some; congruence.
Qed.
Lemma Rl_fun tab dtab l a c : NoDup tab -> Rl tab dtab l a -> Rl tab dtab l c -> a = c.
Proof.
  intros ND (i & A & B) (i' & A' & B'). assert (i = i'); [|subst; congruence].
  eapply NoDup_nth_error; eauto; [|congruence]. apply nth_error_Some. congruence.
Qed.
Lemma Rl_inj tab dtab l a c : NoDup dtab -> Rl tab dtab a l -> Rl tab dtab c l -> a = c.
Proof.
  intros ND (i & A & B) (i' & A' & B'). assert (i = i'); [|subst; congruence].
  eapply NoDup_nth_error; eauto; [|congruence]. apply nth_error_Some. congruence.
Qed.

Section plain.
  Variables (w w' : world) (cl : list (pystr * val)) (h : heap) (ok : val -> Prop).
  Hypothesis Lk : lacking w w' cl h ok.
  Lemma ok_loc l ob : ok (VLoc l) -> hget h l = Some ob -> lack_obj w w' cl h ok ob.
  Proof. intros V G. destruct (Lk _ V) as (ob1 & G1 & L). congruence. Qed.
  Lemma inst_parts l i : ok (VLoc l) -> hget h l = Some (OInst i) -> forall dl d, i_dict i = Some dl -> hget h dl = Some (ODict d) ->
    plain_class w (i_cls i) /\ str_ok (cname w (i_cls i)) = true /\ lack_fields w h ok d /\
    (found w w' cl (i_cls i) /\ (forall a v, In (VStr a, v) d -> attr_ok false (w_cls w' (i_cls i)) a = true /\ slot_named (w_cls w' (i_cls i)) a = false)
     \/ absent w w' cl (i_cls i) /\ (forall a v, In (VStr a, v) d -> exists j, scalar_json v j)).
  Proof.
    intros V G dl d E Gd. pose proof (ok_loc l _ V G) as (P & St0 & dl1 & d1 & E1 & Gd1 & F & C). assert (d1 = d) by congruence. subst d1. auto.
  Qed.
End plain.

Section lack.
  Variables (w w' : world) (k : hooks) (fs : option (exn -> res json)) (cl : list (pystr * val)) (h : heap) (uo : uopts) (ok : val -> Prop).
  (* the members, which are in the heap before decoding, that is, below b0 *)
  Variables (mem : loc -> option loc) (b0 : nat).
  Hypothesis Mo : forall l m, mem l = Some m -> m < b0.
  Hypothesis Mi : forall l l2 m, mem l = Some m -> mem l2 = Some m -> l = l2.
  (* the objects whose class is not there *)
  Variable gone : loc -> Prop.
  Hypothesis Lk : with_calls w w' k cl h mem gone ok.
  Hypothesis Uk : uo_keys uo = false.
  Hypothesis Uv : uo_v1 uo = false.
  Hypothesis Um : uo_missing uo <> MError.
  Hypothesis Uc : forall f n, uo_missing uo = MCall f -> f n = None.
  Definition stands_at (h' : heap) (b : nat) (R : loc -> loc -> Prop) (l l' : loc) : Prop :=
    match mem l with
    | Some m => l' = m
    | None => gone l /\ b <= l' /\ hget h' l' = Some (OList []) \/ stands_for w w' cl h h' b R l l'
    end.

  Record St (t : ust) (dtab : list loc) : Prop := {
    st_objs : u_objs t = map VLoc dtab;
    st_idx : idx_ok t;
    st_cls : u_classes t = cl;
    st_nd : NoDup dtab;
    st_lt : forall x, In x dtab -> x < length (u_heap t);
    st_b0 : b0 <= length (u_heap t)
  }.
  Record step (P : loc -> Prop) (t t' : ust) (dtab e : list loc) : Prop := {
    sp_st : St t' (dtab ++ e);
    sp_len : length (u_heap t) <= length (u_heap t');
    sp_old : forall x, x < length (u_heap t) -> ~ P x -> hget (u_heap t') x = hget (u_heap t) x;
    sp_swaps : u_swaps t' = u_swaps t
  }.
  Definition nil_ : loc -> Prop := fun _ => False.
  Definition pairs_ok (h' : heap) (b n0 : nat) (tab dtab : list loc) : Prop :=
    forall i l l', n0 <= i -> nth_error tab i = Some l -> nth_error dtab i = Some l' -> stands_at h' b (Rl tab dtab) l l'.

  Lemma step_refl P t dtab : St t dtab -> step P t t dtab [].
  Proof. intros H. constructor; auto. rewrite app_nil_r; auto. Qed.
  Lemma step_trans (P : loc -> Prop) t t1 t2 dtab e1 e2 : step P t t1 dtab e1 -> step P t1 t2 (dtab ++ e1) e2 -> step P t t2 dtab (e1 ++ e2).
  Proof.
    intros [A1 A2 A3 A5] [B1 B2 B3 B5]. constructor; [rewrite app_assoc; auto|lia| |congruence].
    intros x L N. rewrite B3, A3; auto. lia.
  Qed.
  Lemma step_weaken (P Q : loc -> Prop) t t1 dtab e : (forall x, P x -> Q x) -> step P t t1 dtab e -> step Q t t1 dtab e.
  Proof. intros H [A1 A2 A3 A5]. constructor; auto. Qed.
  Lemma St_log t dtab lg : St t dtab -> St (us_log lg t) dtab.
  Proof. intros [A B C D E E0]. constructor; auto. Qed.
  Lemma St_set t dtab l ob : St t dtab -> St (us_heap (hset (u_heap t) l ob) t) dtab.
  Proof.
    intros [A B C D E E0]. constructor; auto.
    - intros v n I. destruct (B v n I) as (x & -> & L). exists x. split; auto. cbn. rewrite hset_length. auto.
    - intros x I. cbn. rewrite hset_length. auto.
    - cbn. rewrite hset_length. auto.
  Qed.
  Lemma step_log t dtab lg : St t dtab -> step nil_ t (us_log lg t) dtab [].
  Proof. intros S. constructor; auto. rewrite app_nil_r; apply St_log; auto. Qed.
  (** a new object that is numbered *)
  Definition entered (ob : obj) (t : ust) : ust :=
    us_objs (u_objs t ++ [VLoc (length (u_heap t))])
      (us_idx ((VLoc (length (u_heap t)), length (u_objs t)) :: u_idx t) (us_heap (u_heap t ++ [ob]) t)).
  Lemma entered_step ob t dtab : St t dtab -> step nil_ t (entered ob t) dtab [length (u_heap t)].
  Proof.
    intros [A B C D E E0]. constructor.
    - constructor; auto.
      + cbn. rewrite A, map_app. reflexivity.
      + intros v n [I|I].
        * injection I as <- _. exists (length (u_heap t)). split; auto. cbn. rewrite app_length. cbn. lia.
        * destruct (B v n I) as (x & -> & L). exists x. split; auto. cbn. rewrite app_length. lia.
      + apply NoDup_app_snoc; auto. intros I. apply E in I. lia.
      + intros x I. cbn. rewrite app_length. cbn. apply in_app_or in I as [I|[<-|[]]]; [apply E in I|]; lia.
      + cbn. rewrite app_length. lia.
    - cbn. rewrite app_length. lia.
    - intros x L _. cbn. apply hget_app_old; auto.
    - reflexivity.
  Qed.
  Lemma enter_run t dtab ob : St t dtab -> umkref (VLoc (length (u_heap t))) (us_heap (u_heap t ++ [ob]) t) = (Ret (VLoc (length (u_heap t))), entered ob t).
  Proof.
    intros [A B C D E E0]. unfold umkref. cbn [u_idx us_heap]. rewrite idx_get_None; [reflexivity|].
    intros m I. destruct (B _ _ I) as (x & X & L). injection X as <-. lia.
  Qed.

  (** what a later step leaves as it is *)
  Definition frame (h1 h2 : heap) (b : nat) : Prop :=
    (forall x o, leaf o = true -> hget h1 x = Some o -> hget h2 x = Some o) /\
    (forall x o, b <= x -> hget h1 x = Some o -> hget h2 x = Some o).
  Lemma frame_step (P : loc -> Prop) t t1 dtab e b : step P t t1 dtab e ->
    (forall x, P x -> x < b /\ forall o, hget (u_heap t) x = Some o -> leaf o = false) -> frame (u_heap t) (u_heap t1) b.
  Proof.
    intros [A1 A2 A3 A5] H. split.
    - intros x o L G. rewrite A3; auto; [eapply hget_lt; eauto|]. intros Px. destruct (H x Px) as (_ & F). rewrite (F o G) in L. discriminate.
    - intros x o L G. rewrite A3; auto; [eapply hget_lt; eauto|]. intros Px. destruct (H x Px). lia.
  Qed.
  Lemma frame_nil t t1 dtab e b : step nil_ t t1 dtab e -> frame (u_heap t) (u_heap t1) b.
  Proof. intros S. eapply frame_step; eauto. intros x []. Qed.
  Lemma frame_hset hp p o0 o b : p < b -> hget hp p = Some o0 -> leaf o0 = false -> frame hp (hset hp p o) b.
  Proof.
    intros L G F. split.
    - intros x o1 L1 G1. destruct (Nat.eq_dec p x) as [->|N]; [congruence|]. rewrite hget_hset_other; auto.
    - intros x o1 L1 G1. rewrite hget_hset_other; auto. lia.
  Qed.
  Lemma frame_trans h1 h2 h3 b : frame h1 h2 b -> frame h2 h3 b -> frame h1 h3 b.
  Proof. intros [A B] [C D]. split; eauto. Qed.
  Lemma vm_frame h1 h2 b b2 (R1 R2 : loc -> loc -> Prop) v v' : frame h1 h2 b -> b2 <= b -> (forall l l', R1 l l' -> R2 l l') ->
    vmatch h h1 b R1 v v' -> vmatch h h2 b2 R2 v v'.
  Proof. intros [F _] L Rr. apply vmatch_mono; auto. Qed.
  Lemma vms_frame h1 h2 b b2 (R1 R2 : loc -> loc -> Prop) vs vs' : frame h1 h2 b -> b2 <= b -> (forall l l', R1 l l' -> R2 l l') ->
    Forall2 (vmatch h h1 b R1) vs vs' -> Forall2 (vmatch h h2 b2 R2) vs vs'.
  Proof. intros F L Rr. apply Forall2_impl. intros. eapply vm_frame; eauto. Qed.
  Lemma pms_frame h1 h2 b b2 (R1 R2 : loc -> loc -> Prop) vs vs' : frame h1 h2 b -> b2 <= b -> (forall l l', R1 l l' -> R2 l l') ->
    Forall2 (pmatch h h1 b R1) vs vs' -> Forall2 (pmatch h h2 b2 R2) vs vs'.
  Proof. intros F L Rr. apply Forall2_impl. intros x y [X Y]. split; eapply vm_frame; eauto. Qed.
  Lemma sf_frame h1 h2 b b2 (R1 R2 : loc -> loc -> Prop) l l' : frame h1 h2 b -> b2 <= b -> (forall l l', R1 l l' -> R2 l l') ->
    stands_at h1 b R1 l l' -> stands_at h2 b2 R2 l l'.
  Proof.
    intros F L Rr. unfold stands_at. destruct (mem l); [auto|]. intros [(Gn & B & M)|[B M]]; [left; split; auto; split; [lia|apply (proj2 F); auto]|right]. split; [lia|]. destruct (hget h l) as [[vs|vs|d|x|i|x]|]; try contradiction;
      destruct (hget h1 l') as [o|] eqn:G; try contradiction; pose proof (proj2 F _ _ B G) as G2; rewrite G2; destruct o as [vs'|vs'|d'|x'|i'|x']; try contradiction.
    - eapply vms_frame; eauto.
    - eapply pms_frame; eauto.
    - exact M.
    - destruct M as (Fo & C & dl & d & dl' & d' & M1 & M2 & M3 & M4 & M5 & M6). split; auto. split; auto.
      exists dl, d, dl', d'. split; auto. split; auto. split; auto. split; [lia|]. split; [apply (proj2 F); auto|]. eapply pms_frame; eauto.
  Qed.
  Lemma pairs_frame h1 h2 b b2 n0 tab dtab e e' : length dtab = length tab -> frame h1 h2 b -> b2 <= b -> pairs_ok h1 b n0 tab dtab ->
    forall i l l', n0 <= i -> i < length tab -> nth_error (tab ++ e) i = Some l -> nth_error (dtab ++ e') i = Some l' ->
      stands_at h2 b2 (Rl (tab ++ e) (dtab ++ e')) l l'.
  Proof.
    intros EL F L P i l l' N I A B. rewrite nth_error_app1 in A by auto. rewrite nth_error_app1 in B by lia.
    eapply sf_frame; [exact F|exact L| |apply (P i); auto]. intros x y. apply Rl_app.
  Qed.

  (** the tables belong together: what is not new is a member *)
  Definition al (tab dtab : list loc) : Prop := length dtab = length tab /\ forall l x, Rl tab dtab l x -> x < b0 -> mem l = Some x.
  Lemma Rl_snoc tab dtab l p l1 x : length dtab = length tab -> Rl (tab ++ [l]) (dtab ++ [p]) l1 x -> Rl tab dtab l1 x \/ l1 = l /\ x = p.
  Proof.
    intros E (i & A & B). destruct (Nat.lt_ge_cases i (length tab)) as [Li|Li].
    - left. exists i. rewrite nth_error_app1 in A by auto. rewrite nth_error_app1 in B by lia. auto.
    - right. assert (i = length tab). { assert (i < length (tab ++ [l])) by (apply nth_error_Some; congruence). rewrite app_length in H. cbn in H. lia. }
      subst i. rewrite nth_error_app2, Nat.sub_diag in A by lia. rewrite nth_error_app2, E, Nat.sub_diag in B by lia. cbn in A, B. split; congruence.
  Qed.
  Lemma al_snoc tab dtab l p : al tab dtab -> (b0 <= p \/ mem l = Some p) -> al (tab ++ [l]) (dtab ++ [p]).
  Proof.
    intros (E & F) H. split; [rewrite !app_length, E; reflexivity|]. intros l1 x Rx Lx. destruct (Rl_snoc _ _ _ _ _ _ E Rx) as [R1|(-> & ->)]; auto.
    destruct H; [lia|auto].
  Qed.

  Definition goes (tab : list loc) (v : val) (j : json) (tab' : list loc) : Prop := ok v ->
    jwf j = true /\ exists N, forall m, N <= m -> forall t dtab, St t dtab -> al tab dtab ->
      exists v' t' e, restore w' uo m j t = (Ret v', t') /\ step nil_ t t' dtab e /\ al tab' (dtab ++ e) /\
        vmatch h (u_heap t') (length (u_heap t)) (Rl tab' (dtab ++ e)) v v' /\
        pairs_ok (u_heap t') (length (u_heap t)) (length tab) tab' (dtab ++ e).
  Definition goes_list (tab : list loc) (vs : list val) (js : list json) (tab' : list loc) : Prop := Forall ok vs ->
    forallb jwf js = true /\ exists N, forall m, N <= m -> forall t dtab, St t dtab -> al tab dtab ->
      exists vs' t' e, mapM (restore w' uo m) js t = (Ret vs', t') /\ step nil_ t t' dtab e /\ al tab' (dtab ++ e) /\
        Forall2 (vmatch h (u_heap t') (length (u_heap t)) (Rl tab' (dtab ++ e))) vs vs' /\
        pairs_ok (u_heap t') (length (u_heap t)) (length tab) tab' (dtab ++ e).
  (** a loop that stores each value under its name in the dict at p; [keep] is what it needs of
      the rest of the heap *)
  Definition stores (m : nat) (nm : pystr -> Prop) (keep : heap -> Prop) (p : loc) (body : unit -> pystr * json -> MU unit) : Prop :=
    (forall h1 h2, keep h1 -> (forall x o, x <> p -> hget h1 x = Some o -> hget h2 x = Some o) -> keep h2) /\
    forall a j v t1 t2 d, nm a -> restore w' uo m j t1 = (Ret v, t2) -> keep (u_heap t2) -> hget (u_heap t2) p = Some (ODict d) ->
      is_proxy v = false -> body tt (a, j) t1 = (Ret tt, us_heap (hset (u_heap t2) p (ODict (dset (VStr a) v d))) t2).
  Definition goes_fields (tab : list loc) (d : list (val * val)) (ob : jobj) (tab' : list loc) : Prop := (forall q, In q d -> ok (snd q)) ->
    forallb jwf (map snd ob) = true /\ exists N, forall m, N <= m -> forall nm keep p body, stores m nm keep p body -> (forall a, In a (map fst ob) -> nm a) ->
    forall t dtab acc, St t dtab -> al tab dtab -> keep (u_heap t) -> hget (u_heap t) p = Some (ODict acc) ->
      (forall a, In a (map fst ob) -> ~ In (VStr a) (map fst acc)) -> (forall x, In x (map fst acc) -> exists y, x = VStr y) ->
      exists d' t' e, foldM body ob tt t = (Ret tt, t') /\ step (eq p) t t' dtab e /\ al tab' (dtab ++ e) /\
        keep (u_heap t') /\ hget (u_heap t') p = Some (ODict (acc ++ d')) /\
        Forall2 (pmatch h (u_heap t') (length (u_heap t)) (Rl tab' (dtab ++ e))) d d' /\
        pairs_ok (u_heap t') (length (u_heap t)) (length tab) tab' (dtab ++ e).

  Lemma pairs_none h' b tab dtab : al tab dtab -> pairs_ok h' b (length tab) tab dtab.
  Proof. intros L i l l' N A. exfalso. assert (i < length tab) by (apply nth_error_Some; congruence). lia. Qed.
  Lemma scalar_goes tab v j : (ok v -> jwf j = true) -> (forall m t, restore w' uo (S m) j t = (Ret v, t)) -> atom v = true -> goes tab v j tab.
  Proof.
    intros J Rs At V. split; auto. exists 1. intros m L t dtab S E. destruct m as [|m]; [lia|]. exists v, t, [].
    split; [apply Rs|]. split; [apply step_refl; auto|]. rewrite app_nil_r. split; auto. split; [apply vm_atom; auto|]. apply pairs_none; auto.
  Qed.
  Lemma list_swaps_none p vs : Forall (fun v => is_proxy v = false) vs -> list_swaps p vs = [].
  Proof.
    unfold list_swaps. generalize 0%Z. induction vs as [|v vs IH]; intros z F; auto. inversion F as [|? ? Hv Hvs]; subst. rewrite Hv. cbn [app]. apply IH; auto.
  Qed.
  Lemma vms_noprox h1 b R vs vs' : Forall2 (vmatch h h1 b R) vs vs' -> Forall (fun v => is_proxy v = false) vs'.
  Proof. induction 1; constructor; auto. eapply vmatch_not_proxy; eauto. Qed.

  Lemma lk_val v : ok v -> (forall l, v <> VLoc l) -> lack_val w w' cl h ok v.
  Proof. intros V N. destruct (Lk _ V) as [(l & m & -> & _)|[(l & -> & _)|(_ & L)]]; [destruct (N l); reflexivity|destruct (N l); reflexivity|auto]. Qed.
  Lemma lk_loc l ob : ok (VLoc l) -> hget h l = Some ob -> (forall i, ob = OInst i -> c_reduce (w_cls w (i_cls i)) = false) ->
    mem l = None /\ lack_obj w w' cl h ok ob.
  Proof.
    intros V G N. destruct (Lk _ V) as [(l1 & m & [= <-] & _ & c & args & [(i & G1 & _ & A) _ _] & _)|[(l1 & [= <-] & _ & _ & c & args & [(i & G1 & _ & A) _ _] & _)|(Nm & ob1 & G1 & L)]].
    - rewrite G in G1. injection G1 as ->. rewrite (N i eq_refl) in A. discriminate.
    - rewrite G in G1. injection G1 as ->. rewrite (N i eq_refl) in A. discriminate.
    - split; [|congruence]. destruct (mem l) as [m|] eqn:E; auto. destruct (Nm l m eq_refl E).
  Qed.
  Lemma lk_obj l ob : ok (VLoc l) -> hget h l = Some ob -> (forall i, ob <> OInst i) -> lack_obj w w' cl h ok ob.
  Proof. intros V G N. apply (lk_loc l ob V G). intros i E. destruct (N i E). Qed.
  Lemma lk_none l ob : ok (VLoc l) -> hget h l = Some ob -> (forall i, ob <> OInst i) -> mem l = None.
  Proof. intros V G N. apply (lk_loc l ob V G). intros i E. destruct (N i E). Qed.
  Lemma pairs_first h' b tab l tab' dtab p e : length dtab = length tab -> (exists x, tab' = (tab ++ [l]) ++ x) ->
    stands_at h' b (Rl tab' (dtab ++ p :: e)) l p ->
    (forall i a a', length (tab ++ [l]) <= i -> nth_error tab' i = Some a -> nth_error (dtab ++ p :: e) i = Some a' -> stands_at h' b (Rl tab' (dtab ++ p :: e)) a a') ->
    pairs_ok h' b (length tab) tab' (dtab ++ p :: e).
  Proof.
    intros EL (x & Ex) F P i a a' N A B. destruct (Nat.eq_dec i (length tab)) as [->|Ni].
    - rewrite Ex, <- app_assoc in A. cbn [app] in A. rewrite nth_error_app2, Nat.sub_diag in A by lia. cbn in A. injection A as <-.
      rewrite nth_error_app2 in B by lia. rewrite EL, Nat.sub_diag in B. cbn in B. injection B as <-. exact F.
    - apply (P i a a'); auto. rewrite app_length. change (length [l]) with 1. lia.
  Qed.

  Lemma list_go tab l vs js tab' : hget h l = Some (OList vs) -> (exists x, tab' = (tab ++ [l]) ++ x) ->
    goes_list (tab ++ [l]) vs js tab' -> goes tab (VLoc l) (JList js) tab'.
  Proof.
    intros G Ex IH V. pose proof (lk_obj l _ V G ltac:(discriminate)) as F. pose proof (lk_none l _ V G ltac:(discriminate)) as Nm0. destruct (IH F) as (J & N & H). split; [exact J|]. exists (S N). intros m L t dtab S AL. pose proof (proj1 AL) as EL. pose proof S as ST.
    destruct m as [|m]; [lia|]. pose proof (entered_step (OList []) t dtab S) as S1. set (p := length (u_heap t)) in *. assert (Ep : p = length (u_heap t)) by reflexivity. set (t1 := entered (OList []) t) in *.
    destruct (H m ltac:(lia) t1 (dtab ++ [p]) (sp_st _ _ _ _ _ S1)) as (vs' & t2 & e & Rs & S2 & EL2 & M & P).
    { apply al_snoc; auto. left. pose proof (st_b0 _ _ ST) as X0. lia. }
    rewrite <- !app_assoc in *. cbn [app] in *.
    assert (Hp1 : hget (u_heap t1) p = Some (OList [])) by (cbn; apply hget_app_new).
    assert (L1 : length (u_heap t1) = Datatypes.S p) by (cbn; rewrite app_length; cbn; unfold p; lia).
    assert (Hp2 : hget (u_heap t2) p = Some (OList [])) by (rewrite (sp_old _ _ _ _ _ S2 p); [exact Hp1|lia|intros []]).
    set (t3 := us_heap (hset (u_heap t2) p (OList vs')) t2).
    exists (VLoc p), t3, (p :: e).
    assert (Run : restore w' uo (Datatypes.S m) (JList js) t = (Ret (VLoc p), t3)).
    { change (restore w' uo (Datatypes.S m) (JList js) t) with (restore_list (restore w' uo m) (JList js) t). unfold restore_list.
      rewrite (bind_eq _ _ t (VLoc p) (us_heap (u_heap t ++ [OList []]) t)) by reflexivity.
      rewrite (bind_eq _ _ _ _ _ (enter_run t dtab (OList []) S)). fold t1. cbn [jiter].
      rewrite (bind_eq _ _ t1 js t1) by reflexivity. rewrite (bind_eq _ _ _ _ _ Rs).
      rewrite (bind_eq _ _ t2 tt t3) by reflexivity.
      rewrite (bind_eq _ _ t3 tt t3); [reflexivity|]. rewrite list_swaps_none by (eapply vms_noprox; eauto).
      unfold modify. rewrite app_nil_r. destruct t3; reflexivity. }
    assert (F3 : frame (u_heap t2) (u_heap t3) (Datatypes.S p)) by (eapply frame_hset; eauto).
    split; [exact Run|]. split.
    { destruct S2 as [B1 B2 B3 B5]. destruct S1 as [A1 A2 A3 A5]. constructor.
      - apply St_set. rewrite <- app_assoc in B1. exact B1.
      - cbn. rewrite hset_length. lia.
      - intros x Lx _. cbn. rewrite hget_hset_other by lia. rewrite (B3 x); [|lia|intros []]. apply (A3 x); [lia|intros []].
      - cbn. congruence. }
    split; [exact EL2|]. split.
    { apply vm_obj. exists (length tab). destruct Ex as (x & ->). rewrite <- app_assoc. cbn [app]. rewrite !nth_error_app2 by lia. rewrite EL, !Nat.sub_diag. split; reflexivity. }
    apply (pairs_first _ _ tab l); auto.
    - unfold stands_at. rewrite Nm0. right. split; [auto|]. rewrite G. cbn [t3 u_heap us_heap]. rewrite hget_hset_same by (eapply hget_lt; eauto).
      eapply vms_frame; [|  |  |exact M]; [rewrite L1; exact F3|lia|auto].
    - intros i a a' Ni A B. eapply sf_frame; [rewrite <- L1 in F3; exact F3|lia| |apply (P i); auto]. auto.
  Qed.

  Lemma tuple_go tab vs js tab' : goes_list tab vs js tab' -> goes tab (VTuple vs) (JObj [(u "py/tuple", JList js)]) tab'.
  Proof.
    intros IH V. pose proof (lk_val _ V ltac:(discriminate)) as F. cbn in F. destruct (IH F) as (J & N & H). split; [cbn [jwf map fst nodupb forallb]; rewrite J; reflexivity|].
    exists (S N). intros m L t dtab S EL. destruct m as [|m]; [lia|].
    destruct (H m ltac:(lia) t dtab S EL) as (vs' & t2 & e & Rs & S2 & EL2 & M & P).
    exists (VTuple vs'), t2, e. split; [|split; auto; split; auto; split; [apply vm_tuple; auto|auto]].
    change (restore w' uo (Datatypes.S m) (JObj [(u "py/tuple", JList js)]) t) with (restore_tuple (restore w' uo m) [(u "py/tuple", JList js)] t).
    unfold restore_tuple. apply catch_ret. change (jfield TUPLE [(u "py/tuple", JList js)]) with (JList js). cbn [jiter].
    rewrite (bind_eq _ _ t js t) by reflexivity. rewrite (bind_eq _ _ _ _ _ Rs). reflexivity.
  Qed.

  Lemma pure_hash v : forall c h1, pure v = true -> hashable c h1 v = true.
  Proof.
    induction v as [| | | | | |vs IHv| | | | | | |] using val_ind'; intros c0 h1 P; cbn in P; try discriminate; auto.
    cbn. induction IHv as [|v vs Hv Hvs IH]; auto. cbn in P. apply andb_true_iff in P as [P1 P2]. cbn. rewrite Hv, IH by auto. reflexivity.
  Qed.
  Lemma set_fold (rec : json -> MU val) c js : forall vs t t' acc, mapM rec js t = (Ret vs, t') -> forallb pure vs = true -> kdistinct (acc ++ vs) = true ->
    foldM (fun acc j => v <- rec j ;; h <- gets u_heap ;; if hashable c h v then ret (set_add v acc) else raise ETypeError) js acc t = (Ret (acc ++ vs), t').
  Proof.
    induction js as [|j js IH]; intros vs t t' acc E P D.
    - injection E as <- <-. rewrite app_nil_r. reflexivity.
    - cbn [mapM] in E. apply bind_ret_inv in E as (v & t1 & E1 & E2). apply bind_ret_inv in E2 as (vs2 & t2 & E2 & E3). injection E3 as <- <-.
      cbn in P. apply andb_true_iff in P as [P1 P2]. cbn [foldM].
      rewrite (bind_eq _ _ t (acc ++ [v]) t1).
      + rewrite (IH vs2 t1 t2 (acc ++ [v]) E2 P2) by (rewrite <- app_assoc; exact D). rewrite <- app_assoc. reflexivity.
      + rewrite (bind_eq _ _ _ _ _ E1). rewrite (bind_eq _ _ t1 (u_heap t1) t1) by reflexivity. rewrite pure_hash by auto.
        unfold set_add. apply kdistinct_split in D as (D & _). rewrite D. reflexivity.
  Qed.
  Lemma pures_same h1 b R vs vs' : Forall2 (vmatch h h1 b R) vs vs' -> forallb pure vs = true -> vs' = vs.
  Proof.
    induction 1 as [|v v' vs vs' M _ IH]; intros P; auto. cbn in P. apply andb_true_iff in P as [P1 P2]. rewrite IH by auto. f_equal.
    eapply pure_copy; eauto.
  Qed.
  Lemma set_go tab l vs js tab' : hget h l = Some (OSet vs) -> goes_list tab vs js tab' -> goes tab (VLoc l) (JObj [(u "py/set", JList js)]) tab'.
  Proof.
    intros G IH V. pose proof (lk_obj l _ V G ltac:(discriminate)) as (F & Pu & Kd). destruct (IH F) as (J & N & H). split; [cbn [jwf map fst nodupb forallb]; rewrite J; reflexivity|].
    exists (S N). intros m L t dtab S EL. destruct m as [|m]; [lia|].
    destruct (H m ltac:(lia) t dtab S EL) as (vs' & t2 & e & Rs & S2 & EL2 & M & P).
    pose proof (pures_same _ _ _ _ _ M Pu) as ->.
    set (p := length (u_heap t2)). set (t3 := us_heap (u_heap t2 ++ [OSet vs]) t2).
    assert (S3 : step nil_ t2 t3 (dtab ++ e) []).
    { destruct S2 as [[A1 A2 A3 A4 A5 A6] B2 B3 B5]. constructor; auto.
      - rewrite app_nil_r. constructor; auto.
        + intros v n I. destruct (A2 v n I) as (x & -> & Lx). exists x. split; auto. cbn. rewrite app_length. lia.
        + intros x I. cbn. rewrite app_length. apply A5 in I. lia.
        + cbn. rewrite app_length. lia.
      - cbn. rewrite app_length. lia.
      - intros x Lx _. cbn. apply hget_app_old; auto. }
    pose proof (frame_nil _ _ _ _ (length (u_heap t)) S3) as F3.
    pose proof (step_trans _ _ _ _ _ _ _ S2 S3) as S4. rewrite app_nil_r in S4.
    exists (VLoc p), t3, e. split; [|split; auto; split; auto; split].
    - change (restore w' uo (Datatypes.S m) (JObj [(u "py/set", JList js)]) t) with (restore_set w' (restore w' uo m) [(u "py/set", JList js)] t).
      unfold restore_set. apply catch_ret. change (jfield SET_ [(u "py/set", JList js)]) with (JList js). cbn [jiter].
      rewrite (bind_eq _ _ t js t) by reflexivity. rewrite (bind_eq _ _ _ _ _ (set_fold _ _ _ _ _ _ [] Rs Pu Kd)). reflexivity.
    - eapply vm_set; [exact G|apply (sp_len _ _ _ _ _ S2)|cbn; apply hget_app_new|]. eapply vms_frame; eauto.
    - intros i a a' Ni A B. eapply sf_frame; [exact F3|lia| |apply (P i); auto]. auto.
  Qed.

  Lemma ref_go tab l i ob : hget h l = Some ob -> nth_error tab i = Some l -> goes tab (VLoc l) (JObj [(u "py/id", JInt (Z.of_nat i))]) tab.
  Proof.
    intros G I V. split; [reflexivity|]. exists 1. intros m L t dtab S AL. pose proof (proj1 AL) as EL. destruct m as [|m]; [lia|].
    destruct (nth_error dtab i) as [l'|] eqn:E; [|apply nth_error_None in E; assert (i < length tab) by (apply nth_error_Some; congruence); lia].
    exists (VLoc l'), t, []. split.
    - assert (H : nth_error (u_objs t) i = Some (VLoc l')) by (rewrite (st_objs _ _ S); apply map_nth_error; exact E).
      change (restore_id [(ID, JInt (Z.of_nat i))] t = (Ret (VLoc l'), t)).
      unfold restore_id, bind, gets. change (sget ID [(ID, JInt (Z.of_nat i))]) with (Some (JInt (Z.of_nat i))).
      unfold py_index. destruct (Z.leb_spec 0 (Z.of_nat i)); [|lia]. rewrite Nat2Z.id, H. reflexivity.
    - split; [apply step_refl; auto|]. rewrite app_nil_r. split; auto. split; [|apply pairs_none; auto]. apply vm_obj. exists i. auto.
  Qed.
  Lemma type_go tab c : goes tab (VType c) (JObj [(u "py/type", JStr (importable_name (w_cls w c)))]) tab.
  Proof.
    intros V. pose proof (lk_val _ V ltac:(discriminate)) as (J & Ld). cbn [cname] in *. split; [cbn [jwf map fst nodupb forallb]; unfold cname in J; rewrite J; reflexivity|].
    exists 1. intros m L t dtab S EL. destruct m as [|m]; [lia|].
    destruct (loadclass_run w' cl t _ _ (st_cls _ _ S) Ld) as (lg & E). exists (VType c), (us_log lg t), []. split.
    - change (restore w' uo (Datatypes.S m) (JObj [(u "py/type", JStr (importable_name (w_cls w c)))]) t) with (restore_type w' [(u "py/type", JStr (importable_name (w_cls w c)))] t).
      unfold restore_type. change (jfield TYPE_ [(u "py/type", JStr (importable_name (w_cls w c)))]) with (JStr (cname w c)). rewrite (bind_eq _ _ _ _ _ E). reflexivity.
    - split; [apply step_log; auto|]. rewrite app_nil_r. split; auto. split; [apply vm_atom; reflexivity|apply pairs_none; auto].
  Qed.

  Lemma nil_go tab : goes_list tab [] [] tab.
  Proof.
    intros _. split; auto. exists 0. intros m _ t dtab S EL. exists [], t, []. split; [reflexivity|]. split; [apply step_refl; auto|]. rewrite app_nil_r. split; auto.
    split; [constructor|apply pairs_none; auto].
  Qed.
  Lemma pairs_join h1 h2 b1 b2 (tab tab1 x dtab e1 e2 : list loc) : al tab1 (dtab ++ e1) -> frame h1 h2 b1 -> b1 <= b2 ->
    pairs_ok h1 b1 (length tab) tab1 (dtab ++ e1) -> pairs_ok h2 b2 (length tab1) (tab1 ++ x) (dtab ++ e1 ++ e2) ->
    pairs_ok h2 b1 (length tab) (tab1 ++ x) (dtab ++ e1 ++ e2).
  Proof.
    intros (EL & _) F Lb P1 P2 i a a' N A B. destruct (Nat.lt_ge_cases i (length tab1)) as [Li|Li].
    - rewrite app_assoc in *. eapply pairs_frame; eauto.
    - eapply sf_frame; [| | |apply (P2 i); auto]; auto. split; auto.
  Qed.
  Lemma cons_go tab v j tab1 vs js tab2 : (exists x, tab2 = tab1 ++ x) -> goes tab v j tab1 -> goes_list tab1 vs js tab2 -> goes_list tab (v :: vs) (j :: js) tab2.
  Proof.
    intros (x & ->) H1 H2 F. inversion F as [|? ? V Vs]; subst. destruct (H1 V) as (J1 & N1 & G1). destruct (H2 Vs) as (J2 & N2 & G2).
    split; [cbn; rewrite J1, J2; reflexivity|]. exists (Nat.max N1 N2). intros m L t dtab S EL.
    destruct (G1 m ltac:(lia) t dtab S EL) as (v' & t1 & e1 & R1 & S1 & EL1 & M1 & P1).
    destruct (G2 m ltac:(lia) t1 (dtab ++ e1) (sp_st _ _ _ _ _ S1) EL1) as (vs' & t2 & e2 & R2 & S2 & EL2 & M2 & P2).
    rewrite <- app_assoc in *. exists (v' :: vs'), t2, (e1 ++ e2). split.
    { cbn [mapM]. rewrite (bind_eq _ _ _ _ _ R1). rewrite (bind_eq _ _ _ _ _ R2). reflexivity. }
    split; [eapply step_trans; eauto|]. split; auto. pose proof (frame_nil _ _ _ _ (length (u_heap t)) S2) as F2. pose proof (sp_len _ _ _ _ _ S1) as Ln.
    split.
    - constructor.
      + eapply vm_frame; [exact F2|lia| |exact M1]. intros a c Q. rewrite app_assoc. apply Rl_app; auto.
      + eapply vms_frame; [|exact Ln| |exact M2]; [split; auto|auto].
    - eapply pairs_join; eauto.
  Qed.

  Lemma fnil_go tab : goes_fields tab [] [] tab.
  Proof.
    intros _. split; auto. exists 0. intros m _ nm keep p body B Nm t dtab acc S EL K G _ _. exists [], t, []. split; [reflexivity|].
    split; [apply step_refl; auto|]. rewrite !app_nil_r. split; auto. split; auto. split; auto. split; [constructor|apply pairs_none; auto].
  Qed.
  Lemma fcons_go tab a v j tab1 d ob tab2 : (exists x, tab2 = tab1 ++ x) -> ~ In a (map fst ob) ->
    goes tab v j tab1 -> goes_fields tab1 d ob tab2 -> goes_fields tab ((VStr a, v) :: d) ((a, j) :: ob) tab2.
  Proof.
    intros (x & ->) Na H1 H2 F. destruct (H1 (F (VStr a, v) (or_introl eq_refl))) as (J1 & N1 & G1). destruct (H2 (fun q I => F q (or_intror I))) as (J2 & N2 & G2).
    split; [cbn; rewrite J1; exact J2|]. exists (Nat.max N1 N2). intros m L nm keep p body [B1 B2] Nm t dtab acc S EL K G Nacc Sacc.
    destruct (G1 m ltac:(lia) t dtab S EL) as (v' & t1 & e1 & R1 & S1 & EL1 & M1 & P1).
    pose proof (hget_lt _ _ _ G) as Lp.
    assert (K1 : keep (u_heap t1)).
    { apply (B1 (u_heap t)); auto. intros y o _ Gy. rewrite (sp_old _ _ _ _ _ S1); auto; [eapply hget_lt; eauto]. }
    assert (Gp : hget (u_heap t1) p = Some (ODict acc)) by (rewrite (sp_old _ _ _ _ _ S1 p); [auto|lia|intros []]).
    pose proof (hget_lt _ _ _ Gp) as Lp1.
    set (t2 := us_heap (hset (u_heap t1) p (ODict (acc ++ [(VStr a, v')]))) t1).
    assert (St2 : step (eq p) t1 t2 (dtab ++ e1) []).
    { constructor; auto.
      - rewrite app_nil_r. apply St_set. apply (sp_st _ _ _ _ _ S1).
      - cbn. rewrite hset_length. lia.
      - intros y Ly Ny. cbn. apply hget_hset_other; auto. }
    assert (Run1 : body tt (a, j) t = (Ret tt, t2)).
    { rewrite (B2 a j v' t t1 acc (Nm a (or_introl eq_refl)) R1 K1 Gp (vmatch_not_proxy _ _ _ _ _ _ M1)).
      rewrite dset_new; [reflexivity| |auto|eauto]. apply Nacc. left; reflexivity. }
    assert (Gp2 : hget (u_heap t2) p = Some (ODict (acc ++ [(VStr a, v')]))) by (cbn; apply hget_hset_same; auto).
    destruct (G2 m ltac:(lia) nm keep p body (conj B1 B2) (fun b I => Nm b (or_intror I)) t2 (dtab ++ e1) (acc ++ [(VStr a, v')])) as (d' & t3 & e2 & R3 & S3 & EL3 & K3 & G3 & M3 & P3); auto.
    { pose proof (sp_st _ _ _ _ _ St2) as X. rewrite app_nil_r in X. exact X. }
    { apply (B1 (u_heap t1)); auto. intros y o Ny Gy. cbn. rewrite hget_hset_other; auto. }
    { intros b Ib Iacc. rewrite map_app in Iacc. apply in_app_or in Iacc as [Iacc|[Iacc|[]]].
      - apply (Nacc b); auto. right; auto.
      - cbn in Iacc. apply (f_equal (fun v => match v with VStr s => s | _ => [] end)) in Iacc. cbn in Iacc. subst b. contradiction. }
    { intros y Iy. rewrite map_app in Iy. apply in_app_or in Iy as [Iy|[<-|[]]]; auto. exists a. reflexivity. }
    assert (L12 : length (u_heap t2) = length (u_heap t1)) by (cbn; apply hset_length).
    pose proof (sp_len _ _ _ _ _ S1) as Ln1.
    assert (F12 : frame (u_heap t1) (u_heap t2) (length (u_heap t))) by (eapply frame_hset; eauto).
    assert (F23 : frame (u_heap t2) (u_heap t3) (length (u_heap t))).
    { eapply frame_step; [exact S3|]. intros y <-. split; auto. intros o Go. rewrite Gp2 in Go. injection Go as <-. reflexivity. }
    pose proof (frame_trans _ _ _ _ F12 F23) as F13.
    rewrite <- app_assoc in *. exists ((VStr a, v') :: d'), t3, (e1 ++ e2). split.
    { cbn [foldM]. rewrite (bind_eq _ _ _ _ _ Run1). exact R3. }
    split.
    { eapply step_trans; [eapply step_weaken; [|exact S1]; intros y []|].
      pose proof (step_trans (eq p) t1 t2 t3 (dtab ++ e1) [] e2 St2) as X. rewrite app_nil_r in X. exact (X S3). }
    split; auto. split; auto. split; [cbn [app] in G3; exact G3|]. split.
    - constructor.
      + split; [apply vm_atom; reflexivity|]. cbn [snd]. eapply vm_frame; [exact F13|lia| |exact M1]. intros y z Q. rewrite app_assoc. apply Rl_app; auto.
      + eapply pms_frame; [| | |exact M3]; [split; auto|lia|auto].
    - eapply pairs_join; [exact EL1|exact F13| |exact P1|exact P3]. lia.
  Qed.

  Lemma fields_dom tab d ob tab' : fields_written w k fs h tab d ob tab' -> map fst d = map VStr (map fst ob) /\ NoDup (map fst ob).
  Proof.
    induction 1 as [tab|tab a v j tab1 d ob tab2 Wn Na Nf Ni W1 W2 [E D]]; [split; [reflexivity|constructor]|]. cbn. split; [f_equal; auto|]. constructor; auto.
  Qed.
  Lemma lack_names d (ob : jobj) : lack_fields w h ok d -> map fst d = map VStr (map fst ob) -> forall a, In a (map fst ob) -> name_ok false a = true.
  Proof.
    intros [_ F] E a I. assert (X : In (VStr a) (map fst d)) by (rewrite E; apply in_map; auto). apply in_map_iff in X as (q & Eq & Iq).
    destruct (F q Iq) as (_ & (b & Eb & Nb) & _). rewrite Eb in Eq. apply (f_equal (fun v => match v with VStr s => s | _ => [] end)) in Eq. cbn in Eq. subst b. auto.
  Qed.
  Lemma name_parts a : name_ok false a = true -> str_ok a = true /\ is_reserved a = false /\ seqb a B64 = false /\ seqb a B85 = false.
  Proof. unfold name_ok. rewrite !andb_true_iff, !negb_true_iff. tauto. Qed.

  Lemma dict_go tab l d ob tab' : hget h l = Some (ODict d) -> (exists x, tab' = (tab ++ [l]) ++ x) ->
    map fst d = map VStr (map fst ob) -> NoDup (map fst ob) -> goes_fields (tab ++ [l]) d ob tab' -> goes tab (VLoc l) (JObj ob) tab'.
  Proof.
    intros G Ex Dm Nd IH V. pose proof (lk_obj l _ V G ltac:(discriminate)) as F. pose proof (lk_none l _ V G ltac:(discriminate)) as Nm0. cbn in F. pose proof (lack_names d ob F Dm) as Nm.
    destruct (IH (fun q I => proj1 (proj2 F q I))) as (J & N & H).
    split. { apply jwf_obj; auto. intros a Ia. apply Nm in Ia. apply name_parts in Ia. tauto. }
    exists (S N). intros m L t dtab S AL. pose proof (proj1 AL) as EL. pose proof S as ST. destruct m as [|m]; [lia|].
    pose proof (entered_step (ODict []) t dtab S) as S1. set (p := length (u_heap t)) in *. assert (Ep : p = length (u_heap t)) by reflexivity. set (t1 := entered (ODict []) t) in *.
    assert (Hp1 : hget (u_heap t1) p = Some (ODict [])) by (cbn; apply hget_app_new).
    assert (L1 : length (u_heap t1) = Datatypes.S p) by (cbn; rewrite app_length; cbn; unfold p; lia).
    set (body := fun (_ : unit) (kv : pystr * json) => v <- restore w' uo m (snd kv) ;; dict_assign w' p (VStr (fst kv)) v ;;; swap_if_proxy (VLoc p) (VStr (fst kv)) v SetValue).
    assert (B : stores m (fun _ => True) (fun _ => True) p body).
    { split; auto. intros a j v s1 s2 dd _ Rs _ Gd Np. unfold body. cbn [fst snd]. rewrite (bind_eq _ _ _ _ _ Rs).
      rewrite (bind_eq _ _ s2 tt (us_heap (hset (u_heap s2) p (ODict (dset (VStr a) v dd))) s2)).
      - unfold swap_if_proxy. rewrite Np. reflexivity.
      - unfold dict_assign, get_uobj. rewrite (bind_eq _ _ s2 (ODict dd) s2).
        + rewrite (bind_eq _ _ s2 (u_heap s2) s2) by reflexivity. reflexivity.
        + rewrite (bind_eq _ _ s2 (u_heap s2) s2) by reflexivity. rewrite Gd. reflexivity. }
    destruct (H m ltac:(lia) _ _ p body B (fun _ _ => Logic.I) t1 (dtab ++ [p]) [] (sp_st _ _ _ _ _ S1)) as (d' & t2 & e & Rs & S2 & EL2 & _ & Hp2 & M & P); auto.
    { apply al_snoc; auto. left. pose proof (st_b0 _ _ ST) as X0. lia. }
    { intros y []. }
    rewrite <- !app_assoc in *. cbn [app] in *.
    exists (VLoc p), t2, (p :: e). split.
    { rewrite restore_untagged.
      2:{ apply untagged_names. intros a Ia. apply Nm in Ia. apply name_parts in Ia. tauto. }
      unfold restore_dict. rewrite (bind_eq _ _ t (VLoc p) (us_heap (u_heap t ++ [ODict []]) t)) by reflexivity.
      rewrite Uv, Uk. rewrite (bind_eq _ _ _ tt t1).
      2:{ rewrite (bind_eq _ _ _ _ _ (enter_run t dtab (ODict []) S)). reflexivity. }
      change (foldM body ob tt t1 = (Ret tt, t2)) in Rs. rewrite (bind_eq _ _ _ _ _ Rs). reflexivity. }
    split.
    { destruct S2 as [B1 B2 B3 B5]. destruct S1 as [A1 A2 A3 A5]. constructor.
      - rewrite <- app_assoc in B1. exact B1.
      - lia.
      - intros x Lx _. rewrite (B3 x); [|lia|lia]. apply (A3 x); [lia|intros []].
      - congruence. }
    split; [exact EL2|]. split.
    { apply vm_obj. exists (length tab). destruct Ex as (x & ->). rewrite <- app_assoc. cbn [app]. rewrite !nth_error_app2 by lia. rewrite EL, !Nat.sub_diag. split; reflexivity. }
    apply (pairs_first _ _ tab l); auto.
    - unfold stands_at. rewrite Nm0. right. split; [lia|]. rewrite G, Hp2. eapply pms_frame; [| | |exact M]; [split; auto|lia|auto].
    - intros i a a' Ni A Bi. eapply sf_frame; [| | |apply (P i); auto]; [split; auto|lia|auto].
  Qed.

  Lemma idx_del_In p v n t : In (v, n) (idx_del p t) -> In (v, n) t /\ v <> p.
  Proof.
    induction t as [|[x m] t IH]; cbn; [intros []|]. destruct (val_eqb_spec p x) as [->|N].
    - intros I. destruct (IH I). auto.
    - intros [E|I]; [|destruct (IH I); auto]. injection E as <- <-. auto.
  Qed.
  Definition mk_inst (c b : nat) : inst := mkInst c (Some b) [] [] [] None (CNew [] []) [] 0.
  (** the state in which the attributes are restored *)
  Lemma new_plain m c ob t dtab : found w w' cl c -> St t dtab -> (forall a, In a (map fst ob) -> attr_ok false (w_cls w' c) a = true) ->
    exists t4, step nil_ t t4 dtab [S (length (u_heap t))] /\
      u_heap t4 = u_heap t ++ [ODict []; OInst (mk_inst c (length (u_heap t)))] /\
      restore w' uo (S m) (JObj ((u "py/object", JStr (cname w c)) :: ob)) t =
        (inst2 <- restore_object_instance_variables w' uo (restore w' uo m) ((u "py/object", JStr (cname w c)) :: ob) (VLoc (S (length (u_heap t)))) ;; fin w' inst2) t4.
  Proof.
    intros Fo Sd Nm. destruct Fo as [F1 F2 F3 F4 F5 F6]. set (b := length (u_heap t)). set (ob0 := (u "py/object", JStr (cname w c)) :: ob).
    assert (Nr : forall tg, In tg [NEWARGSEX; NEWARGS; INITARGS; SEQ; DEFAULT_FACTORY; u "default_factory"] -> sget tg ob0 = None).
    { intros tg I. apply sget_notin. intros [E|Ia].
      - change (OBJECT = tg) in E. subst tg. cbn [In] in I. assert (X : forallb (fun x => negb (seqb OBJECT x)) [NEWARGSEX; NEWARGS; INITARGS; SEQ; DEFAULT_FACTORY; u "default_factory"] = true) by reflexivity.
        rewrite forallb_forall in X. specialize (X OBJECT I). destruct (seqb_spec OBJECT OBJECT); [discriminate|congruence].
      - apply Nm in Ia. apply attr_ok_split in Ia as (A1 & _ & A3 & _). apply name_parts in A1 as (_ & A1 & _).
        assert (X : forallb (fun x => is_reserved x || seqb x (u "default_factory")) [NEWARGSEX; NEWARGS; INITARGS; SEQ; DEFAULT_FACTORY; u "default_factory"] = true) by reflexivity.
        rewrite forallb_forall in X. specialize (X tg I). rewrite A1, A3 in X. discriminate. }
    destruct (loadclass_run w' cl t _ _ (st_cls _ _ Sd) F1) as (lg & EL).
    set (pp := length (u_prox t)). set (t1 := us_prox (u_prox t ++ [None]) (us_log lg t)).
    assert (Np : forall n, ~ In (VProxy n, n) (u_idx t) /\ idx_get (VProxy n) (u_idx t) = None).
    { intros n. assert (X : forall q, ~ In (VProxy n, q) (u_idx t)). { intros q I. destruct (st_idx _ _ Sd _ _ I) as (z & Z1 & _). discriminate. } split; auto. apply idx_get_None; auto. }
    set (t2 := uref (VProxy pp) t1).
    assert (E3 : new_attempt w' c None (Ret []) (Ret []) t2 = (Ret (VLoc (S b)), us_log (u_log t2 ++ [EvNew c [] []]) (us_heap (u_heap t ++ [ODict []; OInst (mk_inst c b)]) t2))).
    { pose proof (new_attempt_run w' false (mkPopts true true false None false None false None false false VNone false None false) uo 0 0 (le_n 0) c None [] [] t2 Logic.I (F6 _)) as X. cbn [olist app] in X. rewrite X. unfold cell, cells. rewrite F4. reflexivity. }
    set (t3 := us_log _ (us_heap _ t2)) in E3.
    set (t3' := us_prox (list_set (u_prox t3) pp (Some (VLoc (S b)))) t3).
    set (t4 := us_objs (list_set (u_objs t3') (length (u_objs t)) (VLoc (S b)))
                 (us_idx (idx_del (VProxy pp) ((VLoc (S b), length (u_objs t)) :: idx_del (VLoc (S b)) (u_idx t3'))) t3')).
    assert (H4 : u_heap t4 = u_heap t ++ [ODict []; OInst (mk_inst c b)]) by reflexivity.
    assert (O4 : u_objs t4 = u_objs t ++ [VLoc (S b)]).
    { cbn. apply (list_set_app (u_objs t) []). }
    exists t4. split; [|split; auto].
    - destruct Sd as [A1 A2 A3 A4 A5 A6]. constructor.
      + constructor; auto.
        * rewrite O4, A1, map_app. reflexivity.
        * intros v n I. change (u_idx t4) with (idx_del (VProxy pp) ((VLoc (S b), length (u_objs t)) :: idx_del (VLoc (S b)) (u_idx t3'))) in I. rewrite H4, app_length.
          apply idx_del_In in I as ([I|I] & Nv).
          -- injection I as <- _. exists (S b). split; auto. cbn. unfold b. lia.
          -- apply idx_del_In in I as (I & _). destruct I as [I|I]; [injection I as <- _; contradiction|].
             destruct (A2 v n I) as (z & -> & Lz). exists z. split; auto. cbn. lia.
        * apply NoDup_app_snoc; auto. intros I. apply A5 in I. unfold b in I. lia.
        * intros z I. rewrite H4, app_length. cbn. apply in_app_or in I as [I|[<-|[]]]; [apply A5 in I|]; unfold b; lia.
        * rewrite H4, app_length. lia.
      + rewrite H4, app_length. lia.
      + intros z Lz _. rewrite H4. unfold hget. apply nth_error_app1; auto.
      + reflexivity.
    - change (restore w' uo (S m) (JObj ob0) t) with (restore_step w' uo (restore w' uo m) (JObj ob0) t). rewrite dispatch_object.
      2: reflexivity.
      2:{ intros a [<-|Ia]; [left; vm_compute; auto|]. right. right. right. apply Nm in Ia. apply attr_ok_split in Ia as (A1 & _). apply name_parts in A1. tauto. }
      unfold restore_object. change (jfield OBJECT ob0) with (JStr (cname w c)). rewrite (bind_eq _ _ _ _ _ EL). rewrite F2. unfold restore_object_instance.
      rewrite (bind_eq _ _ (us_log lg t) (VProxy pp) t1) by reflexivity.
      rewrite (bind_eq _ _ t1 (VProxy pp) t2).
      2:{ unfold umkref. cbn [t1 u_idx us_prox us_log]. rewrite (proj2 (Np pp)). reflexivity. }
      rewrite (bind_eq _ _ t2 (None, ob0) t2).
      2:{ unfold loadfactory. rewrite (Nr DEFAULT_FACTORY), (Nr (u "default_factory")) by (cbn; auto 10). reflexivity. }
      cbv beta iota. rewrite (bind_eq _ _ t2 (JList [], JObj []) t2).
      2:{ rewrite (Nr NEWARGSEX) by (cbn; auto 10). unfold getargs. rewrite (Nr NEWARGS), (Nr INITARGS), (Nr SEQ) by (cbn; auto 10). reflexivity. }
      cbn [fst snd]. rewrite (bind_eq _ _ t2 (Ret []) t2) by reflexivity. rewrite (bind_eq _ _ t2 (Ret []) t2) by reflexivity.
      rewrite (bind_eq _ _ t2 (Some (VLoc (S b))) t3).
      2:{ apply catch_ret. rewrite (bind_eq _ _ _ _ _ E3). reflexivity. }
      rewrite (bind_eq _ _ t3 (Some (VLoc (S b))) t3) by reflexivity. rewrite (bind_eq _ _ t3 tt t3') by reflexivity.
      rewrite (bind_eq _ _ t3' tt t4).
      2:{ unfold swapref. assert (X : idx_get (VProxy pp) (u_idx t3') = Some (length (u_objs t))).
          { cbn [t3' t3 t2 uref u_idx us_prox us_log us_heap us_objs us_idx idx_get]. destruct (val_eqb_spec (VProxy pp) (VProxy pp)); [reflexivity|congruence]. }
          rewrite X. reflexivity. }
      rewrite (bind_eq _ _ t4 (u_heap t4) t4) by reflexivity.
      assert (X : is_tuple w' (u_heap t4) (VLoc (S b)) = false).
      { unfold is_tuple. rewrite H4. unfold b. unfold hget. rewrite nth_error_app2 by lia. replace (S (length (u_heap t)) - length (u_heap t)) with 1 by lia. cbn. rewrite F3. reflexivity. }
      rewrite X. reflexivity.
  Qed.

  Lemma lk_parts l i : ok (VLoc l) -> hget h l = Some (OInst i) -> plain_class w (i_cls i) -> forall dl d, i_dict i = Some dl -> hget h dl = Some (ODict d) ->
    mem l = None /\ str_ok (cname w (i_cls i)) = true /\ lack_fields w h ok d /\
    (found w w' cl (i_cls i) /\ (forall a v, In (VStr a, v) d -> attr_ok false (w_cls w' (i_cls i)) a = true /\ slot_named (w_cls w' (i_cls i)) a = false)
     \/ absent w w' cl (i_cls i) /\ (forall a v, In (VStr a, v) d -> exists j, scalar_json v j)).
  Proof.
    intros V G Pc dl d E Gd. destruct (lk_loc l _ V G) as (Nm & _ & St0 & dl1 & d1 & E1 & Gd1 & F & C).
    - intros i0 [= <-]. apply (pc_reduce _ _ Pc).
    - assert (d1 = d) by congruence. subst d1. auto.
  Qed.
  Lemma dom_in (d : list (val * val)) (ob : jobj) a : map fst d = map VStr (map fst ob) -> In a (map fst ob) -> exists v, In (VStr a, v) d.
  Proof.
    intros E I. assert (X : In (VStr a) (map fst d)) by (rewrite E; apply in_map; auto). apply in_map_iff in X as ([q v] & Eq & Iq). cbn in Eq. subst q. eauto.
  Qed.
  Lemma keys_match h1 b R d d' (ob : jobj) : Forall2 (pmatch h h1 b R) d d' -> map fst d = map VStr (map fst ob) -> map fst d' = map VStr (map fst ob).
  Proof.
    intros M. revert ob. induction M as [|q q' d d' [X _] _ IHM]; intros [|[a j] ob] E; try discriminate; auto. cbn [map fst] in *.
    injection E as E1 E2. rewrite E1 in X. f_equal; auto. inversion X; subst; auto.
  Qed.
  Lemma dget_none q (d : list (val * val)) : (forall x, In x (map fst d) -> key_eqb q x = false) -> dget q d = None.
  Proof. induction d as [|[x v] d IH]; intros H; auto. cbn. rewrite (H x) by (left; auto). apply IH. intros; apply H; right; auto. Qed.
  Lemma obj_wf c ob d : str_ok (cname w c) = true -> lack_fields w h ok d -> map fst d = map VStr (map fst ob) -> NoDup (map fst ob) -> forallb jwf (map snd ob) = true ->
    jwf (JObj ((u "py/object", JStr (cname w c)) :: ob)) = true.
  Proof.
    intros Sn F Dm Nd J. pose proof (lack_names d ob F Dm) as Nm. apply jwf_obj.
    - cbn. constructor; auto. intros I. apply Nm, name_parts in I as (_ & I & _). discriminate.
    - intros a [<-|I]; [reflexivity|]. apply Nm, name_parts in I. tauto.
    - cbn [map snd forallb jwf]. rewrite Sn. exact J.
  Qed.

  Lemma found_go tab l i dl d ob tab' : hget h l = Some (OInst i) -> i_dict i = Some dl -> hget h dl = Some (ODict d) -> (exists x, tab' = (tab ++ [l]) ++ x) ->
    map fst d = map VStr (map fst ob) -> NoDup (map fst ob) -> goes_fields (tab ++ [l]) d ob tab' ->
    lack_fields w h ok d -> str_ok (cname w (i_cls i)) = true -> found w w' cl (i_cls i) ->
    (forall a v, In (VStr a, v) d -> attr_ok false (w_cls w' (i_cls i)) a = true /\ slot_named (w_cls w' (i_cls i)) a = false) ->
    mem l = None -> goes tab (VLoc l) (JObj ((u "py/object", JStr (cname w (i_cls i))) :: ob)) tab'.
  Proof.
    intros G Ed Gd Ex Dm Nd IH F Sn Fo At Nm0 V. destruct (IH (fun q I => proj1 (proj2 F q I))) as (J & N & H).
    split; [eapply obj_wf; eauto|]. exists (S N). intros m L t dtab Sd AL. pose proof (proj1 AL) as EL. pose proof Sd as ST. destruct m as [|m]; [lia|].
    set (c := i_cls i) in *.
    assert (Nm : forall a, In a (map fst ob) -> attr_ok false (w_cls w' c) a = true /\ slot_named (w_cls w' c) a = false).
    { intros a Ia. destruct (dom_in d ob a Dm Ia) as (v & Iv). eauto. }
    destruct (new_plain m c ob t dtab Fo Sd (fun a Ia => proj1 (Nm a Ia))) as (t4 & S4 & H4 & Run).
    set (b := length (u_heap t)) in *. assert (Eb : b = length (u_heap t)) by reflexivity.
    assert (G4d : hget (u_heap t4) b = Some (ODict [])).
    { rewrite H4. unfold hget. rewrite nth_error_app2, Eb, Nat.sub_diag by lia. reflexivity. }
    assert (G4x : hget (u_heap t4) (S b) = Some (OInst (mk_inst c b))).
    { rewrite H4. unfold hget. rewrite nth_error_app2 by lia. replace (S b - length (u_heap t)) with 1 by lia. reflexivity. }
    assert (L4 : length (u_heap t4) = S (S b)) by (rewrite H4, app_length; cbn; lia).
    set (ob0 := (u "py/object", JStr (cname w c)) :: ob) in *.
    set (body := fun (_ : unit) (kv : pystr * json) => if is_reserved (fst kv) then ret tt
       else key <- restore_key uo (restore w' uo m) (fst kv) ;; v <- restore w' uo m (snd kv) ;; set_one w' uo (VLoc (S b)) key v).
    assert (B : stores m (fun a => attr_ok false (w_cls w' c) a = true /\ slot_named (w_cls w' c) a = false)
                  (fun h1 => hget h1 (S b) = Some (OInst (mk_inst c b))) b body).
    { split.
      - intros h1 h2 K1 Hs. apply Hs; auto.
      - intros a j v s1 s2 dd (A1 & A2) Rs K1 Gdd Np. destruct (attr_ok_split _ _ _ A1) as (B1 & B2 & B3 & _). apply name_parts in B1 as (_ & B1 & _).
        unfold body. cbn [fst snd]. rewrite B1. unfold restore_key. rewrite Uk. rewrite (bind_eq _ _ s1 (VStr a) s1) by reflexivity. rewrite (bind_eq _ _ _ _ _ Rs).
        eapply set_one_run; [exact K1| |exact A1|exact Np|].
        + cbn. rewrite (fd_kind _ _ _ _ Fo). discriminate.
        + unfold inst_store. cbn [mk_inst i_cls i_dict]. rewrite (dunder_not_dict _ B2), B3. cbn [andb]. unfold slot_named in A2. rewrite A2, Gdd. reflexivity. }
    destruct (H m ltac:(lia) _ _ b body B Nm t4 (dtab ++ [S b]) [] (sp_st _ _ _ _ _ S4)) as (d' & t5 & e & Rs & S5 & EL5 & K5 & G5 & M & P); auto.
    { apply al_snoc; auto. left. pose proof (st_b0 _ _ ST) as X0. lia. }
    { intros y []. }
    rewrite <- !app_assoc in *. cbn [app] in *.
    pose proof (keys_match _ _ _ _ _ _ M Dm) as Dm'.
    assert (NS : forall tg, is_reserved tg = true -> seqb tg (u "py/object") = false -> sget tg ob0 = None).
    { intros tg Rt Nt. apply sget_notin. intros [E|Ia]; [cbn in E; subst tg; discriminate|]. apply Nm in Ia as (A1 & _).
      apply attr_ok_split in A1 as (A1 & _). apply name_parts in A1 as (_ & A1 & _). congruence. }
    exists (VLoc (S b)), t5, (S b :: e). split.
    { rewrite Run. rewrite (bind_eq _ _ t4 (VLoc (S b)) t5).
      - unfold fin. rewrite (bind_eq _ _ t5 None t5); [reflexivity|]. unfold gets, inst_factory. cbn [u_inst]. rewrite K5. cbn [mk_inst i_cls].
        rewrite (fd_deffac _ _ _ _ Fo). unfold inst_attr. cbn [mk_inst i_slots sget i_dict]. rewrite G5.
        assert (X : dget (VStr (u "default_factory")) d' = None).
        { apply dget_none. rewrite Dm'. intros x I. apply in_map_iff in I as (a & <- & Ia). rewrite key_str.
          apply Nm in Ia as (A1 & _). apply attr_ok_split in A1 as (_ & _ & A3 & _).
          destruct (seqb_spec (u "default_factory") a) as [<-|]; auto. }
        rewrite X. reflexivity.
      - unfold restore_object_instance_variables. rewrite (bind_eq _ _ t4 tt t5).
        + rewrite (NS SEQ), (NS STATE) by reflexivity. reflexivity.
        + unfold restore_from_dict, ob0. cbn [foldM]. rewrite (bind_eq _ _ t4 tt t4) by reflexivity. exact Rs. }
    split.
    { destruct S5 as [B1 B2 B3 B5]. destruct S4 as [A1 A2 A3 A5]. constructor.
      - rewrite <- app_assoc in B1. exact B1.
      - lia.
      - intros x Lx _. rewrite (B3 x); [|lia|lia]. apply (A3 x); [lia|intros []].
      - congruence. }
    split; [exact EL5|]. split.
    { apply vm_obj. exists (length tab). destruct Ex as (x & ->). rewrite <- app_assoc. cbn [app]. rewrite !nth_error_app2 by lia. rewrite EL, !Nat.sub_diag. split; reflexivity. }
    apply (pairs_first _ _ tab l); auto.
    - unfold stands_at. rewrite Nm0. right. split; [lia|]. rewrite G, K5. split; auto. split; [reflexivity|]. exists dl, d, b, d'. split; auto. split; auto. split; [reflexivity|]. split; [lia|]. split; auto.
      eapply pms_frame; [| | |exact M]; [split; auto|lia|auto].
    - intros y a a' Ni A Bi. eapply sf_frame; [| | |apply (P y); auto]; [split; auto|lia|auto].
  Qed.

  Lemma scal_fields tab d ob tab' : fields_written w k fs h tab d ob tab' -> (forall a v, In (VStr a, v) d -> exists j, scalar_json v j) ->
    tab' = tab /\ Forall2 (fun q r => fst q = VStr (fst r) /\ scalar_json (snd q) (snd r)) d ob.
  Proof.
    induction 1 as [tab|tab a v j tab1 d ob tab2 Wn Na Nf Ni W1 W2 IH]; intros Sc; [split; auto; constructor|].
    assert (X : tab1 = tab /\ scalar_json v j).
    { destruct (Sc a v (or_introl eq_refl)) as (j0 & Sj). destruct Sj; inversion W1; subst; split; auto; constructor. }
    destruct X as (-> & Sj). destruct IH as (-> & F); [intros b x I; apply (Sc b x); right; auto|]. split; auto.
  Qed.
  Lemma alloc_scalars nm : forall d ob hp, Forall2 (fun q r => fst q = VStr (fst r) /\ scalar_json (snd q) (snd r)) d ob ->
    alloc_json (JObj ((u "py/object", JStr nm) :: ob)) hp = (VLoc (length hp), hp ++ [ODict ((VStr (u "py/object"), VStr nm) :: d)]).
  Proof.
    intros d ob hp F. cbn [alloc_json].
    set (go := fix go (o : list (pystr * json)) (h : heap) : list (val * val) * heap :=
         match o with
         | [] => ([], h)
         | (k, x) :: r => let (v, h1) := alloc_json x h in let (vs, h2) := go r h1 in ((VStr k, v) :: vs, h2)
         end).
    assert (X : go ob hp = (d, hp)).
    { induction F as [|[q v] [a j] d ob (E & Sj) F IH]; [reflexivity|]. cbn in E, Sj. subst q. cbn [go]. destruct Sj; cbn [alloc_json]; rewrite IH; reflexivity. }
    rewrite X. reflexivity.
  Qed.
  Lemma absent_go tab l i dl d ob tab' : hget h l = Some (OInst i) -> i_dict i = Some dl -> hget h dl = Some (ODict d) ->
    fields_written w k fs h (tab ++ [l]) d ob tab' ->
    lack_fields w h ok d -> str_ok (cname w (i_cls i)) = true -> absent w w' cl (i_cls i) ->
    (forall a v, In (VStr a, v) d -> exists j, scalar_json v j) ->
    mem l = None -> goes tab (VLoc l) (JObj ((u "py/object", JStr (cname w (i_cls i))) :: ob)) tab'.
  Proof.
    intros G Ed Gd W F Sn (Ab1 & Ab2) Sc Nm0 V. destruct (fields_dom _ _ _ _ W) as (Dm & Nd). destruct (scal_fields _ _ _ _ W Sc) as (-> & F2).
    pose proof (lack_names d ob F Dm) as Nm. set (c := i_cls i) in *. split.
    { eapply obj_wf; eauto. clear -Lk F F2. induction F2 as [|[q v] [a j] d ob (E & Sj) F2 IH]; auto. cbn in E, Sj. cbn [map snd forallb]. rewrite IH, andb_true_r.
      - pose proof (proj1 (proj2 F (q, v) (or_introl eq_refl))) as Ov. cbn in Ov. assert (Lv : lack_val w w' cl h ok v) by (apply lk_val; auto; intros l0 ->; inversion Sj). destruct Sj; cbn in *; auto.
      - destruct F as [F1 F3]. split; [inversion F1; auto|]. intros kv I. apply F3. right; auto. }
    exists 1. intros m L t dtab Sd AL. pose proof (proj1 AL) as EL. pose proof Sd as ST. destruct m as [|m]; [lia|].
    set (ob0 := (u "py/object", JStr (cname w c)) :: ob).
    destruct (loadclass_run w' cl t _ _ (st_cls _ _ Sd) Ab1) as (lg & ELd).
    assert (Pm : exists lg2, process_missing uo (cname w c) (us_log lg t) = (Ret tt, us_log lg2 (us_log lg t))).
    { unfold process_missing. destruct (uo_missing uo) as [| | |f|] eqn:Em; [exists lg|eexists|contradiction|eexists|exists lg]; try reflexivity.
      unfold bind, log, modify, ret. cbn. rewrite (Uc f (cname w c) eq_refl). reflexivity. }
    destruct Pm as (lg2 & Pm). set (t1 := us_log lg2 (us_log lg t)) in *.
    assert (S1 : step nil_ t t1 dtab []) by apply (step_log t dtab lg2 Sd).
    assert (St1 : St t1 dtab) by (apply St_log, St_log; auto).
    set (new := ODict ((VStr (u "py/object"), VStr (cname w c)) :: d)). pose proof (entered_step new t1 dtab St1) as S2.
    set (b := length (u_heap t)). assert (Eb : b = length (u_heap t)) by reflexivity. change (length (u_heap t1)) with b in S2. set (t2 := entered new t1) in *.
    assert (G2 : hget (u_heap t2) b = Some new) by (cbn; apply hget_app_new).
    exists (VLoc b), t2, [b]. split.
    { change (restore w' uo (S m) (JObj ob0) t) with (restore_step w' uo (restore w' uo m) (JObj ob0) t). rewrite dispatch_object.
      2: reflexivity.
      2:{ intros a [<-|Ia]; [left; vm_compute; auto|]. right. right. right. apply Nm, name_parts in Ia. tauto. }
      unfold restore_object. change (jfield OBJECT ob0) with (JStr (cname w c)). rewrite (bind_eq _ _ _ _ _ ELd). rewrite Ab2.
      rewrite (bind_eq _ _ _ _ _ Pm). rewrite (bind_eq _ _ t1 (VLoc b) (us_heap (u_heap t1 ++ [new]) t1)).
      - apply (enter_run t1 dtab new St1).
      - unfold raw, ob0. rewrite (alloc_scalars _ d ob _ F2). reflexivity. }
    split. { pose proof (step_trans nil_ t t1 t2 dtab [] [b] S1) as X. rewrite app_nil_r in X. exact (X S2). }
    split; [apply al_snoc; auto; left; apply (st_b0 _ _ ST)|]. split.
    { apply vm_obj. exists (length tab). rewrite !nth_error_app2 by lia. rewrite EL, !Nat.sub_diag. split; reflexivity. }
    apply (pairs_first _ _ tab l); auto.
    - exists []. rewrite app_nil_r. reflexivity.
    - unfold stands_at. rewrite Nm0. right. split; [lia|]. rewrite G, G2. split; [split; auto|]. exists dl, d. auto.
    - intros y a a' Ni A Bi. exfalso. assert (y < length (tab ++ [l])) by (apply nth_error_Some; congruence). lia.
  Qed.

  Lemma simple_wf v : simple v = true -> jwf (simple_doc v) = true.
  Proof.
    induction v as [| | | | | |vs IHv| | | | | | |] using val_ind'; intros P; cbn in P; try discriminate; try reflexivity; try exact P.
    assert (X : forallb jwf (map simple_doc vs) = true).
    { induction IHv as [|v vs Hv Hvs IH]; auto. cbn in P. apply andb_true_iff in P as [P1 P2]. cbn. rewrite Hv, IH; auto. }
    cbn [simple_doc jwf map fst nodupb forallb]. rewrite X. reflexivity.
  Qed.
  Lemma simple_restore v : simple v = true -> exists N, forall m t, N <= m -> restore w' uo m (simple_doc v) t = (Ret v, t).
  Proof.
    induction v as [| | | | | |vs IHv| | | | | | |] using val_ind'; intros P; cbn in P; try discriminate;
      try (exists 1; intros [|m] tt0 L; [lia|reflexivity]).
    assert (X : exists N, forall m t, N <= m -> mapM (restore w' uo m) (map simple_doc vs) t = (Ret vs, t)).
    { induction IHv as [|v vs Hv Hvs IH]; [exists 0; reflexivity|]. cbn in P. apply andb_true_iff in P as [P1 P2].
      destruct (Hv P1) as (N1 & H1). destruct (IH P2) as (N2 & H2). exists (Nat.max N1 N2). intros m t L. cbn [map mapM].
      rewrite (bind_eq _ _ _ _ _ (H1 m t ltac:(lia))), (bind_eq _ _ _ _ _ (H2 m t ltac:(lia))). reflexivity. }
    destruct X as (N & H). exists (S N). intros [|m] t L; [lia|]. cbn [simple_doc].
    change (restore w' uo (S m) (JObj [(u "py/tuple", JList (map simple_doc vs))]) t) with (restore_tuple (restore w' uo m) [(u "py/tuple", JList (map simple_doc vs))] t).
    unfold restore_tuple. apply catch_ret. change (jfield TUPLE [(u "py/tuple", JList (map simple_doc vs))]) with (JList (map simple_doc vs)). cbn [jiter].
    rewrite (bind_eq _ _ t (map simple_doc vs) t) by reflexivity. rewrite (bind_eq _ _ _ _ _ (H m t ltac:(lia))). reflexivity.
  Qed.
  Lemma hole_call l j c args : hole w k fs h l j -> by_call w k h l c args ->
    j = JObj [(u "py/reduce", JList [JObj [(u "py/type", JStr (cname w c))]; simple_doc (VTuple args)])].
  Proof.
    intros Ho [(i & G & L & A) K Sa].
    destruct Ho as [i0 e f j G0 R X F E|i0 hd G0 L0 Hd|i0 e G0 L0 A1 A2 A3 A4 A5 K0 T|c0 args0 [(i0 & G0 & L0 & A0) K0 Sa0]];
      rewrite G in G0; injection G0 as <-; try congruence.
    - destruct R; congruence.
    - rewrite K in K0. injection K0 as <- <-. reflexivity.
  Qed.
  (** the state after a member *)
  Lemma call_run n c args m t dtab : St t dtab -> forallb simple args = true -> loadclass w' cl (JStr (cname w c)) = Ret (VType c) ->
    c_name (w_cls w' c) <> u "__newobj__" -> (forall h', w_call w' h' (VType c) args = CVal (VLoc m)) -> ~ In m dtab -> m < length (u_heap t) ->
    (forall t1, restore w' uo n (simple_doc (VTuple args)) t1 = (Ret (VTuple args), t1)) -> 0 < n ->
    exists t', restore w' uo (S n) (JObj [(u "py/reduce", JList [JObj [(u "py/type", JStr (cname w c))]; simple_doc (VTuple args)])]) t = (Ret (VLoc m), t') /\
      step nil_ t t' dtab [m] /\ u_heap t' = u_heap t.
  Proof.
    intros Sd Sa Ld Nn Wc Nm Lm Rt Ln. set (jt := JObj [(u "py/type", JStr (cname w c))]). set (ja := simple_doc (VTuple args)) in *.
    set (pp := length (u_prox t)). set (t1 := us_prox (u_prox t ++ [None]) t). set (t2 := uref (VProxy pp) t1).
    assert (C2 : u_classes t2 = cl) by (apply (st_cls _ _ Sd)).
    destruct (loadclass_run w' cl t2 _ _ C2 Ld) as (lg & EL). set (t3 := us_log lg t2) in *.
    set (t4 := us_log (u_log t3 ++ [EvCall (VType c) args]) t3).
    set (t5 := us_prox (list_set (u_prox t4) pp (Some (VLoc m))) t4).
    set (t6 := us_objs (list_set (u_objs t5) (length (u_objs t)) (VLoc m))
                 (us_idx (idx_del (VProxy pp) ((VLoc m, length (u_objs t)) :: idx_del (VLoc m) (u_idx t5))) t5)).
    assert (O6 : u_objs t6 = u_objs t ++ [VLoc m]) by (cbn; apply (list_set_app (u_objs t) [])).
    exists t6. split; [|split; [|reflexivity]].
    - change (restore w' uo (S n) (JObj [(u "py/reduce", JList [jt; ja])]) t) with (restore_reduce w' (restore w' uo n) [(u "py/reduce", JList [jt; ja])] t).
      unfold restore_reduce. rewrite (bind_eq _ _ t (VProxy pp) t1) by reflexivity.
      rewrite (bind_eq _ _ t1 (VProxy pp) t2).
      2:{ unfold umkref. cbn [t1 u_idx us_prox]. rewrite idx_get_None; [reflexivity|]. intros q I. destruct (st_idx _ _ Sd _ _ I) as (z & Z1 & _). discriminate. }
      rewrite (bind_eq _ _ t2 (Some [VType c; VTuple args]) t3).
      2:{ apply catch_ret. change (jfield REDUCE [(u "py/reduce", JList [jt; ja])]) with (JList [jt; ja]). cbn [jiter].
          rewrite (bind_eq _ _ t2 [jt; ja] t2) by reflexivity. rewrite (bind_eq _ _ t2 [VType c; VTuple args] t3); [reflexivity|].
          cbn [mapM]. rewrite (bind_eq _ _ t2 (VType c) t3).
          - rewrite (bind_eq _ _ t3 [VTuple args] t3); [reflexivity|]. rewrite (bind_eq _ _ _ _ _ (Rt t3)). reflexivity.
          - destruct n as [|n]; [lia|]. change (restore w' uo (S n) jt t2) with (restore_type w' [(u "py/type", JStr (cname w c))] t2).
            unfold restore_type. change (jfield TYPE_ [(u "py/type", JStr (cname w c))]) with (JStr (cname w c)). rewrite (bind_eq _ _ _ _ _ EL). reflexivity. }
      cbv beta iota. change ([VType c; VTuple args] ++ repeat VNone (6 - length [VType c; VTuple args])) with [VType c; VTuple args; VNone; VNone; VNone; VNone].
      cbv beta iota. rewrite (bind_eq _ _ t3 (Some (VLoc m)) t4).
      2:{ unfold reduce_make. rewrite (bind_eq _ _ t3 (u_heap t3) t3) by reflexivity. cbn [is_newobj].
          destruct (seqb_spec (c_name (w_cls w' c)) (u "__newobj__")) as [E|_]; [contradiction|]. cbn [u_callable negb].
          apply catch_ret. rewrite (bind_eq _ _ t3 args t3) by reflexivity.
          rewrite (bind_eq _ _ t3 (VLoc m) t4); [reflexivity|]. unfold do_call. rewrite (bind_eq _ _ t3 tt t4) by reflexivity.
          rewrite (bind_eq _ _ t4 (u_heap t4) t4) by reflexivity. rewrite Wc. reflexivity. }
      cbv beta iota. rewrite (bind_eq _ _ t4 tt t4) by reflexivity. rewrite (bind_eq _ _ t4 tt t4) by reflexivity. rewrite (bind_eq _ _ t4 tt t4) by reflexivity.
      rewrite (bind_eq _ _ t4 tt t5) by reflexivity. rewrite (bind_eq _ _ t5 tt t6); [reflexivity|].
      unfold swapref. assert (X : idx_get (VProxy pp) (u_idx t5) = Some (length (u_objs t))).
      { cbn [t5 t4 t3 t2 uref u_idx us_prox us_log us_heap us_objs us_idx idx_get]. destruct (val_eqb_spec (VProxy pp) (VProxy pp)); [reflexivity|congruence]. }
      rewrite X. reflexivity.
    - destruct Sd as [A1 A2 A3 A4 A5 A6]. constructor; auto. constructor; auto.
      + rewrite O6, A1, map_app. reflexivity.
      + intros v q I. change (u_idx t6) with (idx_del (VProxy pp) ((VLoc m, length (u_objs t)) :: idx_del (VLoc m) (u_idx t5))) in I.
        change (u_heap t6) with (u_heap t). apply idx_del_In in I as ([I|I] & Nv).
        * injection I as <- _. exists m. auto.
        * apply idx_del_In in I as (I & _). destruct I as [I|I]; [injection I as <- _; contradiction|]. apply (A2 v q I).
      + apply NoDup_app_snoc; auto.
      + intros x I. change (u_heap t6) with (u_heap t). apply in_app_or in I as [I|[<-|[]]]; auto.
  Qed.
  (** the state after an object whose class is not there *)
  Lemma lost_run n c args t dtab : St t dtab -> loadclass w' cl (JStr (cname w c)) = Ret VNone ->
    (forall t1, restore w' uo n (simple_doc (VTuple args)) t1 = (Ret (VTuple args), t1)) -> 0 < n ->
    exists t', restore w' uo (S n) (JObj [(u "py/reduce", JList [JObj [(u "py/type", JStr (cname w c))]; simple_doc (VTuple args)])]) t = (Ret (VLoc (S (length (u_heap t)))), t') /\
      step nil_ t t' dtab [S (length (u_heap t))] /\ hget (u_heap t') (S (length (u_heap t))) = Some (OList []).
  Proof.
    intros Sd Ld Rt Ln. set (jt := JObj [(u "py/type", JStr (cname w c))]). set (ja := simple_doc (VTuple args)) in *.
    set (pp := length (u_prox t)). set (t1 := us_prox (u_prox t ++ [None]) t). set (t2 := uref (VProxy pp) t1). set (b := length (u_heap t)).
    assert (C2 : u_classes t2 = cl) by (apply (st_cls _ _ Sd)).
    destruct (loadclass_run w' cl t2 _ _ C2 Ld) as (lg & EL). set (t2b := us_log lg t2) in *.
    set (dj := ODict [(VStr (u "py/type"), VStr (cname w c))]).
    set (t3 := us_heap (u_heap t2b ++ [dj]) t2b). set (t4 := us_heap (u_heap t3 ++ [OList []]) t3).
    assert (Lb : length (u_heap t3) = S b) by (cbn; rewrite app_length; cbn; lia).
    set (t5 := us_prox (list_set (u_prox t4) pp (Some (VLoc (S b)))) t4).
    set (t6 := us_objs (list_set (u_objs t5) (length (u_objs t)) (VLoc (S b)))
                 (us_idx (idx_del (VProxy pp) ((VLoc (S b), length (u_objs t)) :: idx_del (VLoc (S b)) (u_idx t5))) t5)).
    assert (O6 : u_objs t6 = u_objs t ++ [VLoc (S b)]) by (cbn; apply (list_set_app (u_objs t) [])).
    assert (H6 : u_heap t6 = (u_heap t ++ [dj]) ++ [OList []]) by reflexivity.
    assert (G6 : hget (u_heap t6) (S b) = Some (OList [])) by (rewrite H6; unfold hget; rewrite nth_error_app2 by (rewrite app_length; cbn; lia); rewrite app_length; cbn [length]; replace (S b - (length (u_heap t) + 1)) with 0 by (unfold b; lia); reflexivity).
    exists t6. split; [|split; [|exact G6]].
    - change (restore w' uo (S n) (JObj [(u "py/reduce", JList [jt; ja])]) t) with (restore_reduce w' (restore w' uo n) [(u "py/reduce", JList [jt; ja])] t).
      unfold restore_reduce. rewrite (bind_eq _ _ t (VProxy pp) t1) by reflexivity.
      rewrite (bind_eq _ _ t1 (VProxy pp) t2).
      2:{ unfold umkref. cbn [t1 u_idx us_prox]. rewrite idx_get_None; [reflexivity|]. intros q I. destruct (st_idx _ _ Sd _ _ I) as (z & Z1 & _). discriminate. }
      rewrite (bind_eq _ _ t2 (Some [VLoc b; VTuple args]) t3).
      2:{ apply catch_ret. change (jfield REDUCE [(u "py/reduce", JList [jt; ja])]) with (JList [jt; ja]). cbn [jiter].
          rewrite (bind_eq _ _ t2 [jt; ja] t2) by reflexivity. rewrite (bind_eq _ _ t2 [VLoc b; VTuple args] t3); [reflexivity|].
          cbn [mapM]. rewrite (bind_eq _ _ t2 (VLoc b) t3).
          - rewrite (bind_eq _ _ t3 [VTuple args] t3); [reflexivity|]. rewrite (bind_eq _ _ _ _ _ (Rt t3)). reflexivity.
          - destruct n as [|n]; [lia|]. change (restore w' uo (S n) jt t2) with (restore_type w' [(u "py/type", JStr (cname w c))] t2).
            unfold restore_type. change (jfield TYPE_ [(u "py/type", JStr (cname w c))]) with (JStr (cname w c)). rewrite (bind_eq _ _ _ _ _ EL). reflexivity. }
      cbv beta iota. change ([VLoc b; VTuple args] ++ repeat VNone (6 - length [VLoc b; VTuple args])) with [VLoc b; VTuple args; VNone; VNone; VNone; VNone].
      cbv beta iota. rewrite (bind_eq _ _ t3 None t3).
      2:{ unfold reduce_make. rewrite (bind_eq _ _ t3 (u_heap t3) t3) by reflexivity. cbn [is_newobj u_callable].
          assert (X : hget (u_heap t3) b = Some dj) by (cbn; apply hget_app_new). rewrite X. reflexivity. }
      cbv beta iota. unfold fail_reduce. rewrite (bind_eq _ _ t3 (VLoc (S b)) t4) by (unfold alloc, t4; rewrite Lb; reflexivity).
      rewrite (bind_eq _ _ t4 tt t5) by reflexivity. rewrite (bind_eq _ _ t5 tt t6); [reflexivity|].
      unfold swapref. assert (X : idx_get (VProxy pp) (u_idx t5) = Some (length (u_objs t))).
      { cbn [t5 t4 t3 t2b t2 uref u_idx us_prox us_log us_heap us_objs us_idx idx_get]. destruct (val_eqb_spec (VProxy pp) (VProxy pp)); [reflexivity|congruence]. }
      rewrite X. reflexivity.
    - destruct Sd as [A1 A2 A3 A4 A5 A6]. assert (L6 : length (u_heap t6) = S (S b)) by (rewrite H6, !app_length; cbn; unfold b; lia).
      constructor; auto.
      2: rewrite L6; unfold b; lia.
      2:{ intros x Lx _. rewrite H6. unfold hget. rewrite nth_error_app1 by (rewrite app_length; cbn; lia). rewrite nth_error_app1 by lia. reflexivity. }
      constructor; auto.
      + rewrite O6, A1, map_app. reflexivity.
      + intros v q I. change (u_idx t6) with (idx_del (VProxy pp) ((VLoc (S b), length (u_objs t)) :: idx_del (VLoc (S b)) (u_idx t5))) in I.
        apply idx_del_In in I as ([I|I] & Nv).
        * injection I as <- _. exists (S b). split; auto. lia.
        * apply idx_del_In in I as (I & _). destruct I as [I|I]; [injection I as <- _; contradiction|]. destruct (A2 v q I) as (z & Z1 & Z2). exists z. split; auto. rewrite L6. unfold b. lia.
      + apply NoDup_app_snoc; auto. intros I. apply A5 in I. unfold b in *. lia.
      + intros x I. rewrite L6. apply in_app_or in I as [I|[<-|[]]]; [apply A5 in I; unfold b; lia|lia].
      + rewrite L6. unfold b. lia.
  Qed.
  Lemma hole_go tab l j : ~ In l tab -> hole w k fs h l j -> goes tab (VLoc l) j (tab ++ [l]).
  Proof.
    intros NI Ho V. destruct (Lk _ V) as [(l1 & m & [= <-] & Em & c & args & Bc & Sn & Ld & Nn & Wc)|[(l1 & [= <-] & Em & Gn & c & args & Bc & Sn & Ld)|(_ & ob & G & L)]].
    2:{ pose proof (hole_call l j c args Ho Bc) as ->. pose proof (bc_args _ _ _ _ _ _ Bc) as Sa. split.
      { pose proof (simple_wf (VTuple args) Sa) as X. set (ja := simple_doc (VTuple args)) in *. cbn [jwf map fst nodupb forallb]. rewrite X, Sn. reflexivity. }
      destruct (simple_restore (VTuple args) Sa) as (N & H). exists (S (S N)). intros n Ln t dtab Sd AL. destruct n as [|n]; [lia|]. pose proof (proj1 AL) as EL.
      destruct (lost_run n c args t dtab Sd Ld ltac:(intros t1; apply H; lia) ltac:(lia)) as (t' & Run & Sp & Hh).
      set (p := S (length (u_heap t))) in *. exists (VLoc p), t', [p]. split; [exact Run|]. split; [exact Sp|].
      split; [apply al_snoc; auto; left; unfold p; pose proof (st_b0 _ _ Sd); lia|]. split.
      { apply vm_obj. exists (length tab). rewrite !nth_error_app2 by lia. rewrite EL, !Nat.sub_diag. split; reflexivity. }
      apply (pairs_first _ _ tab l); auto.
      - exists []. rewrite app_nil_r. reflexivity.
      - unfold stands_at. rewrite Em. left. split; auto. split; [unfold p; lia|exact Hh].
      - intros y a a' Ni A Bi. exfalso. assert (y < length (tab ++ [l])) by (apply nth_error_Some; congruence). lia. }
    2:{ exfalso. destruct (hole_inst w k fs h l j Ho) as (i & G1 & NP). rewrite G in G1. injection G1 as ->. destruct L as (P & _). contradiction. }
    pose proof (hole_call l j c args Ho Bc) as ->. pose proof (bc_args _ _ _ _ _ _ Bc) as Sa. split.
    { pose proof (simple_wf (VTuple args) Sa) as X. set (ja := simple_doc (VTuple args)) in *. cbn [jwf map fst nodupb forallb]. rewrite X, Sn. reflexivity. }
    destruct (simple_restore (VTuple args) Sa) as (N & H). exists (S (S N)). intros n Ln t dtab Sd AL. destruct n as [|n]; [lia|]. pose proof (proj1 AL) as EL.
    assert (Nm : ~ In m dtab).
    { intros I. apply In_nth_error in I as (q & Eq). destruct (nth_error tab q) as [l1|] eqn:E1.
      - pose proof (proj2 AL l1 m (ex_intro _ q (conj E1 Eq)) (Mo _ _ Em)) as E2. rewrite (Mi _ _ _ E2 Em) in E1. apply nth_error_In in E1. contradiction.
      - apply nth_error_None in E1. assert (q < length dtab) by (apply nth_error_Some; congruence). lia. }
    destruct (call_run n c args m t dtab Sd Sa Ld Nn Wc Nm ltac:(pose proof (Mo _ _ Em); pose proof (st_b0 _ _ Sd); lia) ltac:(intros t1; apply H; lia) ltac:(lia)) as (t' & Run & Sp & Hh).
    exists (VLoc m), t', [m]. split; [exact Run|]. split; [exact Sp|]. split; [apply al_snoc; auto|]. split.
    { apply vm_obj. exists (length tab). rewrite !nth_error_app2 by lia. rewrite EL, !Nat.sub_diag. split; reflexivity. }
    apply (pairs_first _ _ tab l); auto.
    - exists []. rewrite app_nil_r. reflexivity.
    - unfold stands_at. rewrite Em. reflexivity.
    - intros y a a' Ni A Bi. exfalso. assert (y < length (tab ++ [l])) by (apply nth_error_Some; congruence). lia.
  Qed.

  Theorem all_goes_m : (forall tab v j tab', written w k fs h tab v j tab' -> goes tab v j tab') /\
    (forall tab vs js tab', writtens w k fs h tab vs js tab' -> goes_list tab vs js tab') /\
    (forall tab d ob tab', fields_written w k fs h tab d ob tab' -> fields_written w k fs h tab d ob tab' /\ goes_fields tab d ob tab').
  Proof.
    destruct (extends w k fs h) as (E1 & E2 & E3). apply written_mutind.
    - intros tab. apply scalar_goes; auto.
    - intros tab b. apply scalar_goes; auto.
    - intros tab z. apply scalar_goes; auto.
    - intros tab x. apply scalar_goes; auto. intros V. exact (lk_val _ V ltac:(discriminate)).
    - intros tab x. apply scalar_goes; auto. intros V. exact (lk_val _ V ltac:(discriminate)).
    - intros tab c. apply type_go.
    - intros tab vs js tab' W IH. apply tuple_go; auto.
    - intros tab l vs js tab' G W IH. eapply set_go; eauto.
    - intros tab l i ob G N1 N2 N3 I. eapply ref_go; eauto.
    - intros tab l vs js tab' NI G W IH. eapply list_go; eauto.
    - intros tab l d ob tab' NI G W0 (W & IH). destruct (fields_dom _ _ _ _ W) as (Dm & Nd). eapply dict_go; eauto.
    - intros tab l i dl d ob tab' NI G P Gi Gd W0 (W & IH) V. destruct (fields_dom _ _ _ _ W) as (Dm & Nd).
      destruct (lk_parts l i V G P dl d Gi Gd) as (Nm0 & Sn & F & [(Fo & At)|(Ab & Sc)]).
      + eapply found_go; eauto.
      + eapply absent_go; eauto.
    - intros tab l j NI Ho. apply hole_go; auto.
    - intros tab. apply nil_go.
    - intros tab v j tab1 vs js tab2 W1 IH1 W2 IH2. eapply cons_go; eauto.
    - intros tab. split; [constructor|apply fnil_go].
    - intros tab a v j tab1 d ob tab2 Wn Na Nf Ni W1 IH1 W0 (W2 & IH2). split; [econstructor; eauto|]. eapply fcons_go; eauto.
  Qed.
End lack.

(** nothing lost *)
Lemma members_calls w w' k cl h mem ok : with_members w w' k cl h mem ok -> with_calls w w' k cl h mem (fun _ => False) ok.
Proof. intros L v V. destruct (L v V) as [H|H]; auto. Qed.
(** without members *)
Lemma lacking_members w w' k cl h ok : lacking w w' cl h ok -> with_members w w' k cl h (fun _ => None) ok.
Proof. intros L v V. right. split; [discriminate|apply L; auto]. Qed.
Lemma all_goes w w' k fs cl h uo ok : lacking w w' cl h ok -> uo_keys uo = false -> uo_v1 uo = false -> uo_missing uo <> MError ->
  (forall f n, uo_missing uo = MCall f -> f n = None) -> forall tab v j tab', written w k fs h tab v j tab' -> ok v -> jwf j = true.
Proof.
  intros L U1 U2 U3 U4 tab v j tab' W V.
  apply (proj1 (all_goes_m w w' k fs cl h uo ok (fun _ => None) 0 ltac:(discriminate) ltac:(discriminate) (fun _ => False) (members_calls _ _ _ _ _ _ _ (lacking_members w w' k cl h ok L)) U1 U2 U3 U4) _ _ _ _ W V).
Qed.
