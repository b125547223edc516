(** Consequences of the round trip: copies seen through paths, and a way to check that a
    concrete graph is supported. *)
From Verif Require Import PyStr Tags Json JsonText JsonTextProofs Base Heap Registry LoadClass Pickler Unpickler SpecGraph RTBase RTMain PTerm PSame.
Open Scope nat_scope.

Section det.
  Variables (w : world) (k : hooks) (keys : bool) (cl : list (pystr * val)) (h : heap).
  Notation cls := (w_cls w).
  Lemma ctor_det c l cs a kw cs' a' kw' : ctor k h c l cs a kw -> ctor k h c l cs' a' kw' -> cs = cs' /\ a = a' /\ kw = kw'.
  Proof.
    intros A B. inversion A; subst; inversion B; subst; repeat split; congruence.
  Qed.
  Lemma state_excl c l st : no_state w k h c l -> own_state w k h c l st -> False.
  Proof.
    intros [N|(s & N & T & _)] (O1 & O2 & O3 & _); congruence.
  Qed.
  Lemma state_det c l st st' : own_state w k h c l st -> own_state w k h c l st' -> st = st'.
  Proof. intros (_ & A & _) (_ & B & _). congruence. Qed.
  Lemma handled_ordinary l i hd pre vs : handled w l i hd pre vs -> ordinary w k l i -> False.
  Proof. intros (_ & E & _) [N _]. unfold no_handler in N. congruence. Qed.
  Lemma handled_class l i hd pre vs n kws : handled w l i hd pre vs -> class_ok w cl (i_cls i) n kws -> False.
  Proof. intros (_ & E & _) (_ & _ & N & _). congruence. Qed.
  Lemma handled_reduced l i hd pre vs f args mkrec st li xs di d : handled w l i hd pre vs -> reduced w k h l i f args mkrec st li xs di d -> False.
  Proof. intros (_ & E & _) R. pose proof (rd_handler _ _ _ _ _ _ _ _ _ _ _ _ _ R) as N. unfold no_handler in N. congruence. Qed.
  Lemma reduced_none l i f args mkrec st li xs di d : reduced w k h l i f args mkrec st li xs di d -> no_reduce k (cls (i_cls i)) l -> False.
  Proof.
    intros R N. pose proof (rd_has _ _ _ _ _ _ _ _ _ _ _ _ _ R) as A. destruct (rd_val _ _ _ _ _ _ _ _ _ _ _ _ _ R) as (rl & B & _).
    destruct N as [N|[N|N]]; congruence.
  Qed.
  Lemma flat_det c vs mk sc : asks_flatten w c vs mk sc -> forall vs2 mk2, asks_flatten w c vs2 mk2 sc ->
    vs = vs2 /\ forall js, length js = length vs -> mk js = mk2 js.
  Proof.
    induction 1 as [mk|v vs mk kk NC A IH|vs mk kk A IH]; intros vs2 mk2 B.
    - inversion B as [m2 E|v2 vs2' m2 kk2|vs2' m2 kk2]; subst; split; auto. intros [|]; [|discriminate]. congruence.
    - inversion B as [m2|v2 vs2' m2 kk2 N2 B2|vs2' m2 kk2]; subst; [|congruence].
      destruct (IH JNull _ _ (B2 JNull)) as [-> _]. split; auto.
      intros [|j js] L; [discriminate|]. injection L as L. destruct (IH j _ _ (B2 j)) as [_ X]. apply (X js); auto.
    - inversion B as [m2|v2 vs2' m2 kk2 N2 B2|vs2' m2 kk2 B2]; subst; [congruence|]. auto.
  Qed.
  Lemma rest_det c vs js b1 sc : asks_restore w c vs js b1 sc -> (forall j, In j js -> j = JNull) ->
    forall b2, asks_restore w c vs js b2 sc -> b1 vs = b2 vs.
  Proof.
    induction 1 as [b1|v vs j js b1 kk NV A IH|vs js b1 kk A IH]; intros HJ b2 B.
    - inversion B; subst. congruence.
    - inversion B as [b|v2 vs2 j2 js2 b kk2 NV2 B2|vs2 js2 b kk2 B2]; subst.
      + apply (IH v (fun _ => eq_refl)) with (b2 := fun x => b2 (v :: x)); auto. intros; apply HJ; right; auto.
      + specialize (HJ (class_doc w c) (or_introl eq_refl)). discriminate HJ.
    - inversion B as [b|v2 vs2 j2 js2 b kk2 NV2 B2|vs2 js2 b kk2 B2]; subst.
      + specialize (HJ (class_doc w c) (or_introl eq_refl)). discriminate HJ.
      + apply IH; auto.
  Qed.
  Lemma handled_det l i hd pre vs hd2 pre2 vs2 : handled w l i hd pre vs -> handled w l i hd2 pre2 vs2 -> hd = hd2 /\ pre = pre2 /\ vs = vs2.
  Proof.
    intros (_ & E & _ & _ & mk & A & A2) (_ & E2 & _ & _ & mk2 & B & B2). assert (hd = hd2) by congruence. subst hd2. split; auto.
    destruct (flat_det _ _ _ _ (A None) _ _ (B None)) as [<- EM]. split; auto.
    set (js := map (fun _ => JNull) vs). assert (L : length js = length vs) by (unfold js; apply map_length).
    assert (W : forallb jwf js = true) by (unfold js; clear; induction vs; simpl; auto).
    destruct (A2 js L W) as (_ & _ & R1), (B2 js L W) as (_ & _ & R2). specialize (EM js L). injection EM as EM. rewrite <- EM in R2.
    pose proof (rest_det _ _ _ _ _ (R1 None) ltac:(intros j Hj; unfold js in Hj; apply in_map_iff in Hj; destruct Hj as (? & <- & _); reflexivity) _ (R2 None)) as X. simpl in X. eapply app_inv_tail; eauto.
  Qed.
  Lemma reduced_det l i f args mkrec st li xs di d f2 args2 mkrec2 st2 li2 xs2 di2 d2 :
    reduced w k h l i f args mkrec st li xs di d -> reduced w k h l i f2 args2 mkrec2 st2 li2 xs2 di2 d2 ->
    f = f2 /\ args = args2 /\ st = st2 /\ li = li2 /\ di = di2 /\ (forall a, mkrec a = mkrec2 a) /\ xs = xs2 /\ d = d2.
  Proof.
    intros A B. destruct (rd_val _ _ _ _ _ _ _ _ _ _ _ _ _ A) as (rl & A1 & _ & A2), (rd_val _ _ _ _ _ _ _ _ _ _ _ _ _ B) as (rl2 & B1 & _ & B2).
    rewrite A1 in B1. injection B1 as <-. rewrite A2 in B2. injection B2 as <- <- <- <- <-. repeat (split; [auto; fail|]).
    pose proof (rd_make _ _ _ _ _ _ _ _ _ _ _ _ _ A) as MA. pose proof (rd_make _ _ _ _ _ _ _ _ _ _ _ _ _ B) as MB.
    pose proof (rd_list _ _ _ _ _ _ _ _ _ _ _ _ _ A) as LA. pose proof (rd_list _ _ _ _ _ _ _ _ _ _ _ _ _ B) as LB.
    pose proof (rd_dict _ _ _ _ _ _ _ _ _ _ _ _ _ A) as DA. pose proof (rd_dict _ _ _ _ _ _ _ _ _ _ _ _ _ B) as DB.
    split; [|split].
    - destruct MA as [f args [(t & -> & N)|(g & -> & N)] _|g args N _]; inversion MB as [? ? [(t2 & E & N2)|(g2 & E & N2)] _|? ? N2 _]; subst; auto; congruence.
    - inversion LA; subst; inversion LB; subst; auto; congruence.
    - clear - DA DB. inversion DA as [|E|dd K1 K2 K3 E]; subst; inversion DB as [|E2|dd2 K4 K5 K6 E2]; subst; auto.
      + destruct d2; [auto|discriminate].
      + destruct d; [auto|discriminate].
      + revert d2 E2 DA DB K5 K6. clear. induction d as [|[a b] d IH]; intros [|[a2 b2] d2] E _ _ _ _; try discriminate; auto.
        injection E as <- <- E. f_equal. clear - E. revert d2 E. induction d as [|[a b] d IH]; intros [|[a2 b2] d2] E; try discriminate; auto.
        injection E as <- <- E. f_equal. auto.
  Qed.
  Lemma shape_det l cs cs' : shape w k keys cl h l cs -> shape w k keys cl h l cs' -> cs = cs'.
  Proof.
    intros A B; destruct A; destruct B;
      try (match goal with E1 : hget h ?x = _, E2 : hget h ?x = _ |- _ => rewrite E1 in E2; try discriminate; injection E2 as E2; try subst end);
      try reflexivity; try congruence;
      repeat match goal with c := _ |- _ => subst c end;
      try (exfalso; match goal with H1 : handled _ _ _ _ _ _, H2 : class_ok _ _ _ _ _ |- _ => exact (handled_class _ _ _ _ _ _ _ H1 H2) end);
      try (exfalso; match goal with H1 : handled _ _ _ _ _ _, H2 : reduced _ _ _ _ _ _ _ _ _ _ _ _ _ |- _ => exact (handled_reduced _ _ _ _ _ _ _ _ _ _ _ _ _ H1 H2) end);
      try (exfalso; match goal with H1 : reduced _ _ _ _ _ _ _ _ _ _ _ _ _, H2 : no_reduce _ _ _ |- _ => exact (reduced_none _ _ _ _ _ _ _ _ _ _ H1 H2) end);
      try (match goal with H1 : handled _ _ _ _ _ _, H2 : handled _ _ _ _ _ _ |- _ => destruct (handled_det _ _ _ _ _ _ _ _ H1 H2) as (_ & _ & ->); reflexivity end);
      try (match goal with H1 : reduced _ _ _ _ _ _ _ _ _ _ _ _ _, H2 : reduced _ _ _ _ _ _ _ _ _ _ _ _ _ |- _ =>
        destruct (reduced_det _ _ _ _ _ _ _ _ _ _ _ _ _ _ _ _ _ _ H1 H2) as (-> & -> & -> & -> & -> & _); reflexivity end);
      try (match goal with H1 : no_state _ _ _ _ _, H2 : own_state _ _ _ _ _ _ |- _ => destruct (state_excl _ _ _ H1 H2) end);
      try (match goal with C1 : ctor _ _ ?c ?l ?a ?b ?d, C2 : ctor _ _ ?c ?l ?a' ?b' ?d' |- _ => destruct (ctor_det _ _ _ _ _ _ _ _ C1 C2) as (-> & -> & ->) end);
      try (match goal with C1 : own_state _ _ _ _ _ ?a, C2 : own_state _ _ _ _ _ ?b |- _ => pose proof (state_det _ _ _ _ C1 C2) end);
      try congruence;
      try (exfalso; match goal with H : _ \/ _ /\ _ |- _ => destruct H as [?|[? _]] end; congruence).
    - destruct (i_dict i0) as [d|]; [|destruct H7 as [_ ->], H18 as [_ ->]; auto].
      destruct H7 as (_ & A & _), H18 as (_ & B & _). rewrite A in B. injection B as ->. reflexivity.
  Qed.

  (** Reachability stays within a set that is closed. *)
  Definition closed (P : list val) : Prop :=
    forall x, In x P ->
      match x with
      | VTuple xs => incl xs P
      | VLoc l => exists cs, shape w k keys cl h l cs /\ incl cs P
      | _ => True
      end.
  Lemma closed_reach P x y : closed P -> In x P -> reach w k keys cl h x y -> In y P.
  Proof.
    intros C I R. induction R as [|a x y S R IH]; auto. apply IH. specialize (C a I). destruct S as [xs x Hx|l cs x Sh Hx].
    - apply C; auto.
    - destruct C as (cs2 & S2 & C). apply C. rewrite (shape_det l cs2 cs); auto.
  Qed.
  Lemma closed_supported P v : closed P -> In v P -> (forall x, In x P -> node_ok w k keys cl h x) -> supported w k keys cl h v.
  Proof. intros C I N x R. apply N. eapply closed_reach; eauto. Qed.
End det.

(** ** Paths *)
Section paths.
  Variables (w : world) (k : hooks) (keys : bool) (h h' : heap) (b : nat) (R : loc -> loc -> Prop).
  Notation cls := (w_cls w).
  Notation vm := (vmatch h h' b R).
  Hypothesis OM : forall l l', R l l' -> omatch w k keys h h' b b R l l'.

  Lemma forall2_at xs ys n : Forall2 vm xs ys -> omatch_opt h h' b R (nth_error xs n) (nth_error ys n).
  Proof.
    intros F. revert n. induction F as [|x y xs ys H F IH]; intros [|n]; simpl; auto.
  Qed.
  Lemma val_eqb_vm q : pure q = true -> forall x x', vm x x' -> val_eqb q x' = val_eqb q x.
  Proof.
    induction q as [|z|z|z|z|z|l IH|z|z|z|z|z|z|z] using val_ind'; intros P x x' M; try discriminate P;
      try (inversion M as [? A|xs ys F|l0 l' xs ys G L G' F|l0 l' b0 G L G'|l0 l' Rl]; subst; reflexivity).
    inversion M as [? A|xs ys F|l0 l' xs ys G L G' F|l0 l' b0 G L G'|l0 l' Rl]; subst; try reflexivity.
    cbn [val_eqb]. clear M. cbn [pure] in P. revert xs ys F. induction IH as [|q l Hq _ IHl]; intros xs ys F; destruct F as [|x y xs ys Mx F]; auto.
    cbn [forallb] in P. apply andb_true_iff in P as [P1 P2]. rewrite (Hq P1 _ _ Mx), (IHl P2 _ _ F). reflexivity.
  Qed.
  Lemma norm_vm x x' : vm x x' -> vm (norm_key x) (norm_key x').
  Proof.
    assert (C : forall x x', vm x x' -> atom x = true /\ x' = x \/ (exists xs ys, x = VTuple xs /\ x' = VTuple ys /\ Forall2 vm xs ys) \/ exists l l', x = VLoc l /\ x' = VLoc l').
    { intros y y' M. inversion M; subst; eauto 10. }
    revert x'. induction x as [|z|z|z|z|z|l IH|z|z|z|z|z|z|z] using val_ind'; intros x' M;
      destruct (C _ _ M) as [[A ->]|[(xs & ys & E1 & -> & F)|(l0 & l' & E1 & ->)]]; try discriminate; auto;
      try (cbn [norm_key]; apply vm_atom; reflexivity).
    injection E1 as <-. cbn [norm_key]. apply vm_tuple. clear C M. induction F as [|x y l ys Mx F IHF]; [constructor|].
    inversion IH as [|? ? Hx IHr]; subst. constructor; auto.
  Qed.
  Lemma norm_pure q : pure q = true -> pure (norm_key q) = true.
  Proof.
    induction q as [|z|z|z|z|z|l IH|z|z|z|z|z|z|z] using val_ind'; intros P; try discriminate P; auto.
    cbn [norm_key pure] in *. induction IH as [|q l Hq _ IHl]; auto. cbn [forallb map] in *. apply andb_true_iff in P as [P1 P2].
    rewrite Hq, IHl; auto.
  Qed.
  Lemma key_eqb_vm q x x' : pure q = true -> vm x x' -> key_eqb q x' = key_eqb q x.
  Proof. intros P M. unfold key_eqb. apply val_eqb_vm; [apply norm_pure; auto|apply norm_vm; auto]. Qed.
  Lemma dget_at q d d' : pure q = true -> Forall2 (pmatch h h' b R) d d' -> omatch_opt h h' b R (dget q d) (dget q d').
  Proof.
    intros P F. induction F as [|[x v] [x' v'] d d' [E M] F IH]; simpl; auto. cbn [fst snd] in E, M. rewrite (key_eqb_vm q x x'); auto.
    destruct (key_eqb q x); auto.
  Qed.
  Lemma pure_copy x x' : vm x x' -> pure x = true -> x' = x.
  Proof.
    intros M P. pose proof (val_eqb_vm x P x x' M) as E. rewrite val_eqb_refl in E. apply val_eqb_eq in E. auto.
  Qed.
  Lemma is_str_vm x x' : vm x x' -> is_str x' = is_str x.
  Proof. intros M. inversion M; reflexivity. Qed.
  Lemma non_strings_match d d' : Forall2 (pmatch h h' b R) d d' -> Forall2 (pmatch h h' b R) (non_strings d) (non_strings d').
  Proof.
    intros F. unfold non_strings. induction F as [|[x v] [x' v'] d d' [E M] F IH]; simpl; auto. cbn [fst snd] in E, M.
    rewrite (is_str_vm _ _ E). destruct (is_str x); simpl; auto. constructor; auto. split; auto.
  Qed.
  Lemma nth_fst d d' n : Forall2 (pmatch h h' b R) d d' -> omatch_opt h h' b R (option_map fst (nth_error d n)) (option_map fst (nth_error d' n)).
  Proof. intros F. revert n. induction F as [|[x v] [x' v'] d d' [E M] F IH]; intros [|n]; simpl; auto. Qed.
  Lemma nth_snd d d' n : Forall2 (pmatch h h' b R) d d' -> omatch_opt h h' b R (option_map snd (nth_error d n)) (option_map snd (nth_error d' n)).
  Proof. intros F. revert n. induction F as [|[x v] [x' v'] d d' [E M] F IH]; intros [|n]; simpl; auto. Qed.
  Lemma is_str_key q x : key_eqb q x = true -> is_str q = is_str x.
  Proof. unfold key_eqb. rewrite val_eqb_eq. destruct q, x; simpl; intros E; try discriminate; auto. Qed.
  Lemma dget_app q d d' : dget q (d ++ d') = match dget q d with Some v => Some v | None => dget q d' end.
  Proof. induction d as [|[x v] d IH]; simpl; auto. destruct (key_eqb q x); auto. Qed.
  Lemma dget_filter_str (f : bool -> bool) q d : dget q (filter (fun kv => f (is_str (fst kv))) d) = if f (is_str q) then dget q d else None.
  Proof.
    induction d as [|[x v] d IH]; simpl; [destruct (f (is_str q)); auto|].
    destruct (key_eqb q x) eqn:E.
    - rewrite <- (is_str_key _ _ E). destruct (f (is_str q)) eqn:F; simpl; [rewrite E; auto|rewrite IH; reflexivity].
    - destruct (f (is_str x)); simpl; [rewrite E|]; apply IH.
  Qed.
  Lemma dget_filter (f : val -> bool) q d : (forall x, key_eqb q x = true -> f x = f q) ->
    dget q (filter (fun kv => f (fst kv)) d) = if f q then dget q d else None.
  Proof.
    intros HF. induction d as [|[x v] d IH]; simpl; [destruct (f q); auto|].
    destruct (key_eqb q x) eqn:E.
    - rewrite (HF _ E). destruct (f q) eqn:F; simpl; [rewrite E; auto|exact IH].
    - destruct (f x); simpl; [rewrite E|]; apply IH.
  Qed.
  Lemma esc_key q x : key_eqb q x = true -> is_escaped keys x = is_escaped keys q.
  Proof. unfold key_eqb. rewrite val_eqb_eq. destruct q, x; simpl; intros E; try discriminate; auto. injection E as <-. reflexivity. Qed.
  Lemma dget_dict_order q d : dget q (dict_order keys d) = dget q d.
  Proof.
    unfold dict_order, non_strings. rewrite !dget_app.
    rewrite (dget_filter (fun x => is_str x && negb (is_escaped keys x))) by (intros x E; rewrite (esc_key _ _ E), (is_str_key _ _ E); reflexivity).
    rewrite (dget_filter (is_escaped keys)) by (intros x E; apply esc_key; auto).
    rewrite (dget_filter (fun x => negb (is_str x))) by (intros x E; rewrite (is_str_key _ _ E); reflexivity).
    assert (X : is_str q = false -> is_escaped keys q = false) by (destruct q; simpl; auto; discriminate).
    destruct (is_str q), (is_escaped keys q); simpl; try rewrite X by reflexivity; destruct (dget q d); auto.
  Qed.
  Lemma filter_none {A} (f : A -> bool) l : (forall x, In x l -> f x = false) -> filter f l = [].
  Proof. induction l as [|x l IH]; intros H; simpl; auto. rewrite H by (left; auto). apply IH. intros; apply H; right; auto. Qed.
  Lemma filter_twice {A} (f : A -> bool) l : filter f (filter f l) = filter f l.
  Proof. induction l as [|x l IH]; simpl; auto. destruct (f x) eqn:E; simpl; [rewrite E, IH|]; auto. Qed.
  Lemma non_strings_order d : non_strings (dict_order keys d) = non_strings d.
  Proof.
    unfold dict_order, non_strings. rewrite !filter_app, filter_twice.
    rewrite filter_none, filter_none; auto; intros [x v] I; apply filter_In in I as [_ I]; cbn [fst] in *; destruct x; simpl in *; auto; discriminate.
  Qed.
  Lemma non_strings_first d : non_strings (strings_first d) = non_strings d.
  Proof.
    unfold strings_first, non_strings. rewrite filter_app, filter_twice.
    rewrite filter_none; auto; intros [x v] I; apply filter_In in I as [_ I]; cbn [fst] in *; destruct x; simpl in *; auto; discriminate.
  Qed.
  Lemma dget_strings_first q d : dget q (strings_first d) = dget q d.
  Proof.
    unfold strings_first. rewrite dget_app. rewrite (dget_filter_str (fun b => b)), (dget_filter_str negb).
    destruct (is_str q); simpl; [destruct (dget q d); auto|auto].
  Qed.

  Notation gs := (given_state w k h).
  Notation rs := (received_state h').
  Lemma at_pos_copy v v' p : vm v v' -> (forall q, p = PKey q -> pure q = true) ->
    (forall l i, v = VLoc l -> hget h l = Some (OInst i) -> ordinary w k l i /\ (p <> PState -> no_state w k h (cls (i_cls i)) l /\
       forall a, p = PAttr a -> kept (cls (i_cls i)) a = true)) ->
    omatch_opt h h' b R (at_pos cls gs h v p) (at_pos cls rs h' v' p).
  Proof.
    intros M KP EP. destruct M as [v A|xs ys F|l l' xs ys G L G' F|l l' x G L G'|l l' Rl].
    - destruct v; try discriminate A; exact I.
    - destruct p; simpl; auto. apply forall2_at; auto.
    - simpl. rewrite G, G'. destruct p; simpl; auto. apply forall2_at; auto.
    - simpl. rewrite G, G'. exact I.
    - destruct (OM l l' Rl) as [xs ys G L G' F|d d' G L G' F|i i' G L G' EC IM]; simpl; rewrite G, G'.
      + destruct p; simpl; auto. apply forall2_at; auto.
      + destruct p as [n|q|n|n|a|]; simpl; auto.
        * rewrite <- (dget_dict_order q d). apply dget_at; auto.
        * rewrite <- non_strings_order. apply nth_fst, non_strings_match; auto.
        * rewrite <- non_strings_order. apply nth_snd, non_strings_match; auto.
      + destruct (EP l i eq_refl G) as [OR EP']. clear EP. rename EP' into EP. rewrite EC.
        assert (GN : no_state w k h (cls (i_cls i)) l -> gs l = None).
        { intros NS. unfold given_state. rewrite G. destruct (c_getstate (cls (i_cls i)) && c_setstate (cls (i_cls i))) eqn:E; auto.
          destruct NS as [NS|(st & E1 & E2 & _)]; [rewrite NS in E; discriminate|]. rewrite E1, E2. reflexivity. }
        destruct IM as [cs args kw OR2 A0 B0 C D (E1 & E2 & _ & E3) F S0|cs args kw OR2 A0 B0 C D E F F2 S1 S2 S0|st st' cs args kw OR2 A0 A1 C D S0 M|sd a cs args kw OR2 A0 A1 C D A2 A3 A4 A5 S0|xa sb b2 a cs args kw OR2 A0 A1 C D A2 SD A3 A4 A5 S0|hd pre vs vs' HA _ _|f args args' mkrec st li xs di d RD _ _ _ _ _ _].
        * destruct p as [n|q|n|n|a|].
          -- destruct (c_kind (cls (i_cls i))) eqn:KK; simpl; auto; apply forall2_at; auto.
          -- destruct (c_kind (cls (i_cls i))) eqn:KK; simpl; auto. destruct (B0 eq_refl).
          -- destruct (c_kind (cls (i_cls i))) eqn:KK; simpl; auto. destruct (B0 eq_refl).
          -- destruct (c_kind (cls (i_cls i))) eqn:KK; simpl; auto. destruct (B0 eq_refl).
          -- specialize (E2 a). destruct EP as [_ KE]; [discriminate|]. rewrite (KE a eq_refl) in E2. exact E2.
          -- rewrite (GN A0). unfold received_state. rewrite G', S0. exact I.
        * destruct p as [n|q|n|n|a|].
          -- rewrite B0. simpl; auto.
          -- rewrite B0. rewrite <- (dget_strings_first q (i_items i)). apply dget_at; auto.
          -- rewrite B0, <- non_strings_first. apply nth_fst, non_strings_match; auto.
          -- rewrite B0, <- non_strings_first. apply nth_snd, non_strings_match; auto.
          -- unfold inst_attr. rewrite S1, S2. simpl. destruct (i_dict i) as [d|], (i_dict i') as [d'|]; try contradiction; auto.
             destruct F2 as [Rd|(_ & G1 & _ & G2)]; [|rewrite G1, G2; exact I].
             destruct (OM d d' Rd) as [xs ys H1 _ H2 HF|x x' H1 _ H2 HF|x x' H1 _ H2 _ _]; rewrite H1, H2; simpl; auto.
             rewrite <- (dget_dict_order (VStr a) x). apply dget_at; auto.
          -- rewrite (GN A0). unfold received_state. rewrite G', S0. exact I.
        * destruct p; try (destruct EP as [NS _]; [discriminate|destruct (state_excl w k h _ _ _ NS A0)]).
          unfold given_state, received_state. rewrite G, G', S0, A1. destruct A0 as (A0 & A2 & A3 & _). rewrite A0, A2, A3. exact M.
        * destruct p; try (destruct EP as [NS _]; [discriminate|destruct (state_excl w k h _ _ _ NS A0)]).
          unfold given_state, received_state. rewrite G, G', S0, A1, andb_false_r. exact I.
        * destruct p; try (destruct EP as [NS _]; [discriminate|destruct (state_excl w k h _ _ _ NS A0)]).
          unfold given_state, received_state. rewrite G, G', S0, A1, andb_false_r. exact I.
        * destruct (handled_ordinary w k _ _ _ _ _ HA OR).
        * destruct (reduced_none w k h _ _ _ _ _ _ _ _ _ _ RD (proj2 OR)).
  Qed.
  Lemma at_path_copy ps : forall v v', vm v v' -> encoded_path w k h v ps ->
    omatch_opt h h' b R (before w k h v ps) (after w h' v' ps).
  Proof.
    unfold before, after. induction ps as [|p ps IH]; intros v v' M EP; [exact M|]. destruct EP as (EP0 & EP1 & EP2).
    pose proof (at_pos_copy v v' p M EP0 EP1) as X. simpl.
    destruct (at_pos cls gs h v p) as [x|], (at_pos cls rs h' v' p) as [x'|]; try contradiction; auto.
  Qed.
  Lemma object_copy l v' : is_object h l = true -> vm (VLoc l) v' -> exists l', v' = VLoc l' /\ R l l'.
  Proof.
    unfold is_object. intros O M. inversion M as [v A|xs ys F|l0 l' xs ys G L G' F|l0 l' x G L G'|l0 l' Rl]; subst; try discriminate.
    - rewrite G in O. discriminate.
    - rewrite G in O. discriminate.
    - eauto.
  Qed.
End paths.

(** ** The whole statement: encode gives a text, decode gives a copy *)
Definition rt_options (po : popts) (uo : uopts) : Prop :=
  po_unpicklable po = true /\ po_make_refs po = true /\ po_max_depth po = None /\ po_props po = false /\
  po_readonly po = false /\ po_sort po = false /\ uo_keys uo = po_keys po /\ uo_v1 uo = false.

Lemma roundtrip_total w k po uo classes h dm N v : rt_options po uo ->
  supported w k (po_keys po) (class_table w classes) h v -> finite_graph w k po h dm N -> good h dm v ->
  exists text n0 m0,
    (forall n s, n0 <= n -> p_heap s = h -> exists s', encode w k po n v s = (Ret text, s') /\ p_heap s' = h) /\
    forall m t, m0 <= m -> exists v' t', decode w uo m classes text t = (Ret v', t') /\
      is_copy w k (po_keys po) h (u_heap t') (length (u_heap t)) v v' /\
      (forall x, x < length (u_heap t) -> hget (u_heap t') x = hget (u_heap t) x).
Proof.
  intros (O1 & O2 & O3 & O4 & O5 & O6 & O7 & O8) SU FG G.
  assert (D1 : 1 <= dm) by (destruct G as [_ Gv]; destruct v; cbn [vdepth] in Gv; lia).
  set (n0 := S (budget h dm N)).
  pose proof (encode_ends w k po h dm N O5 O6 (or_introl (conj O1 O2)) FG D1 n0 v (new_pickler h) eq_refl G (le_n _)) as E.
  pose proof (roundtrip w k po uo classes h O1 O2 O3 O4 O5 O6 O7 O8 n0 v (new_pickler h) eq_refl SU) as RT.
  destruct (encode w k po n0 v (new_pickler h)) as [[text|e|] s1] eqn:EE; [|destruct RT|destruct E; auto].
  destruct RT as [H1 RT]. exists text, n0, (2 * n0). split; [|exact RT].
  intros n s L Hs. pose proof (encode_state w k po n0 n v (new_pickler h) s L (eq_sym Hs)) as X. rewrite EE in X.
  destruct X as (s2 & E2 & SM). exists s2. split; auto. destruct SM as [SM _]. congruence.
Qed.

(** ** Statements about what decode(encode(v)) is *)
Definition rt_case (w : world) (k : hooks) (po : popts) (uo : uopts) (classes : option carg) (h : heap) (dm N : nat) (v : val) : Prop :=
  rt_options po uo /\ supported w k (po_keys po) (class_table w classes) h v /\ finite_graph w k po h dm N /\ good h dm v.
(** encode gives a text and leaves the objects alone; decode of that text, in any decoder,
    gives a value with property Q; [b]: objects below it existed before and are not touched. *)
Definition roundtrips (w : world) (k : hooks) (po : popts) (uo : uopts) (classes : option carg) (h : heap) (v : val)
    (Q : heap -> nat -> val -> Prop) : Prop :=
  exists text n0 m0,
    (forall n s, n0 <= n -> p_heap s = h -> exists s', encode w k po n v s = (Ret text, s') /\ p_heap s' = h) /\
    forall m t, m0 <= m -> exists v' t', decode w uo m classes text t = (Ret v', t') /\
      Q (u_heap t') (length (u_heap t)) v' /\
      (forall x, x < length (u_heap t) -> hget (u_heap t') x = hget (u_heap t) x).
Definition ocopy (w : world) (k : hooks) (keys : bool) (h h' : heap) (b : nat) (x x' : option val) : Prop :=
  match x, x' with
  | None, None => True
  | Some v, Some v' => is_copy w k keys h h' b v v'
  | _, _ => False
  end.
(** Instances at corresponding positions. *)
(** Items of dicts: keys and values are copied; immutable keys are equal. *)
Definition item_copy (w : world) (k : hooks) (keys : bool) (h h' : heap) (b : nat) (x x' : val * val) : Prop :=
  (pure (fst x) = true -> fst x' = fst x) /\ is_copy w k keys h h' b (fst x) (fst x') /\ is_copy w k keys h h' b (snd x) (snd x').
Definition at_instance (w : world) (k : hooks) (keys : bool) (h h' : heap) (b : nat) (v v' : val) (Q : loc -> inst -> inst -> Prop) : Prop :=
  forall p l i, encoded_path w k h v p -> before w k h v p = Some (VLoc l) -> hget h l = Some (OInst i) ->
  exists l' i', after w h' v' p = Some (VLoc l') /\ b <= l' /\ hget h' l' = Some (OInst i') /\
    i_cls i' = i_cls i /\ Q l i i'.

Section use.
  Variables (w : world) (k : hooks) (po : popts) (uo : uopts) (classes : option carg) (h : heap) (dm N : nat) (v : val).
  Notation cls := (w_cls w).
  Notation keys := (po_keys po).
  Hypothesis HC : rt_case w k po uo classes h dm N v.
  Lemma roundtrips_copy : roundtrips w k po uo classes h v (fun h' b v' => is_copy w k keys h h' b v v').
  Proof. destruct HC as (A & B & C & D). eapply roundtrip_total; eauto. Qed.
  Lemma roundtrips_use (Q : heap -> nat -> val -> Prop) :
    (forall h' b v', is_copy w k keys h h' b v v' -> Q h' b v') -> roundtrips w k po uo classes h v Q.
  Proof.
    intros HQ. destruct roundtrips_copy as (text & n0 & m0 & E & D). exists text, n0, m0. split; auto.
    intros m t L. destruct (D m t L) as (v' & t' & D1 & D2 & D3). exists v', t'. auto.
  Qed.
  Lemma copy_path h' b v' : is_copy w k keys h h' b v v' -> exists R : loc -> loc -> Prop,
      (forall l x y, R l x -> R l y -> x = y) /\ (forall x y l, R x l -> R y l -> x = y) /\
      (forall l l', R l l' -> omatch w k keys h h' b b R l l') /\
      forall p, encoded_path w k h v p -> omatch_opt h h' b R (before w k h v p) (after w h' v' p).
  Proof.
    intros (R & F & J & OM & M). exists R. repeat split; auto. intros p EP. eapply (at_path_copy w k keys); eauto.
  Qed.
  Lemma is_copy_of h' b (R : loc -> loc -> Prop) x x' :
      (forall l x y, R l x -> R l y -> x = y) -> (forall x y l, R x l -> R y l -> x = y) ->
      (forall l l', R l l' -> omatch w k keys h h' b b R l l') -> vmatch h h' b R x x' -> is_copy w k keys h h' b x x'.
  Proof. intros. exists R. auto. Qed.

  (** What is known about the copy of an instance. *)
  Definition inst_facts (h' : heap) (b : nat) (l : loc) (i i' : inst) : Prop :=
    let c := cls (i_cls i) in
    (* made by a handler *)
    (forall hd pre vs, handled w l i hd pre vs -> exists vs', i_rec i' = CHandler hd (pre ++ vs') /\ Forall2 (is_copy w k keys h h' b) vs vs') /\
    (* made by what __reduce__ gave *)
    (forall f args mkrec st li xs di d, reduced w k h l i f args mkrec st li xs di d ->
       (exists args', i_rec i' = mkrec args' /\ Forall2 (is_copy w k keys h h' b) args args') /\
       (truthy cls h st = false -> i_state i' = [] /\ forall x, i_dict i' = Some x -> hget h' x = Some (ODict [])) /\
       (truthy cls h st = true -> c_setstate c = true -> exists st', i_state i' = [st'] /\ is_copy w k keys h h' b st st') /\
       (truthy cls h st = true -> c_setstate c = false -> i_state i' = [] /\ exists x, i_dict i' = Some x /\ is_copy w k keys h h' b st (VLoc x)) /\
       Forall2 (is_copy w k keys h h' b) xs (i_elems i') /\
       Forall2 (fun p p' => is_copy w k keys h h' b (fst p) (fst p') /\ is_copy w k keys h h' b (snd p) (snd p')) d (i_items i') /\
       i_slots i' = []) /\
    (ordinary w k l i ->
    (* state *)
    (forall st, own_state w k h c l st -> c_setstate c = true -> exists st', i_state i' = [st'] /\ is_copy w k keys h h' b st st') /\
    (no_state w k h c l -> i_state i' = []) /\
    ((forall sd items, own_state w k h c l (VLoc sd) -> c_setstate c = false -> hget h sd = Some (ODict items) ->
       i_state i' = [] /\ (forall a, ocopy w k keys h h' b (dget (VStr a) items) (inst_attr h' i' a)) /\
       exists d' items', i_dict i' = Some d' /\ hget h' d' = Some (ODict items') /\ Forall2 (item_copy w k keys h h' b) items items') /\
     (forall x sb a slots, own_state w k h c l (VTuple [x; VLoc sb]) -> c_setstate c = false -> hget h sb = Some (ODict slots) -> state_dict h x a ->
       i_state i' = [] /\ (forall n, ocopy w k keys h h' b (dget (VStr n) (slots ++ a)) (inst_attr h' i' n)) /\
       (x <> VNone -> exists d' items', i_dict i' = Some d' /\ hget h' d' = Some (ODict items') /\ Forall2 (item_copy w k keys h h' b) a items'))) /\
    (* constructor *)
    (forall cs args kw, ctor k h c l cs args kw -> exists args' kw', i_rec i' = CNew args' kw' /\
       (c_kind c <> KDict \/ (exists st, own_state w k h c l st) -> Forall2 (is_copy w k keys h h' b) args args') /\
       (c_kind c = KDict -> no_state w k h c l -> Forall2 (is_copy w k keys h h' b) (factory_args w i ++ args) args') /\
       Forall2 (fun x x' => fst x' = fst x /\ is_copy w k keys h h' b (snd x) (snd x')) kw kw') /\
    (* attributes and contents *)
    (no_state w k h c l ->
       (forall a, kept c a = true -> ocopy w k keys h h' b (inst_attr h i a) (inst_attr h' i' a)) /\
       (forall a, kept c a = false -> c_kind c <> KDict -> inst_attr h' i' a = None) /\
       (forall items, c_kind c <> KDict -> attrs_of h i = Some items -> exists d' items', i_dict i' = Some d' /\ hget h' d' = Some (ODict items') /\
          Forall2 (item_copy w k keys h h' b) (kept_attrs c items) items') /\
       (c_kind c = KDict -> Forall2 (item_copy w k keys h h' b) (strings_first (i_items i)) (i_items i') /\
          (c_deffac c = true -> match i_fac i with Some (VType f) => i_fac i' = Some (VType f) | _ => i_fac i' = None end)) /\
       (c_kind c = KList \/ c_kind c = KSet -> Forall2 (is_copy w k keys h h' b) (i_elems i) (i_elems i')))).

  Lemma copy_instances h' b v' : is_copy w k keys h h' b v v' -> at_instance w k keys h h' b v v' (inst_facts h' b).
  Proof.
    intros CP. destruct (copy_path h' b v' CP) as (R & RF & RJ & OM & PT). intros p l i EP B G.
    specialize (PT p EP). rewrite B in PT. destruct (after w h' v' p) as [x'|]; [|destruct PT].
    destruct (object_copy h h' b R l x') as (l' & -> & Rl); [unfold is_object; rewrite G; reflexivity|exact PT|].
    destruct (OM l l' Rl) as [xs ys G1 _ _ _|xs ys G1 _ _ _|i0 i' G0 L G' EC IM]; try congruence.
    rewrite G in G0. injection G0 as <-. exists l', i'. do 4 (split; [auto|]).
    assert (IC : forall x x', vmatch h h' b R x x' -> is_copy w k keys h h' b x x') by (intros; apply (is_copy_of h' b R); auto).
    assert (IO : forall x x', omatch_opt h h' b R x x' -> ocopy w k keys h h' b x x') by (intros [x|] [x1|]; simpl; auto).
    assert (IL : forall xs xs', Forall2 (vmatch h h' b R) xs xs' -> Forall2 (is_copy w k keys h h' b) xs xs').
    { intros xs xs' F. induction F; constructor; auto. }
    assert (IP : forall xs xs', Forall2 (pmatch h h' b R) xs xs' -> Forall2 (item_copy w k keys h h' b) xs xs').
    { intros xs xs' F. induction F as [|? ? ? ? [EK ?]]; constructor; auto. split; [|auto].
      intros P. apply pure_copy in EK; auto. }
    assert (IK : forall (xs xs' : list (pystr * val)), Forall2 (fun p p' => fst p' = fst p /\ vmatch h h' b R (snd p) (snd p')) xs xs' ->
                   Forall2 (fun x x' => fst x' = fst x /\ is_copy w k keys h h' b (snd x) (snd x')) xs xs').
    { intros xs xs' F. induction F as [|? ? ? ? [? ?]]; constructor; auto. }
    assert (AT : ordinary w k l i -> no_state w k h (cls (i_cls i)) l -> forall a, kept (cls (i_cls i)) a = true -> ocopy w k keys h h' b (inst_attr h i a) (inst_attr h' i' a)).
    { intros OR NS a KA. apply IO. pose proof (at_pos_copy w k keys h h' b R OM (VLoc l) (VLoc l') (PAttr a) (vm_obj _ _ _ _ _ _ Rl)) as X.
      simpl in X. rewrite G, G' in X. apply X; [discriminate|]. intros l0 j E1 E2. injection E1 as <-. rewrite G in E2. injection E2 as <-.
      split; auto. intros _. split; auto. intros a0 E. injection E as <-. auto. }
    unfold inst_facts. cbv zeta. split; [|split].
    { intros hd pre vs HA. destruct IM as [? ? ? OR2|? ? ? OR2|? ? ? ? ? OR2|? ? ? ? ? OR2|? ? ? ? ? ? ? OR2|hd2 pre2 vs2 vs' HA2 ER FV|f args args' mkrec st li xs di d RD _ _ _ _ _ _];
        try (destruct (handled_ordinary w k _ _ _ _ _ HA OR2); fail).
      - destruct (handled_det w _ _ _ _ _ _ _ _ HA HA2) as (-> & -> & ->). eauto.
      - destruct (handled_reduced w k h _ _ _ _ _ _ _ _ _ _ _ _ _ HA RD). }
    { intros f args mkrec st li xs di d RD. destruct IM as [? ? ? OR2|? ? ? OR2|? ? ? ? ? OR2|? ? ? ? ? OR2|? ? ? ? ? ? ? OR2|hd2 pre2 vs2 vs' HA2 ER FV|f2 args2 args' mkrec2 st2 li2 xs2 di2 d2 RD2 FA ER ST FX FD SL];
        try (destruct (reduced_none w k h _ _ _ _ _ _ _ _ _ _ RD (proj2 OR2)); fail).
      - destruct (handled_reduced w k h _ _ _ _ _ _ _ _ _ _ _ _ _ HA2 RD).
      - destruct (reduced_det w k h _ _ _ _ _ _ _ _ _ _ _ _ _ _ _ _ _ _ RD RD2) as (-> & -> & -> & -> & -> & EM & -> & ->).
        split; [exists args'; rewrite EM; auto|].
        split; [intros E; rewrite E in ST; destruct ST as [ST1 ST2]; split; auto; intros x Hx; apply ST2; auto|].
        split; [intros E E2; rewrite E, E2 in ST; destruct ST as (st' & ST1 & ST2); eauto|].
        split; [intros E E2; rewrite E, E2 in ST; destruct ST as (ST1 & x & ST2 & ST3); eauto|].
        split; [auto|]. split; [|auto]. clear - FD IC. induction FD as [|? ? ? ? [? ?]]; constructor; auto. }
    intros OR.
    destruct IM as [cs args kw OR2 A0 B0 C D (E1 & E2 & _ & E3) F S0|cs args kw OR2 A0 B0 C D E F F2 S1 S2 S0|st st' cs args kw OR2 A0 A1 C D S0 M|sd a cs args kw OR2 A0 A1 C D A2 A3 A4 A5 S0|xa sb b2 a cs args kw OR2 A0 A1 C D A2 SD A3 A4 A5 S0|hd pre vs vs' HA _ _|f args args' mkrec st li xs di d RD _ _ _ _ _ _].
    - split; [intros st O; destruct (state_excl w k h _ _ _ A0 O)|]. split; [auto|]. split; [split; [intros sd its O|intros xa sb a its O]; destruct (state_excl w k h _ _ _ A0 O)|].
      split.
      { intros cs2 args2 kw2 C2. destruct (ctor_det k h _ _ _ _ _ _ _ _ C C2) as (<- & <- & <-). destruct D as (a' & kw' & D1 & D2 & D3).
        exists a', kw'. split; auto. split; auto. split; auto. intros KD. destruct (B0 KD). }
      intros _. split; [apply AT; auto|]. split.
      { intros a KA _. specialize (E2 a). rewrite KA in E2. destruct (inst_attr h' i' a); auto. destruct E2. }
      split.
      { intros items _ HA. destruct (E3 items HA) as (d' & its' & X1 & X2 & X3). exists d', its'. auto. }
      split; [intros KD; destruct (B0 KD)|auto].
    - split; [intros st O; destruct (state_excl w k h _ _ _ A0 O)|]. split; [auto|]. split; [split; [intros sd its O|intros xa sb a its O]; destruct (state_excl w k h _ _ _ A0 O)|].
      split.
      { intros cs2 args2 kw2 C2. destruct (ctor_det k h _ _ _ _ _ _ _ _ C C2) as (<- & <- & <-). destruct D as (a' & kw' & D1 & D2 & D3).
        exists a', kw'. split; auto. split; auto. intros [N1|(st & O)]; [congruence|destruct (state_excl w k h _ _ _ A0 O)]. }
      intros _. split; [apply AT; auto|]. split; [congruence|]. split; [congruence|]. split; [auto|]. intros [X|X]; congruence.
    - split.
      { intros st2 O _. rewrite (state_det w k h _ _ _ _ O A0). exists st'. auto. }
      split; [intros NS; destruct (state_excl w k h _ _ _ NS A0)|]. split; [split; congruence|]. split.
      { intros cs2 args2 kw2 C2. destruct (ctor_det k h _ _ _ _ _ _ _ _ C C2) as (<- & <- & <-). destruct D as (a' & kw' & D1 & D2 & D3).
        exists a', kw'. split; auto. split; auto. split; auto. intros _ NS. destruct (state_excl w k h _ _ _ NS A0). }
      intros NS. destruct (state_excl w k h _ _ _ NS A0).
    - split; [congruence|]. split; [intros NS; destruct (state_excl w k h _ _ _ NS A0)|]. split.
      { split; [|intros x sb a2 its O _ Hs _; pose proof (state_det w k h _ _ _ _ O A0) as X; discriminate].
        intros sd2 its O _ Hs. pose proof (state_det w k h _ _ _ _ O A0) as X. injection X as ->. rewrite Hs in A2. injection A2 as ->.
        split; auto. split; [auto|]. destruct A5 as (d' & its' & X1 & X2 & X3). exists d', its'. auto. }
      split.
      { intros cs2 args2 kw2 C2. destruct (ctor_det k h _ _ _ _ _ _ _ _ C C2) as (<- & <- & <-). destruct D as (a' & kw' & D1 & D2 & D3).
        exists a', kw'. split; auto. split; auto. split; auto. intros _ NS. destruct (state_excl w k h _ _ _ NS A0). }
      intros NS. destruct (state_excl w k h _ _ _ NS A0).
    - split; [congruence|]. split; [intros NS; destruct (state_excl w k h _ _ _ NS A0)|]. split.
      { split; [intros sd2 its O _ Hs; pose proof (state_det w k h _ _ _ _ O A0) as X; discriminate|].
        intros x sb2 a2 its O _ Hs SD2. pose proof (state_det w k h _ _ _ _ O A0) as X. injection X as -> ->. rewrite Hs in A2. injection A2 as ->.
        assert (a2 = a) as ->.
        { destruct SD as [[-> ->]|(sa & -> & SA)], SD2 as [[E ->]|(sa2 & E & SA2)]; try discriminate; auto. injection E as <-. congruence. }
        split; auto. split; [intros n; rewrite dget_app; apply IO, A4|]. intros NN. destruct (A5 NN) as (d' & its' & X1 & X2 & X3). exists d', its'. auto. }
      split.
      { intros cs2 args2 kw2 C2. destruct (ctor_det k h _ _ _ _ _ _ _ _ C C2) as (<- & <- & <-). destruct D as (a' & kw' & D1 & D2 & D3).
        exists a', kw'. split; auto. split; auto. split; auto. intros _ NS. destruct (state_excl w k h _ _ _ NS A0). }
      intros NS. destruct (state_excl w k h _ _ _ NS A0).
    - destruct (handled_ordinary w k _ _ _ _ _ HA OR).
    - destruct (reduced_none w k h _ _ _ _ _ _ _ _ _ _ RD (proj2 OR)).
  Qed.
  Lemma roundtrips_instances (Q : heap -> nat -> loc -> inst -> inst -> Prop) :
    (forall h' b l i i', inst_facts h' b l i i' -> Q h' b l i i') ->
    roundtrips w k po uo classes h v (fun h' b v' => at_instance w k keys h h' b v v' (Q h' b)).
  Proof.
    intros HQ. apply roundtrips_use. intros h' b v' CP p l i E B G.
    destruct (copy_instances h' b v' CP p l i E B G) as (l' & i' & X1 & X2 & X3 & X4 & X5). exists l', i'. auto 10.
  Qed.
End use.
