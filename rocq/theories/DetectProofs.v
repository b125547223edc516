(** Proofs for C51. *)
From Verif Require Import PyStr Base Json Detect SpecDetect.
From Coq Require Import List Lia. Import ListNotations.
Open Scope nat_scope.

Section detect.
  Variable kl : nat -> klass.
  Variable mro : nat -> list nat.
  Variables (c_object c_dict c_list c_set c_tuple c_modtype c_defaultdict c_struct : nat).
  Variable nonreducible : list nat.
  Notation finds := (finds kl).

  Lemma first_def_finds name l c a : first_def kl name l = Some (c, a) <-> finds l name c a.
  Proof.
    induction l as [|x l IH]; cbn [first_def].
    - split; [discriminate|]. intros (p & q & E & _). destruct p; discriminate.
    - destruct (sget name (kl_dict (kl x))) as [b|] eqn:G.
      + split.
        * intros E. inversion E; subst. exists [], l. repeat split; auto. intros d [].
        * intros (p & q & E & G1 & F). destruct p as [|y p].
          { inversion E; subst. congruence. }
          { inversion E; subst. rewrite (F y (or_introl eq_refl)) in G. discriminate. }
      + rewrite IH. split.
        * intros (p & q & -> & G1 & F). exists (x :: p), q. repeat split; auto. intros d [<-|I]; auto.
        * intros (p & q & E & G1 & F). destruct p as [|y p].
          { inversion E; subst. congruence. }
          { inversion E; subst. exists p, q. repeat split; auto. intros d I. apply F. right. exact I. }
  Qed.
  Lemma shas_sget name (d : list (pystr * attr)) : shas name d = match sget name d with Some _ => true | None => false end.
  Proof. unfold shas. destruct (sget name d); reflexivity. Qed.

  Hypothesis WF : wf_classes kl mro c_object.
  (** The two names are methods wherever they are defined. *)
  Hypothesis TR : forall c name a, name = REDUCE_ \/ name = REDUCE_EX -> sget name (kl_dict (kl c)) = Some a -> attr_truthy a = true.

  Definition over (name : pystr) (l : list nat) : bool :=
    existsb (fun b => negb (Nat.eqb b c_object) && defines kl name b) l.

  (** The loop only ever turns a flag on for a class other than object that defines the name. *)
  Lemma loop_sound l : forall r rx r1 rx1 done, mro_loop kl mro c_object l r rx = (r1, rx1, done) ->
    (r1 = true -> r = true \/ over REDUCE_ l = true) /\ (rx1 = true -> rx = true \/ over REDUCE_EX l = true) /\
    (done = true -> r1 = true /\ rx1 = true) /\ (r = true -> r1 = true) /\ (rx = true -> rx1 = true).
  Proof.
    induction l as [|b l IH]; intros r rx r1 rx1 done E; cbn [mro_loop] in E.
    - inversion E; subst. repeat split; auto; discriminate.
    - set (r' := if reducible_cls kl mro c_object b then r || defines kl REDUCE_ b else r) in *.
      set (rx' := if reducible_cls kl mro c_object b then rx || defines kl REDUCE_EX b else rx) in *.
      assert (NO : reducible_cls kl mro c_object b = true -> negb (Nat.eqb b c_object) = true).
      { unfold reducible_cls. intros H. destruct (Nat.eqb b c_object); [discriminate|reflexivity]. }
      assert (R1 : r' = true -> r = true \/ over REDUCE_ (b :: l) = true).
      { unfold r', over. cbn [existsb]. destruct (reducible_cls kl mro c_object b) eqn:Rb; [|auto]. rewrite (NO eq_refl).
        intros H. apply orb_true_iff in H. destruct H as [H|H]; [auto|right; rewrite H; reflexivity]. }
      assert (R2 : rx' = true -> rx = true \/ over REDUCE_EX (b :: l) = true).
      { unfold rx', over. cbn [existsb]. destruct (reducible_cls kl mro c_object b) eqn:Rb; [|auto]. rewrite (NO eq_refl).
        intros H. apply orb_true_iff in H. destruct H as [H|H]; [auto|right; rewrite H; reflexivity]. }
      assert (M1 : r = true -> r' = true) by (unfold r'; intros ->; destruct (reducible_cls kl mro c_object b); reflexivity).
      assert (M2 : rx = true -> rx' = true) by (unfold rx'; intros ->; destruct (reducible_cls kl mro c_object b); reflexivity).
      destruct (r' && rx') eqn:B.
      + inversion E; subst. apply andb_true_iff in B. destruct B as [B1 B2]. repeat split; auto.
      + destruct (IH _ _ _ _ _ E) as (I1 & I2 & I3 & I4 & I5). repeat split; auto; try apply I3; auto.
        * intros H. destruct (I1 H) as [H1|H1]; [auto|]. right. unfold over in *. cbn [existsb]. rewrite H1. apply orb_true_r.
        * intros H. destruct (I2 H) as [H1|H1]; [auto|]. right. unfold over in *. cbn [existsb]. rewrite H1. apply orb_true_r.
  Qed.
  Lemma over_first name c : name = REDUCE_ \/ name = REDUCE_EX -> over name (mro c) = true -> exists d a, finds (mro c) name d a /\ d <> c_object.
  Proof.
    intros Hn. destruct WF as (W1 & _). destruct (W1 c) as (l & E & N). rewrite E.
    assert (X : forall l2, ~ In c_object l2 -> over name (l2 ++ [c_object]) = true -> exists d a, finds (l2 ++ [c_object]) name d a /\ d <> c_object).
    { induction l2 as [|b l2 IH]; intros N2 H; unfold over in H; cbn [app existsb] in H.
      - rewrite Nat.eqb_refl in H. discriminate.
      - destruct (sget name (kl_dict (kl b))) as [a|] eqn:G.
        + exists b, a. split; [|intros ->; apply N2; left; reflexivity]. exists [], (l2 ++ [c_object]). repeat split; auto. intros d [].
        + unfold defines in H. rewrite shas_sget, G, andb_false_r in H. cbn [orb] in H.
          destruct IH as (d & a & (p & q & E1 & G1 & F) & Hd); [intros I; apply N2; right; exact I|exact H|].
          exists d, a. split; [|exact Hd]. exists (b :: p), q. split; [cbn [app]; f_equal; exact E1|]. split; [exact G1|]. intros y [<-|I]; auto. }
    apply X. exact N.
  Qed.
  Lemma finds_over name c d a : finds (mro c) name d a -> d <> c_object -> over name (mro c) = true.
  Proof.
    intros (p & q & E & G & _) Nd. unfold over. rewrite existsb_exists. exists d. split; [rewrite E; apply in_elt|].
    apply andb_true_iff. split; [apply negb_true_iff; apply Nat.eqb_neq; exact Nd|]. unfold defines. rewrite shas_sget, G. reflexivity.
  Qed.
  Lemma finds_fun l name c a d b : finds l name c a -> finds l name d b -> c = d /\ a = b.
  Proof. intros F1 F2. apply first_def_finds in F1. apply first_def_finds in F2. rewrite F1 in F2. inversion F2. auto. Qed.

  (** Final value of one flag: true exactly if a class other than object defines the name. *)
  Lemma by_getattr_spec name c found : name = REDUCE_ \/ name = REDUCE_EX -> (found = true -> over name (mro c) = true) ->
    by_getattr kl mro c_object c name found = over name (mro c).
  Proof.
    intros Hn Hf. unfold by_getattr, cls_attr. destruct found; [symmetry; auto|].
    destruct (first_def kl name (mro c)) as [[b a]|] eqn:F.
    - apply first_def_finds in F. destruct (Nat.eqb b c_object) eqn:Eb.
      + cbn [negb andb]. destruct (over name (mro c)) eqn:O; [|reflexivity]. exfalso.
        destruct (over_first name c Hn O) as (d & a2 & F2 & Nd). destruct (finds_fun _ _ _ _ _ _ F F2) as [<- _].
        apply Nd. apply Nat.eqb_eq. exact Eb.
      + apply Nat.eqb_neq in Eb. rewrite (finds_over _ _ _ _ F Eb). destruct F as (p & q & _ & G & _). rewrite (TR b name a Hn G). reflexivity.
    - destruct (over name (mro c)) eqn:O; [|reflexivity]. exfalso. destruct (over_first name c Hn O) as (d & a2 & F2 & Nd).
      apply first_def_finds in F2. congruence.
  Qed.
  Lemma has_reduce_spec x :
    reducible_obj kl mro c_dict c_list c_set c_tuple c_modtype c_defaultdict nonreducible x = true -> io_cls x <> c_struct ->
    shas REDUCE_ (io_dict x) = false -> shas REDUCE_EX (io_dict x) = false -> smem REDUCE_ (io_slots x) = false -> smem REDUCE_EX (io_slots x) = false ->
    has_reduce kl mro c_object c_dict c_list c_set c_tuple c_modtype c_defaultdict c_struct nonreducible x =
      (over REDUCE_ (mro (io_cls x)), over REDUCE_EX (mro (io_cls x))).
  Proof.
    intros Rx Ns D1 D2 S1 S2. unfold has_reduce. rewrite Rx. cbn [negb]. apply Nat.eqb_neq in Ns. rewrite Ns.
    unfold in_dict_obj, in_slots_obj. rewrite D1, D2, S1, S2. cbn [orb].
    destruct (mro_loop kl mro c_object (mro (io_cls x)) false false) as [[r rx] done] eqn:E.
    destruct (loop_sound _ _ _ _ _ _ E) as (I1 & I2 & I3 & _).
    assert (J1 : r = true -> over REDUCE_ (mro (io_cls x)) = true) by (intros H; destruct (I1 H); [discriminate|auto]).
    assert (J2 : rx = true -> over REDUCE_EX (mro (io_cls x)) = true) by (intros H; destruct (I2 H); [discriminate|auto]).
    destruct done.
    - destruct (I3 eq_refl) as [-> ->]. rewrite J1, J2; reflexivity.
    - rewrite (by_getattr_spec REDUCE_), (by_getattr_spec REDUCE_EX); auto.
  Qed.
  Lemma finds_some name c : name = REDUCE_ \/ name = REDUCE_EX -> exists d a, finds (mro c) name d a.
  Proof.
    intros Hn. destruct (first_def kl name (mro c)) as [[d a]|] eqn:F; [apply first_def_finds in F; eauto|]. exfalso.
    destruct WF as (W1 & _ & (a1 & A1) & (a2 & A2)). destruct (W1 c) as (l & E & _). rewrite E in F.
    assert (X : exists a, sget name (kl_dict (kl c_object)) = Some a) by (destruct Hn as [-> | ->]; eauto). destruct X as (a & X).
    clear - F X. induction l as [|b l IH]; cbn [app first_def] in F.
    - rewrite X in F. discriminate.
    - destruct (sget name (kl_dict (kl b))); [discriminate|auto].
  Qed.
  Lemma reduce_like_pickle x :
    reducible_obj kl mro c_dict c_list c_set c_tuple c_modtype c_defaultdict nonreducible x = true -> io_cls x <> c_struct ->
    shas REDUCE_ (io_dict x) = false -> shas REDUCE_EX (io_dict x) = false -> smem REDUCE_ (io_slots x) = false -> smem REDUCE_EX (io_slots x) = false ->
    forall d name, pickle_runs kl mro c_object (io_cls x) d name ->
    reduce_call kl mro c_object c_dict c_list c_set c_tuple c_modtype c_defaultdict c_struct nonreducible x =
      if Nat.eqb d c_object then None else Some (TClass d name).
  Proof.
    intros Rx Ns D1 D2 S1 S2 d name P. unfold reduce_call. rewrite (has_reduce_spec x Rx Ns D1 D2 S1 S2).
    unfold resolve. rewrite D1, D2. unfold cls_attr.
    assert (NO : forall nm a, nm = REDUCE_ \/ nm = REDUCE_EX -> finds (mro (io_cls x)) nm c_object a -> over nm (mro (io_cls x)) = false).
    { intros nm a Hn F. destruct (over nm (mro (io_cls x))) eqn:O; [|reflexivity]. destruct (over_first nm _ Hn O) as (d2 & a2 & F2 & Nd).
      destruct (finds_fun _ _ _ _ _ _ F F2). congruence. }
    destruct P as [d a F Nd|d a b F2 F Nd|a b F2 F].
    - change (u "__reduce_ex__") with REDUCE_EX in F. rewrite (finds_over _ _ _ _ F Nd), andb_false_r. apply first_def_finds in F. rewrite F.
      apply Nat.eqb_neq in Nd. rewrite Nd. reflexivity.
    - change (u "__reduce_ex__") with REDUCE_EX in F2. change (u "__reduce__") with REDUCE_ in F.
      rewrite (finds_over _ _ _ _ F Nd), (NO _ _ (or_intror eq_refl) F2). cbn [andb negb]. apply first_def_finds in F. rewrite F.
      apply Nat.eqb_neq in Nd. rewrite Nd. reflexivity.
    - change (u "__reduce_ex__") with REDUCE_EX in F2. change (u "__reduce__") with REDUCE_ in F.
      rewrite (NO _ _ (or_introl eq_refl) F), (NO _ _ (or_intror eq_refl) F2). rewrite Nat.eqb_refl. reflexivity.
  Qed.
  Lemma pickle_always_runs c : exists d name, pickle_runs kl mro c_object c d name.
  Proof.
    destruct (finds_some REDUCE_EX c (or_intror eq_refl)) as (d & a & F). destruct (Nat.eq_dec d c_object) as [->|N].
    - destruct (finds_some REDUCE_ c (or_introl eq_refl)) as (d2 & a2 & F2). destruct (Nat.eq_dec d2 c_object) as [->|N2].
      + exists c_object, (u "__reduce_ex__"). apply (pr_default _ _ _ _ a2 a); auto.
      + exists d2, (u "__reduce__"). apply (pr_plain _ _ _ _ d2 a2 a); auto.
    - exists d, (u "__reduce_ex__"). apply (pr_ex _ _ _ _ d a); auto.
  Qed.

  Definition is_method (a : attr) : bool := match a with AOther _ => false | _ => true end.
  Lemma original_finds name l c a : finds l name c a -> a <> AOther false -> original kl name l = Some a.
  Proof.
    intros (p & q & -> & G & F) Na. induction p as [|y p IH]; cbn [app original].
    - rewrite G. destruct a as [| | | |[|]]; try reflexivity. congruence.
    - rewrite (F y (or_introl eq_refl)). apply IH. intros d I. apply F. right. exact I.
  Qed.
  Lemma method_found x name c a : sget name (io_dict x) = None -> finds (mro (io_cls x)) name c a ->
    has_method kl mro x name = is_method a.
  Proof.
    intros D F. unfold has_method, getattr_func, cls_attr. rewrite D. pose proof F as F1. apply first_def_finds in F1. rewrite F1.
    assert (IS : issub mro (io_cls x) (io_cls x) = true).
    { unfold issub, Detect.nmem. rewrite existsb_exists. exists (io_cls x). split; [apply WF|apply Nat.eqb_refl]. }
    destruct a as [| | | |t]; cbn [is_method]; try reflexivity;
      rewrite (original_finds _ _ _ _ F) by discriminate; auto.
  Qed.
  Lemma method_absent x name : sget name (io_dict x) = None -> (forall c, In c (mro (io_cls x)) -> sget name (kl_dict (kl c)) = None) ->
    has_method kl mro x name = false.
  Proof.
    intros D H. unfold has_method, getattr_func, cls_attr. rewrite D. destruct (first_def kl name (mro (io_cls x))) as [[c a]|] eqn:F; [|reflexivity].
    apply first_def_finds in F. destruct F as (p & q & E & G & _). rewrite H in G; [discriminate|]. rewrite E. apply in_elt.
  Qed.
End detect.

Section kinds.
  Variable kl : nat -> klass.
  Variable mro : nat -> list nat.
  Variables (c_dict c_list c_set c_tuple c_modtype c_defaultdict : nat).
  Variable nonreducible : list nat.
  Hypothesis dict_nr : In c_dict nonreducible.       (* dict itself has its own branch *)
  Notation containers := [c_dict; c_list; c_set; c_tuple; c_modtype].

  Lemma has_attr_dec x name : obj_has kl mro x name = true <-> has_attr kl mro x name.
  Proof.
    unfold obj_has, cls_has, cls_attr, has_attr, shas. destruct (sget name (io_dict x)) eqn:D; cbn [orb].
    - split; [left; discriminate|reflexivity].
    - destruct (first_def kl name (mro (io_cls x))) as [[c a]|] eqn:F.
      + split; [|reflexivity]. intros _. right. apply first_def_finds in F. destruct F as (p & q & E & G & _). exists c. rewrite E, G. split; [apply in_elt|discriminate].
      + split; [discriminate|]. intros [H|(c & I & H)]; [destruct H; reflexivity|]. exfalso. revert F I. generalize (mro (io_cls x)).
        induction l as [|b l IH]; cbn [first_def]; intros F I; [destruct I|]. destruct I as [->|I].
        * destruct (sget name (kl_dict (kl c))); [discriminate|congruence].
        * destruct (sget name (kl_dict (kl b))); [discriminate|auto].
  Qed.
  Lemma nmem_In x l : Detect.nmem x l = true <-> In x l.
  Proof.
    unfold Detect.nmem. rewrite existsb_exists. split.
    - intros (y & I & E). apply Nat.eqb_eq in E. subst. exact I.
    - intros I. exists x. split; [exact I|apply Nat.eqb_refl].
  Qed.
  Lemma reducible_spec x : reducible_obj kl mro c_dict c_list c_set c_tuple c_modtype c_defaultdict nonreducible x = true <->
    from_collections kl mro c_defaultdict x \/ ~ container_like kl mro containers nonreducible x.
  Proof.
    unfold reducible_obj. set (c := io_cls x).
    assert (FC : seqb (kl_module (kl c)) (u "collections") && negb (issub mro c c_defaultdict) = true <-> from_collections kl mro c_defaultdict x).
    { unfold from_collections, issub. fold c. rewrite andb_true_iff, negb_true_iff, seqb_eq. rewrite <- nmem_In. destruct (Detect.nmem c_defaultdict (mro c)); intuition congruence. }
    destruct (seqb (kl_module (kl c)) (u "collections") && negb (issub mro c c_defaultdict)) eqn:B.
    - split; [intros _; left; apply FC; reflexivity|reflexivity].
    - assert (CL : (Detect.nmem c nonreducible || (issub mro c c_dict && negb (Nat.eqb c c_dict)) || issub mro c c_modtype ||
        (issub mro c c_list || issub mro c c_set || issub mro c c_tuple) || list_like_obj kl mro x) = true <-> container_like kl mro containers nonreducible x).
      { unfold container_like, list_like_obj. fold c. rewrite !orb_true_iff, !andb_true_iff, negb_true_iff, !has_attr_dec. unfold issub. rewrite !nmem_In. split.
        - intros [[[[H|[H _]]|H]|[[H|H]|H]]|H]; auto; right; left; eexists; (split; [|exact H]); cbn; auto 8.
        - intros [H|[(d & Id & H)|H]]; auto 8. cbn in Id. destruct Id as [<-|[<-|[<-|[<-|[<-|[]]]]]]; auto 10.
          destruct (Nat.eqb c c_dict) eqn:Ec; [|auto 10]. apply Nat.eqb_eq in Ec. rewrite Ec. auto 10. }
      rewrite negb_true_iff, <- FC. destruct (Detect.nmem c nonreducible || (issub mro c c_dict && negb (Nat.eqb c c_dict)) || issub mro c c_modtype ||
        (issub mro c c_list || issub mro c c_set || issub mro c c_tuple) || list_like_obj kl mro x); intuition congruence.
  Qed.
End kinds.
