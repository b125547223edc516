(** C38: reuse of addresses. *)
From Verif Require Import PyStr Base IdReuse.
Open Scope nat_scope.

(** What a table keyed by the objects themselves answers: [reg] lists the numbered objects in
    order, [docs] the documents stored for objects. *)
Fixpoint index (x : nat) (l : list nat) : option nat :=
  match l with [] => None | y :: r => if Nat.eqb x y then Some 0 else option_map S (index x r) end.
Fixpoint ideal (l : list ev) (reg : list nat) (docs : list (nat * nat)) : list out :=
  match l with
  | [] => []
  | EReset :: r => ideal r [] []
  | EMkref x :: r => if in_dec Nat.eq_dec x reg then ONew x false :: ideal r reg docs
                     else ONew x true :: ideal r (reg ++ [x]) docs
  | EGetref x :: r => ORef x (index x reg) :: ideal r reg docs
  | ELookup x :: r => OHit x (nget x docs) :: ideal r reg docs
  | EStore x v _ :: r => ideal r reg ((x, v) :: docs)
  | _ :: r => ideal r reg docs
  end.
(** What the pickler does: an object is numbered while it is held: it is in _seen since
    _flatten_obj was entered for it (lines 792, 807, 934), or it is the factory or __dict__ of
    such an object (lines 909, 923); [held]: since the last reset or by the program.  A document
    is stored for an object in _seen, or refers to the object. *)
Fixpoint disciplined (l : list ev) (prog seen : list nat) : Prop :=
  match l with
  | [] => True
  | EReset :: r => disciplined r prog []
  | EHold x :: r => disciplined r (x :: prog) seen
  | EEnter x :: r => disciplined r prog (x :: seen)
  | EMkref x :: r => (In x prog \/ In x seen) /\ disciplined r prog seen
  | EStore x _ k :: r => (k = true \/ In x prog \/ In x seen) /\ disciplined r prog seen
  | _ :: r => disciplined r prog seen
  end.

Lemma nmem_In x l : nmem x l = true <-> In x l.
Proof.
  unfold nmem. rewrite existsb_exists. split.
  - intros (y & I & E). apply Nat.eqb_eq in E. subst. auto.
  - intros I. exists x. rewrite Nat.eqb_refl. auto.
Qed.
Lemma nget_In k l v : nget k l = Some v -> In (k, v) l.
Proof. induction l as [|[a b] l IH]; cbn; [discriminate|]. destruct (Nat.eqb_spec k a) as [->|]; [intros H; inversion H; auto|auto]. Qed.
Lemma nget_filter x y l : x <> y -> nget y (filter (fun xa => negb (Nat.eqb x (fst xa))) l) = nget y l.
Proof.
  intros N. induction l as [|[a b] l IH]; [reflexivity|]. cbn [filter fst nget]. destruct (Nat.eqb_spec x a) as [->|]; cbn [negb nget].
  - destruct (Nat.eqb_spec y a); [congruence|auto].
  - destruct (Nat.eqb_spec y a); auto.
Qed.

(** The numbers and the cache of a state describe the objects [reg], [docs]: all of them are alive
    and held, so no other live object has their address. *)
Record ok (s : ist) (reg : list nat) (docs : list (nat * nat)) : Prop := {
  ok_new : forall x a, In (x, a) (i_live s) -> x < i_next s;
  ok_addr : forall x y a, In (x, a) (i_live s) -> In (y, a) (i_live s) -> x = y;
  ok_fun : forall x a b, In (x, a) (i_live s) -> In (x, b) (i_live s) -> a = b;
  ok_reg : forall x, In x reg -> pinned s x = true /\ exists a, nget x (i_live s) = Some a;
  ok_objs : forall x a, nget x (i_live s) = Some a -> nget a (i_objs s) = index x reg;
  ok_len : length (i_objs s) = length reg;
  ok_docs : forall x v, In (x, v) docs -> pinned s x = true /\ exists a, nget x (i_live s) = Some a;
  ok_cache : forall x a, nget x (i_live s) = Some a -> nget a (i_cache s) = nget x docs;
  ok_objs_live : forall a n, In (a, n) (i_objs s) -> exists x, In (x, a) (i_live s);
  ok_cache_live : forall a v, In (a, v) (i_cache s) -> exists x, In (x, a) (i_live s)
}.
Lemma index_app x y l : ~ In x l -> index y (l ++ [x]) = match index y l with Some n => Some n | None => if Nat.eqb y x then Some (length l) else None end.
Proof.
  induction l as [|z l IH]; intros N; cbn [index app length].
  - destruct (Nat.eqb y x); reflexivity.
  - destruct (Nat.eqb y z); auto. rewrite IH by (intros I; apply N; right; auto).
    destruct (index y l); cbn; auto. destruct (Nat.eqb y x); auto.
Qed.
Lemma index_None x l : index x l = None <-> ~ In x l.
Proof.
  induction l as [|y l IH]; cbn; [intuition discriminate|]. destruct (Nat.eqb_spec x y) as [->|N]; [intuition discriminate|].
  destruct (index x l); cbn; intuition (try discriminate); try congruence.
Qed.
Lemma nget_None k l : nget k l = None <-> ~ In k (map fst l).
Proof.
  induction l as [|[a b] l IH]; cbn; [intuition|]. destruct (Nat.eqb_spec k a) as [->|N]; [intuition discriminate|].
  rewrite IH. intuition congruence.
Qed.
Definition held_by (s : ist) (prog seen : list nat) : Prop := i_held s = prog /\ i_seen s = seen.

Lemma step_ok e r s s' o reg docs prog seen : istep e s = Some (s', o) -> ok s reg docs -> held_by s prog seen ->
  disciplined (e :: r) prog seen ->
  exists reg' docs' prog' seen', ok s' reg' docs' /\ held_by s' prog' seen' /\ disciplined r prog' seen' /\
    ideal (e :: r) reg docs = o ++ ideal r reg' docs'.
Proof.
  intros St O [Hp Hs] D. destruct O as [O1 O2 O3 O4 O5 O6 O7 O8 O9 O10].
  assert (Pin : forall s' : ist, i_held s' = i_held s -> i_seen s' = i_seen s -> i_kept s' = i_kept s -> forall x, pinned s' x = pinned s x).
  { intros s2 E1 E2 E3 x. unfold pinned. rewrite E1, E2, E3. reflexivity. }
  destruct e; cbn [istep] in St.
  - (* ENew *)
    destruct (nmem a (map snd (i_live s))) eqn:M; [discriminate|]. inversion St; subst s' o. clear St.
    assert (Na : forall x, ~ In (x, a) (i_live s)). { intros x I. apply (in_map snd) in I. apply nmem_In in I. cbn in I. congruence. }
    exists reg, docs, prog, seen. split; [|split; [split; auto|split; auto]].
    assert (Lx : forall x b, nget x (i_live s) = Some b -> Nat.eqb x (i_next s) = false).
    { intros x b H. apply nget_In in H. apply O1 in H. apply Nat.eqb_neq. lia. }
    constructor; cbn [i_live i_next i_objs i_cache]; auto.
    + intros x b [I|I]; [inversion I; lia|]. apply O1 in I. lia.
    + intros x y b [I|I] [J|J]; try (inversion I; subst); try (inversion J; subst); auto.
      * destruct (Na y J). * destruct (Na x I). * eauto.
    + intros x b c [I|I] [J|J]; try (inversion I; subst); try (inversion J; subst); auto.
      * apply O1 in J. lia. * apply O1 in I. lia. * eauto.
    + intros x I. destruct (O4 x I) as [P [b B]]. split; auto. exists b. cbn [nget]. rewrite (Lx x b B). exact B.
    + intros x b H. cbn [nget] in H. destruct (Nat.eqb_spec x (i_next s)) as [->|].
      * inversion H; subst b. destruct (nget a (i_objs s)) as [n|] eqn:G.
        { apply nget_In in G. destruct (O9 _ _ G) as [x I]. destruct (Na x I). }
        symmetry. apply index_None. intros I. destruct (O4 _ I) as [_ [b B]].  specialize (Lx _ _ B). rewrite Nat.eqb_refl in Lx. discriminate.
      * auto.
    + intros x v I. destruct (O7 x v I) as [P [b B]]. split; auto. exists b. cbn [nget]. rewrite (Lx x b B). exact B.
    + intros x b H. cbn [nget] in H. destruct (Nat.eqb_spec x (i_next s)) as [->|].
      * inversion H; subst b. destruct (nget a (i_cache s)) as [n|] eqn:G.
        { apply nget_In in G. destruct (O10 _ _ G) as [x I]. destruct (Na x I). }
        symmetry. apply nget_None. intros I. apply in_map_iff in I. destruct I as ([y v] & E & I). cbn in E. subst y.
        destruct (O7 _ _ I) as [_ [b B]]. specialize (Lx _ _ B). rewrite Nat.eqb_refl in Lx. discriminate.
      * auto.
    + intros b n I. destruct (O9 b n I) as [x J]. exists x. right. exact J.
    + intros b n I. destruct (O10 b n I) as [x J]. exists x. right. exact J.
  - (* EFree *)
    destruct (nget x (i_live s)) as [a|] eqn:G; [|discriminate]. destruct (pinned s x) eqn:P; [discriminate|].
    inversion St; subst s' o. clear St. exists reg, docs, prog, seen. split; [|split; [split; auto|split; auto]].
    assert (Fi : forall y b, In (y, b) (filter (fun xa => negb (Nat.eqb x (fst xa))) (i_live s)) -> In (y, b) (i_live s)).
    { intros y b I. apply filter_In in I. tauto. }
    assert (Rx : ~ In x reg) by (intros I; destruct (O4 x I); congruence).
    assert (Dx : forall v, ~ In (x, v) docs) by (intros v I; destruct (O7 x v I); congruence).
    assert (Nx : forall y b, nget y (filter (fun xa => negb (Nat.eqb x (fst xa))) (i_live s)) = Some b -> y <> x).
    { intros y b H ->. apply nget_In in H. apply filter_In in H. cbn in H. rewrite Nat.eqb_refl in H. destruct H; discriminate. }
    constructor; cbn [i_live i_next i_objs i_cache]; auto.
    + intros y b I. apply Fi in I. eauto.
    + intros y z b I J. apply Fi in I, J. eauto.
    + intros y b c I J. apply Fi in I, J. eauto.
    + intros y I. assert (y <> x) by (intros ->; auto). destruct (O4 y I) as [Q [b B]]. split; auto. exists b. rewrite nget_filter; auto.
    + intros y b H. pose proof (Nx y b H). rewrite nget_filter in H; auto.
    + intros y v I. assert (y <> x) by (intros ->; eapply Dx; eauto). destruct (O7 y v I) as [Q [b B]]. split; auto. exists b. rewrite nget_filter; auto.
    + intros y b H. pose proof (Nx y b H). rewrite nget_filter in H; auto.
    + intros b n I. destruct (O9 b n I) as [y J]. exists y. apply filter_In. split; auto. cbn. apply negb_true_iff. apply Nat.eqb_neq. intros ->.
      (* x itself has an entry, so it is registered *)
      assert (E : nget b (i_objs s) = index y reg). { apply O5. apply nget_In in G as G2. rewrite (O3 _ _ _ J G2). exact G. }
      apply index_None in Rx. rewrite Rx in E. apply nget_None in E. apply E. apply (in_map fst) in I. exact I.
    + intros b n I. destruct (O10 b n I) as [y J]. exists y. apply filter_In. split; auto. cbn. apply negb_true_iff. apply Nat.eqb_neq. intros ->.
      assert (E : nget b (i_cache s) = nget y docs). { apply O8. apply nget_In in G as G2. rewrite (O3 _ _ _ J G2). exact G. }
      destruct (nget y docs) eqn:E2. { apply nget_In in E2. eapply Dx; eauto. }
      apply nget_None in E. apply E. apply (in_map fst) in I. exact I.
  - (* EHold *)
    destruct (nget x (i_live s)) as [a|] eqn:G; [|discriminate]. inversion St; subst s' o. clear St.
    exists reg, docs, (x :: prog), seen. split; [|split; [split; cbn; congruence|split; auto]].
    assert (Pi : forall y, pinned s y = true -> pinned (mkI (i_live s) (i_next s) (x :: i_held s) (i_seen s) (i_objs s) (i_cache s) (i_kept s)) y = true).
    { intros y. unfold pinned. cbn [i_held i_seen i_kept nmem existsb]. intros H. destruct (Nat.eqb y x); auto. }
    constructor; cbn [i_live i_next i_objs i_cache]; auto.
    + intros y I. destruct (O4 y I). auto.
    + intros y v I. destruct (O7 y v I). auto.
  - (* EReset *)
    inversion St; subst s' o. clear St. exists [], [], prog, []. split; [|split; [split; auto|split; auto]].
    constructor; cbn [i_live i_next i_objs i_cache]; auto; try (intros; contradiction).
  - (* EEnter *)
    destruct (nget x (i_live s)) as [a|] eqn:G; [|discriminate]. inversion St; subst s' o. clear St.
    exists reg, docs, prog, (x :: seen). split; [|split; [split; cbn; congruence|split; auto]].
    assert (Pi : forall y, pinned s y = true -> pinned (mkI (i_live s) (i_next s) (i_held s) (x :: i_seen s) (i_objs s) (i_cache s) (i_kept s)) y = true).
    { intros y. unfold pinned. cbn [i_held i_seen i_kept nmem existsb]. intros H.
      unfold nmem in *. destruct (existsb (Nat.eqb y) (i_held s)); [reflexivity|]. cbn [orb] in *. destruct (Nat.eqb y x); [reflexivity|exact H]. }
    constructor; cbn [i_live i_next i_objs i_cache]; auto.
    + intros y I. destruct (O4 y I). auto.
    + intros y v I. destruct (O7 y v I). auto.
  - (* EMkref *)
    cbn [disciplined] in D. destruct D as [Dx D]. cbn [ideal].
    destruct (nget x (i_live s)) as [a|] eqn:G; [|discriminate]. pose proof (O5 x a G) as E5.
    destruct (nget a (i_objs s)) as [n|] eqn:Ga; inversion St; subst s' o; clear St.
    + exists reg, docs, prog, seen. split; [constructor; auto|]. split; [split; auto|]. split; auto.
      destruct (in_dec Nat.eq_dec x reg) as [|N]; auto. apply index_None in N. congruence.
    + assert (Nx : ~ In x reg) by (apply index_None; auto).
      exists (reg ++ [x]), docs, prog, seen. split; [|split; [split; auto|split; auto]].
      * constructor; cbn [i_live i_next i_objs i_cache]; auto.
        -- intros y I. apply in_app_or in I. destruct I as [I|[<-|[]]]; [exact (O4 y I)|]. split; [|eauto]. unfold pinned. cbn [i_held i_seen i_kept].
           rewrite <- Hp, <- Hs in Dx. destruct Dx as [Dx|Dx]; apply nmem_In in Dx; rewrite Dx; [reflexivity|]. rewrite orb_true_r; reflexivity.
        -- intros y b H. rewrite index_app by auto. cbn [nget]. destruct (Nat.eqb_spec b a) as [->|Nb].
           ++ assert (y = x). { apply nget_In in H, G. eauto. } subst y. rewrite Nat.eqb_refl, <- E5. rewrite O6. reflexivity.
           ++ rewrite (O5 y b H). destruct (index y reg); auto. destruct (Nat.eqb_spec y x) as [->|]; auto. congruence.
        -- cbn [length]. rewrite app_length. cbn [length]. lia.
        -- intros b n [I|I]; [inversion I; subst; exists x; apply nget_In; auto|eauto].
      * destruct (in_dec Nat.eq_dec x reg); [contradiction|reflexivity].
  - (* EGetref *)
    destruct (nget x (i_live s)) as [a|] eqn:G; [|discriminate]. inversion St; subst s' o. clear St.
    exists reg, docs, prog, seen. split; [constructor; auto|]. split; [split; auto|]. split; auto. cbn [ideal app]. rewrite (O5 x a G). reflexivity.
  - (* ELookup *)
    destruct (nget x (i_live s)) as [a|] eqn:G; [|discriminate]. inversion St; subst s' o. clear St.
    exists reg, docs, prog, seen. split; [constructor; auto|]. split; [split; auto|]. split; auto. cbn [ideal app]. rewrite (O8 x a G). reflexivity.
  - (* EStore *)
    cbn [disciplined] in D. destruct D as [Dx D]. destruct (nget x (i_live s)) as [a|] eqn:G; [|discriminate]. inversion St; subst s' o. clear St.
    exists reg, ((x, v) :: docs), prog, seen. split; [|split; [split; auto|split; auto]].
    set (s' := mkI _ _ _ _ _ _ _).
    assert (Pi : forall y, pinned s y = true -> pinned s' y = true).
    { intros y. unfold pinned, s'. cbn [i_held i_seen i_kept]. intros H. apply orb_true_iff in H. destruct H as [->|H]; auto.
      destruct k; [|rewrite H; apply orb_true_r]. cbn [nmem existsb]. unfold nmem in H. rewrite H. rewrite !orb_true_r. auto. }
    constructor; unfold s'; cbn [i_live i_next i_objs i_cache]; auto; fold s'.
    + intros y I. destruct (O4 y I). auto.
    + intros y w [I|I].
      * inversion I; subst y w. split; [|eauto]. unfold pinned, s'. cbn [i_held i_seen i_kept]. rewrite <- Hp, <- Hs in Dx.
        destruct Dx as [->|[Dx|Dx]].
        -- cbn [nmem existsb]. rewrite Nat.eqb_refl. cbn [orb]. apply orb_true_r.
        -- apply nmem_In in Dx. rewrite Dx. reflexivity.
        -- apply nmem_In in Dx. rewrite Dx, orb_true_r. reflexivity.
      * destruct (O7 y w I). auto.
    + intros y b H. cbn [nget]. destruct (Nat.eqb_spec b a) as [->|Nb].
      * assert (y = x). { apply nget_In in H, G. eauto. } subst y. rewrite Nat.eqb_refl. reflexivity.
      * destruct (Nat.eqb_spec y x) as [->|]; [congruence|auto].
    + intros b n [I|I]; [inversion I; subst; exists x; apply nget_In; auto|eauto].
Qed.
Lemma run_ok l : forall s s' o reg docs prog seen, irun l s = Some (s', o) -> ok s reg docs -> held_by s prog seen ->
  disciplined l prog seen -> o = ideal l reg docs.
Proof.
  induction l as [|e l IH]; intros s s' o reg docs prog seen H O Hh D; cbn [irun] in H.
  - inversion H; reflexivity.
  - destruct (istep e s) as [[s1 o1]|] eqn:E; [|discriminate]. destruct (irun l s1) as [[s2 o2]|] eqn:E2; [|discriminate].
    inversion H; subst s' o. destruct (step_ok e l s s1 o1 reg docs prog seen E O Hh D) as (reg' & docs' & prog' & seen' & O' & H' & D' & ->).
    f_equal. eapply IH; eauto.
Qed.

(** C38.  Under every schedule of allocations and deallocations the tables keyed by id() answer
    as tables keyed by the objects themselves. *)
Theorem C38_identity :
  forall l s o, irun l istart = Some (s, o) -> disciplined l [] [] -> o = ideal l [] [].
Proof.
  intros l s o H D. apply (run_ok l istart s o [] [] [] []); auto.
  - constructor; cbn; intros; try contradiction; try discriminate; auto.
  - split; reflexivity.
Qed.
Print Assumptions C38_identity.
Lemma index_nth x l n : index x l = Some n -> nth_error l n = Some x.
Proof.
  revert n. induction l as [|y l IH]; intros n H; cbn [index] in H; [discriminate|].
  destruct (Nat.eqb_spec x y) as [->|]; [inversion H; reflexivity|]. destruct (index x l) as [m|]; [|discriminate].
  inversion H; subst n. cbn. auto.
Qed.
Lemma ideal_numbers l : ~ In EReset l -> forall reg docs,
  exists more, forall x n, In (ORef x (Some n)) (ideal l reg docs) -> nth_error (reg ++ more) n = Some x.
Proof.
  induction l as [|e l IH]; intros N reg docs; [exists []; intros x n []|].
  assert (N' : ~ In EReset l) by (intros I; apply N; right; auto).
  assert (Go : forall o docs', (forall x n, o <> ORef x (Some n)) ->
             exists more, forall x n, In (ORef x (Some n)) (o :: ideal l reg docs') -> nth_error (reg ++ more) n = Some x).
  { intros o docs' No. destruct (IH N' reg docs') as [m H]. exists m. intros x n [I|I]; [destruct (No x n I)|auto]. }
  destruct e; cbn [ideal]; auto.
  - destruct N. left. reflexivity.
  - destruct (in_dec Nat.eq_dec x reg); [apply Go; discriminate|]. destruct (IH N' (reg ++ [x]) docs) as [m H].
    exists (x :: m). intros y n0 [I|I]; [discriminate|]. replace (reg ++ x :: m) with ((reg ++ [x]) ++ m) by (rewrite <- app_assoc; reflexivity). auto.
  - destruct (IH N' reg docs) as [m H]. exists m. intros y n [I|I]; auto. inversion I as [[E1 E2]]. subst y. apply index_nth in E2.
    rewrite nth_error_app1; auto. apply nth_error_Some. congruence.
  - apply Go. discriminate.
Qed.
(** In particular two objects never share a reference number within one encode call. *)
Theorem C38_numbers_distinct :
  forall l s o x y n, irun l istart = Some (s, o) -> disciplined l [] [] -> ~ In EReset l ->
  In (ORef x (Some n)) o -> In (ORef y (Some n)) o -> x = y.
Proof.
  intros l s o x y n H D R Ix Iy. rewrite (C38_identity l s o H D) in Ix, Iy. destruct (ideal_numbers l R [] []) as [m M].
  apply M in Ix, Iy. congruence.
Qed.
Print Assumptions C38_numbers_distinct.
(** A temporary (object 1, e.g. the answer of __getstate__) is flattened and dropped by the program; the
    allocator cannot reuse its address because _seen holds it; an unrelated temporary (2) can be freed
    and its address reused. *)
Example C38_case :
  let l := [ENew 100; EHold 0; EEnter 0; EMkref 0; ENew 104; EEnter 1; EMkref 1; ENew 108; EFree 2; ENew 108; EEnter 3; EMkref 3;
            EMkref 0; EGetref 0; EGetref 3] in
  disciplined l [] [] /\
  option_map snd (irun l istart) = Some [ONew 0 true; ONew 1 true; ONew 3 true; ONew 0 false; ORef 0 (Some 0); ORef 3 (Some 2)] /\
  irun (l ++ [EFree 1]) istart = None.
Proof. vm_compute. intuition. Qed.
(** Without the discipline the claim fails.  With make_refs=False or unpicklable=False, _flatten caches
    documents by id() also for bytes, which are not in _seen: an iterator producing temporary
    bytes objects gets the document of an earlier one.  Events: first bytes object, cached, freed; the
    second at the same address is answered with the document of the first. *)
Theorem C38_bytes_cache_refuted :
  exists l s, (forall x v k, In (EStore x v k) l -> x <> v -> False) /\
    irun l istart = Some (s, [OHit 0 None; OHit 1 (Some 0)]) /\ ideal l [] [] = [OHit 0 None; OHit 1 None].
Proof.
  exists [ENew 100; ELookup 0; EStore 0 0 false; EFree 0; ENew 100; ELookup 1]. eexists. split; [|split; reflexivity].
  cbn [In]. intros x v k I N. repeat destruct I as [I|I]; try discriminate; try contradiction. inversion I; subst. congruence.
Qed.
Print Assumptions C38_bytes_cache_refuted.
