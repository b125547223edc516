(** The whole way there and back for the graphs of [back_graph]. *)
From Verif Require Import PyStr Tags Json JsonText JsonTextProofs Base Heap Registry LoadClass Pickler Unpickler SpecGraph SpecPlain SpecRefs SpecFail SpecHoles SpecLack SpecBack.
From Verif Require Import PlainEncode RTBase RTStep RTProps CleanProofs LackProofs BackEncode BackProofs.
From Verif Require Import RTMain.
From Verif Require HolesProofs.
From Coq Require Import List Lia. Import ListNotations.
Open Scope nat_scope.
Local Open Scope monad_scope.

Lemma nodup_snoc {A} (l : list A) x : NoDup l -> ~ In x l -> NoDup (l ++ [x]).
Proof.
  induction 1 as [|y l Ny N IH]; intros Nx; cbn; constructor; [intros []|constructor| |apply IH; intros I; apply Nx; right; auto].
  intros I. apply in_app_or in I as [I|[I|[]]]; [auto|]. apply Nx. left. auto.
Qed.

Section trip.
  Variables (w : world) (k : hooks) (cl : list (pystr * val)) (po : popts) (uo : uopts) (h : heap) (v0 : val).
  Notation cls := (w_cls w).
  Hypothesis Ou : po_unpicklable po = true.
  Hypothesis Om : po_make_refs po = true.
  Hypothesis Od : po_max_depth po = None.
  Hypothesis Op : po_props po = false.
  Hypothesis Or : po_readonly po = false.
  Hypothesis Os : po_sort po = false.
  Hypothesis Ok : po_keys po = false.
  Hypothesis Uk : uo_keys uo = false.
  Hypothesis Uv : uo_v1 uo = false.
  Hypothesis Bg : back_graph w k cl h v0.
  Notation leads := (leads w k h).
  Notation has_part := (has_part w k h).
  Notation back_node := (back_node w k cl h).
  Notation goes := (HolesProofs.goes w k po h).
  Notation goes_list := (HolesProofs.goes_list w k po h).
  Notation goes_fields := (HolesProofs.goes_fields w k po h).
  Notation dgoes := (dgoes w k cl h uo).
  Notation dlist := (dlist w k cl h uo).
  Notation dfields := (dfields w k cl h uo).
  Notation un := (un h).

  Definition st_of (l sd : loc) : Prop := leads v0 (VLoc l) /\ state_of w k h l sd.
  (** an object is numbered before the state that [__reduce__] gives for it *)
  Definition priv (tab : list loc) : Prop := forall l sd, st_of l sd -> In sd tab -> In l tab.
  Definition arrives (tab : list loc) (v : val) : Prop := forall l sd, st_of l sd -> v = VLoc sd -> In l tab.
  Definition fresh (vs : list val) (e : list loc) : Prop := forall l sd, st_of l sd -> In sd e -> In (VLoc sd) vs \/ In l e.
  Definition reach (e : list loc) : Prop := forall l, In l e -> leads v0 (VLoc l).
  Definition docs (v : val) (j : json) : Prop := (v = VNone -> j = JNull) /\ forall l, v = VLoc l -> j <> JNull.
  Definition trip (m : nat) (v : val) : Prop := forall tab, un tab <= m -> NoDup tab -> priv tab -> arrives tab v ->
    exists j e, goes tab v j (tab ++ e) /\ dgoes tab v j (tab ++ e) /\ NoDup (tab ++ e) /\ fresh [v] e /\ reach e /\ docs v j.
  Definition trips (m : nat) (vs : list val) : Prop := forall tab, un tab <= m -> NoDup tab -> priv tab -> Forall (arrives tab) vs ->
    exists js e, goes_list tab vs js (tab ++ e) /\ dlist tab vs js (tab ++ e) /\ NoDup (tab ++ e) /\ fresh vs e /\ reach e.
  Definition ftrips (m : nat) (d : list (val * val)) : Prop := forall tab, un tab <= m -> NoDup tab -> priv tab -> Forall (arrives tab) (map snd d) ->
    exists ob e, goes_fields tab d ob (tab ++ e) /\ dfields tab d ob (tab ++ e) /\ NoDup (tab ++ e) /\ fresh (map snd d) e /\ reach e /\
      map fst d = map VStr (map fst ob).

  Lemma priv_app tab vs e : priv tab -> Forall (arrives tab) vs -> fresh vs e -> priv (tab ++ e).
  Proof.
    intros P A F l sd S I. apply in_or_app. apply in_app_or in I as [I|I]; [left; eauto|]. destruct (F l sd S I) as [X|X]; auto.
    left. rewrite Forall_forall in A. exact (A _ X l sd S eq_refl).
  Qed.
  Lemma arrives_app tab e v : arrives tab v -> arrives (tab ++ e) v.
  Proof. intros A l sd S E. apply in_or_app. left. eauto. Qed.
  Lemma fresh_app xs ys e f : fresh xs e -> fresh ys f -> fresh (xs ++ ys) (e ++ f).
  Proof.
    intros A B l sd S I. apply in_app_or in I as [I|I].
    - destruct (A l sd S I) as [X|X]; [left|right]; apply in_or_app; auto.
    - destruct (B l sd S I) as [X|X]; [left|right]; apply in_or_app; auto.
  Qed.
  Lemma reach_app e f : reach e -> reach f -> reach (e ++ f).
  Proof. intros A B l I. apply in_app_or in I as [I|I]; auto. Qed.
  Lemma fresh_nil vs : fresh vs []. Proof. intros l sd _ []. Qed.
  Lemma reach_nil : reach []. Proof. intros l []. Qed.

  Lemma trips_all m vs : Forall (trip m) vs -> trips m vs.
  Proof.
    induction 1 as [|v vs T _ IH]; intros tab U N P A.
    - exists [], []. rewrite app_nil_r. split; [apply HolesProofs.nil_golist|]. split; [apply nil_dgo|]. split; auto. split; [apply fresh_nil|apply reach_nil].
    - inversion A as [|? ? A1 A2]; subst. destruct (T tab U N P A1) as (j & e & G & D & N1 & F1 & R1 & _).
      destruct (IH (tab ++ e)) as (js & e2 & G2 & D2 & N2 & F2 & R2); auto.
      { pose proof (un_app h tab e). lia. }
      { apply (priv_app tab [v]); auto. }
      { eapply Forall_impl; [|exact A2]. intros x. apply arrives_app. }
      exists (j :: js), (e ++ e2). rewrite app_assoc. split; [eapply HolesProofs.cons_golist; eauto|].
      split; [eapply cons_dgo; eauto|]. split; auto. split; [apply (fresh_app [v] vs); auto|apply reach_app; auto].
  Qed.
  Lemma ftrips_all m d : NoDup (map fst d) -> (forall q x, In (q, x) d -> (exists a, q = VStr a /\ name_ok false a = true) /\ back_node x /\ trip m x) -> ftrips m d.
  Proof.
    induction d as [|[q v] d IH]; intros Nd H tab U N P A.
    - exists [], []. rewrite app_nil_r. split; [apply fnil_goe; auto|]. split; [apply fnil_dgo; auto|]. split; auto. split; [apply fresh_nil|split; [apply reach_nil|reflexivity]].
    - inversion A as [|? ? A1 A2]; subst. inversion Nd as [|? ? Nq Nd2]; subst. destruct (H q v (or_introl eq_refl)) as ((a & -> & Na) & Bv & T).
      destruct (T tab U N P A1) as (j & e & G & D & N1 & F1 & R1 & _).
      destruct (IH Nd2 (fun q x I => H q x (or_intror I)) (tab ++ e)) as (ob & e2 & G2 & D2 & N2 & F2 & R2 & K2); auto.
      { pose proof (un_app h tab e). lia. }
      { apply (priv_app tab [v]); auto. }
      { eapply Forall_impl; [|exact A2]. intros x. apply arrives_app. }
      assert (Ni : ~ In a (map fst ob)). { intros I. apply Nq. rewrite K2. apply in_map. exact I. }
      exists ((a, j) :: ob), (e ++ e2). rewrite app_assoc. split; [|split; [|split; [|split; [|split]]]]; auto.
      + eapply fcons_goe; eauto.
        * apply name_parts in Na. tauto.
        * intros f ->. exact Bv.
        * intros l i -> Gl. cbn in Bv. rewrite Gl in Bv. destruct (c_reduce (cls (i_cls i))).
          -- destruct Bv as (t & args & st & (Rd & _)). exact (rd_isfun _ _ _ _ _ _ _ _ _ _ _ _ _ Rd).
          -- exact (pc_isfun _ _ (proj1 Bv)).
      + eapply fcons_dgo; eauto.
      + apply (fresh_app [v] (map snd d)); auto.
      + apply reach_app; auto.
      + cbn. f_equal. exact K2.
  Qed.

  Lemma kids_arrive z xs tab : leads v0 (VLoc z) -> (forall x, In x xs -> has_part (VLoc z) x) -> Forall (arrives (tab ++ [z])) xs.
  Proof.
    intros L H. apply Forall_forall. intros x I l sd (Ll & S) ->. pose proof (proj2 (proj2 Bg l sd Ll S) _ L (H _ I)) as E. injection E as <-.
    apply in_or_app. right. left. reflexivity.
  Qed.
  Lemma kids_fresh z xs e : leads v0 (VLoc z) -> (forall x, In x xs -> has_part (VLoc z) x) -> fresh xs e -> fresh [VLoc z] (z :: e).
  Proof.
    intros L H F l sd (Ll & S) [->|I]; [left; left; reflexivity|]. destruct (F l sd (conj Ll S) I) as [X|X]; [|right; right; auto].
    pose proof (proj2 (proj2 Bg l sd Ll S) _ L (H _ X)) as E. injection E as <-. right. left. reflexivity.
  Qed.
  Lemma tuple_arrive ys tab : leads v0 (VTuple ys) -> Forall (arrives tab) ys.
  Proof.
    intros L. apply Forall_forall. intros x I l sd (Ll & S) ->. pose proof (proj2 (proj2 Bg l sd Ll S) _ L (hp_tuple _ _ _ _ _ I)). discriminate.
  Qed.
  Lemma tuple_fresh ys e vs : leads v0 (VTuple ys) -> fresh ys e -> fresh vs e.
  Proof.
    intros L F l sd (Ll & S) I. destruct (F l sd (conj Ll S) I) as [X|X]; auto. pose proof (proj2 (proj2 Bg l sd Ll S) _ L (hp_tuple _ _ _ _ _ X)). discriminate.
  Qed.
  Lemma priv_snoc tab z : priv tab -> arrives tab (VLoc z) -> priv (tab ++ [z]).
  Proof.
    intros P A l sd S I. apply in_or_app. left. apply in_app_or in I as [I|[<-|[]]]; eauto.
  Qed.

  Lemma all_trip m v : leads v0 v -> trip m v.
  Proof.
    revert v. induction m as [m IH] using Wf_nat.lt_wf_ind. intros v.
    assert (Sc : forall v j, prim_json v = Some j -> back_node v -> jwf j = true -> (forall n t, restore w uo (S n) j t = (Ret v, t)) -> atom v = true -> (v = VNone -> j = JNull) -> trip m v).
    { intros x j Pj Bx J Rs At Dj tab U N P A. exists j, []. rewrite app_nil_r. split; [apply HolesProofs.prim_go; auto|]. split; [apply scalar_dgo; auto|].
      split; auto. split; [apply fresh_nil|]. split; [apply reach_nil|]. split; auto. intros l ->. discriminate. }
    induction v as [|x|x|x|x|x|xs IHv|x|x|x|x|x|x|x] using val_ind'; intros L; pose proof (proj1 Bg _ L) as B; try (destruct B; fail).
    - eapply Sc; eauto; reflexivity.
    - eapply (Sc _ (JBool x)); eauto; try reflexivity; discriminate.
    - eapply (Sc _ (JInt x)); eauto; try reflexivity; discriminate.
    - eapply (Sc _ (JFloat x)); eauto; try reflexivity; discriminate.
    - eapply (Sc _ (JStr x)); eauto; try reflexivity; discriminate.
    - (* tuple *)
      intros tab U N P A. destruct (trips_all m xs) with (tab := tab) as (js & e & G & D & N1 & F & R); auto.
      { rewrite Forall_forall in IHv |- *. intros y I. apply IHv; auto. eapply ld_step; [exact L|]. constructor; auto. }
      { apply tuple_arrive; auto. }
      exists (JObj [(u "py/tuple", JList js)]), e. split; [apply HolesProofs.tuple_go; auto|]. split; [apply tuple_dgo; auto|].
      split; auto. split; [eapply tuple_fresh; eauto|]. split; auto. split; [discriminate|]. intros l. discriminate.
    - (* type *)
      intros tab U N P A. exists (JObj [(u "py/type", JStr (cname w x))]), []. rewrite app_nil_r. split; [apply HolesProofs.type_go; auto|]. split; [apply type_dgo; auto|].
      split; auto. split; [apply fresh_nil|]. split; [apply reach_nil|]. split; discriminate.
    - (* object *)
      rename x into z. intros tab U N P A. pose proof B as B0. cbn in B. destruct (hget h z) as [ob|] eqn:G; [|destruct B].
      destruct (in_dec Nat.eq_dec z tab) as [I|I].
      { apply In_nth_error in I as (n & I). exists (JObj [(u "py/id", JInt (Z.of_nat n))]), []. rewrite app_nil_r.
        split; [eapply ref_goe; eauto; destruct ob; try contradiction; eauto|]. split; [apply ref_dgo; auto|].
        split; auto. split; [apply fresh_nil|]. split; [apply reach_nil|]. split; discriminate. }
      pose proof (un_snoc h tab z ob I G) as Us. set (m' := un (tab ++ [z])) in *. assert (Lm : m' < m) by lia.
      assert (N' : NoDup (tab ++ [z])) by (apply nodup_snoc; auto). pose proof (priv_snoc tab z P A) as P'.
      assert (Kid : forall x, has_part (VLoc z) x -> trip m' x) by (intros x Hx; apply IH; auto; eapply ld_step; eauto).
      assert (Rc : forall e, reach e -> reach (z :: e)) by (intros e R l [<-|J]; auto).
      assert (Ap : forall e : list loc, tab ++ z :: e = (tab ++ [z]) ++ e) by (intros e; rewrite <- app_assoc; reflexivity).
      destruct ob as [xs|xs|d|x|i|x]; try contradiction.
      + assert (Kd : forall x, In x xs -> has_part (VLoc z) x) by (intros x J; eapply hp_list; eauto).
        destruct (trips_all m' xs) with (tab := tab ++ [z]) as (js & e & Gg & D & N1 & F & R); auto.
        { apply Forall_forall. intros x J. apply Kid. auto. }
        { apply kids_arrive; auto. }
        exists (JList js), (z :: e). rewrite Ap. split; [eapply list_goe; eauto|]. split; [eapply list_dgo; eauto|].
        split; auto. split; [eapply kids_fresh; eauto|]. split; auto. split; discriminate.
      + assert (Kd : forall x, In x (map snd d) -> has_part (VLoc z) x). { intros x J. apply in_map_iff in J as ((q & y) & <- & J). eapply hp_dict; eauto. }
        destruct (ftrips_all m' d) with (tab := tab ++ [z]) as (ob & e & Gg & D & N1 & F & R & K); auto.
        { apply B. }
        { intros q x J. split; [apply (proj2 B q x J)|]. split; [apply (proj1 Bg); eapply ld_step; [exact L|]; eapply hp_dict; eauto|apply Kid; eapply hp_dict; eauto]. }
        { apply kids_arrive; auto. }
        exists (JObj ob), (z :: e). rewrite Ap. split; [eapply dict_goe; eauto|]. split; [eapply dict_dgo; eauto|].
        split; auto. split; [eapply kids_fresh; eauto|]. split; auto. split; discriminate.
      + destruct (c_reduce (cls (i_cls i))) eqn:Cr.
        * destruct B as (t & args & st & Ws).
          assert (Pt : has_part (VLoc z) (VType t)) by (eapply reduce_part; eauto; [discriminate|left; auto]).
          assert (Pa : has_part (VLoc z) (VTuple args)) by (eapply reduce_part; eauto; [discriminate|right; left; auto]).
          assert (La : leads v0 (VTuple args)) by (eapply ld_step; eauto).
          pose proof (proj1 Bg _ La) as Ba. pose proof (proj1 Bg _ (ld_step _ _ _ _ _ _ L Pt)) as Bt.
          destruct (trips_all m' args) with (tab := tab ++ [z]) as (js & e & Gg & D & N1 & F & R); auto.
          { apply Forall_forall. intros x J. apply IH; auto. eapply ld_step; [exact La|]. constructor; auto. }
          { apply tuple_arrive; auto. }
          pose proof Ws as (_ & _ & [->|(sd & a & -> & Gs & Na & Ns)]).
          -- exists (JObj [(u "py/reduce", JList ([JObj [(u "py/type", JStr (cname w t))]; JObj [(u "py/tuple", JList js)]] ++ state_docs VNone JNull))]), (z :: e).
             rewrite Ap. split; [|split; [|split; [|split; [|split]]]]; auto.
             ++ eapply reduce_goe; eauto; first [congruence|apply HolesProofs.prim_go; auto].
             ++ eapply reduce_dgo; eauto; [discriminate|]. cbn [state_vals state_docs app].
                eapply cons_dgo with (tab1 := tab ++ [z]); [exists []; symmetry; apply app_nil_r|eauto|apply type_dgo; auto|].
                eapply cons_dgo with (tab1 := (tab ++ [z]) ++ e); [eauto|exists []; symmetry; apply app_nil_r|apply tuple_dgo; eauto|apply nil_dgo].
             ++ apply (kids_fresh z []); auto; [intros x []|]. eapply tuple_fresh; eauto.
             ++ split; discriminate.
          -- assert (Ps : has_part (VLoc z) (VLoc sd)) by (eapply reduce_part; eauto; [discriminate|right; right; left; auto]).
             assert (So : st_of z sd) by (split; auto; exists i, t, args; auto).
             destruct (Kid _ Ps ((tab ++ [z]) ++ e)) as (jst & e2 & Gg2 & D2 & N2 & F2 & R2 & _ & Dj); auto.
             { pose proof (un_app h (tab ++ [z]) e). unfold m'. lia. }
             { apply (priv_app (tab ++ [z]) args); auto. apply tuple_arrive; auto. }
             { apply arrives_app. pose proof (kids_arrive z [VLoc sd] tab L) as X. eapply Forall_inv. apply X. intros x [<-|[]]. auto. }
             exists (JObj [(u "py/reduce", JList ([JObj [(u "py/type", JStr (cname w t))]; JObj [(u "py/tuple", JList js)]] ++ state_docs (VLoc sd) jst))]), (z :: e ++ e2).
             rewrite Ap. rewrite (app_assoc (tab ++ [z]) e e2). split; [|split; [|split; [|split; [|split]]]]; auto.
             ++ eapply reduce_goe; eauto; first [discriminate|intros _; eapply Dj; reflexivity].
             ++ eapply reduce_dgo; eauto; [exists (e ++ e2); rewrite app_assoc; reflexivity| |].
                { intros x [= <-] J. apply in_app_or in J as [J|[J|[]]]; [apply I; exact (P z sd So J)|congruence]. }
                cbn [state_vals state_docs app].
                eapply cons_dgo with (tab1 := tab ++ [z]); [exists []; symmetry; apply app_nil_r|exists (e ++ e2); rewrite app_assoc; reflexivity|apply type_dgo; auto|].
                eapply cons_dgo with (tab1 := (tab ++ [z]) ++ e); [eauto|eauto|apply tuple_dgo; eauto|].
                eapply cons_dgo with (tab1 := ((tab ++ [z]) ++ e) ++ e2); [eauto|exists []; symmetry; apply app_nil_r|exact D2|apply nil_dgo].
             ++ apply (kids_fresh z [VLoc sd]); auto; [intros x [<-|[]]; auto|]. apply (fresh_app []); auto. eapply tuple_fresh; eauto.
             ++ apply Rc. apply reach_app; auto.
             ++ split; discriminate.
        * destruct B as (Pc & Fo & Sn & Sl & dl & d & Ed & Gd & Sk & Sb).
          assert (Kd : forall x, In x (map snd d) -> has_part (VLoc z) x). { intros x J. apply in_map_iff in J as ((q & y) & <- & J). eapply hp_attr; eauto. }
          destruct (ftrips_all m' d) with (tab := tab ++ [z]) as (ob & e & Gg & D & N1 & F & R & K); auto.
          { apply Sk. }
          { intros q x J. split; [apply (proj2 Sk q x J)|]. split; [apply (proj1 Bg); eapply ld_step; [exact L|]; eapply hp_attr; eauto|apply Kid; eapply hp_attr; eauto]. }
          { apply kids_arrive; auto. }
          exists (JObj ((u "py/object", JStr (cname w (i_cls i))) :: ob)), (z :: e). rewrite Ap. split; [|split; [|split; [|split; [|split]]]]; auto.
          -- eapply inst_goe; eauto. intros J. pose proof (string_names d ob Sk K OBJECT J) as X. apply name_parts in X as (_ & X & _). vm_compute in X. discriminate X.
          -- eapply inst_dgo; eauto.
          -- eapply kids_fresh; eauto.
          -- split; discriminate.
  Qed.
End trip.

Lemma back_roundtrip w k po uo classes h v : rt_options po uo -> po_keys po = false -> back_graph w k (class_table w classes) h v ->
  roundtrips w k po uo classes h v (fun h' b v' => is_copy w k false h h' b v v').
Proof.
  intros (O1 & O2 & O3 & O4 & O5 & O6 & O7 & O8) Ok Bg. rewrite Ok in O7. set (cl := class_table w classes) in *.
  destruct (all_trip w k cl po uo h v O1 O2 O3 O4 O5 Ok O7 O8 Bg (un h []) v (ld_refl _ _ _ _) [] (le_n _) (NoDup_nil _)) as (j & tab & G & (J & N & D) & N1 & _ & R & _).
  { intros l sd _ []. }
  { intros l sd (Ll & S) ->. destruct (proj2 Bg l sd Ll S) as (X & _). congruence. }
  cbn [app] in *. destruct (encode_go w k po h O6 v j tab G) as (N2 & E2).
  exists (dumps j), N2, N. split; [exact E2|].
  intros m t Lm. set (t0 := mkUst (u_heap t) [] [] (u_prox t) [] cl (u_log t)).
  assert (S0 : St cl h t0 [] []).
  { constructor; try reflexivity; try (intros ? ? []; fail); try (intros ? []; fail); try (intros [|?]; discriminate). }
  destruct (D m Lm t0 [] S0) as (v' & t1 & e & Rs & S1 & M & P).
  { intros l p (n & X & _). destruct n; discriminate. }
  cbn [app] in *. pose proof S1 as [B1 B2 B3 B4 B5 B6 (sw & B7 & B8)]. cbn [app u_swaps t0] in B7.
  destruct (swaps_all w k cl h uo (length (u_heap t)) tab e B2) with (rem := sw) (t := t1) as (h' & R1 & I1 & L1 & K1); auto.
  { intros l Il. apply (proj1 Bg). apply R. exact Il. }
  { intros l l' (n & p & X & Y). rewrite <- B7. apply (P n l l' p); auto. cbn. lia. }
  exists v', (mkUst h' [] [] (u_prox t1) [] [] (u_log t1)). split; [|split].
  - unfold decode. rewrite loads_dumps by exact J. rewrite (bind_eq _ _ t v' (us_swaps [] (us_heap h' t1))); [reflexivity|].
    unfold unpickle. rewrite (bind_eq _ _ t tt (mkUst (u_heap t) [] [] (u_prox t) [] [] (u_log t))) by reflexivity.
    rewrite (bind_eq _ _ _ tt t0) by (unfold t0, cl, class_table; destruct classes; reflexivity).
    rewrite (bind_eq _ _ _ _ _ Rs). rewrite (bind_eq _ _ t1 tt (us_swaps [] (us_heap h' t1))); [reflexivity|].
    unfold swap_proxies. rewrite (bind_eq _ _ t1 sw t1) by (unfold gets; rewrite B7; reflexivity). rewrite (bind_eq _ _ t1 tt (us_heap h' t1)) by exact R1. reflexivity.
  - cbn [u_heap]. exists (Rd tab e). split; [|split; [|split]].
    + intros l a c. apply Rd_fun; auto.
    + intros a c l. intros X Y. eapply Rd_inj; eauto.
    + intros l l' X. eapply final_match; eauto. intros z Iz. apply (proj1 Bg). apply R. exact Iz.
    + destruct M as [M|(l & p & -> & -> & n & X & _)]; [apply bmatch_vm; auto|destruct n; discriminate].
  - intros x Lx. cbn [u_heap]. rewrite K1 by auto. apply B5; [exact Lx|intros []].
Qed.
