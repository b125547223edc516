(** C64: switching the handlers of an extension module on and off. *)
From Verif Require Import PyStr Json Base Heap Registry RegistryProofs Ext ExtProofs Samples.
From Coq Require Import List Bool. Import ListNotations.
Open Scope nat_scope.

(** Nothing is registered for the classes of K after the calls ops. *)
Definition none_registered (cls : nat -> cinfo) (ops : list rop) (K : list nat) : Prop :=
  forall c, In c K -> registered ops c = None /\ registered_name cls ops (importable_name (cls c)) = None /\ registered_base ops c = None.
Definition np_all (N : np_classes) : list nat :=
  [ np_ndarray N; np_dtype N; np_generic N; np_dt_void N; np_dt_float32 N; np_dt_int32 N; np_dt_datetime64 N; np_datetime64 N; np_ufunc N ].
Definition pd_all (P : pd_classes) : list nat :=
  [ pd_frame P; pd_series P; pd_index P; pd_period_index P; pd_multi_index P; pd_timestamp P; pd_period P; pd_interval P ].
Lemma none_untouched cls ops K : none_registered cls ops K -> untouched cls K (rrun cls ops).
Proof.
  intros U c I. destruct (U c I) as (A & B & C). rewrite direct_spec, base_spec. split; [exact A|]. split; [|exact C].
  rewrite <- name_spec in B. exact B.
Qed.

(** gmpy: as if nothing had happened. *)
Theorem C64_gmpy_off :
  forall cls sub ops mpz h c n, none_registered cls ops [mpz] ->
  reg_lookup sub (gmpy_unregister cls mpz (gmpy_register cls mpz h (rrun cls ops))) c n = reg_lookup sub (rrun cls ops) c n.
Proof.
  intros cls sub ops mpz h c n U. apply none_untouched in U.
  pose proof (more_register cls [mpz] (rrun cls ops) U (rrun cls ops) mpz h (or_introl eq_refl) (more_refl cls _ _)) as M.
  apply (more_unregister cls [mpz] (rrun cls ops) U [mpz] _ mpz (incl_refl _) (or_introl eq_refl)) in M.
  unfold without in M. cbn [filter] in M. rewrite Nat.eqb_refl in M. cbn [negb] in M.
  apply (more_lookup cls (rrun cls ops) [] _ sub c n M); [intros []|intros x []|intros x []].
Qed.
Print Assumptions C64_gmpy_off.
(** numpy and pandas: so it is for every class and name, except those of datetime64. *)
Theorem C64_numpy_off :
  forall cls sub ops N H c n, none_registered cls ops (np_all N) ->
  c <> np_datetime64 N -> sub c (np_datetime64 N) = false -> n <> importable_name (cls (np_datetime64 N)) ->
  reg_lookup sub (numpy_unregister cls N (numpy_register cls N H (rrun cls ops))) c n = reg_lookup sub (rrun cls ops) c n.
Proof.
  intros cls sub ops N H c n U D1 D2 D3. apply none_untouched in U.
  pose proof (more_reg_all cls (np_all N) (rrun cls ops) U (numpy_entries N H) (incl_refl _) (rrun cls ops) (more_refl cls _ _)) as M.
  apply (more_unreg_all cls (np_all N) (rrun cls ops) U (numpy_removed N)) in M; [|intros x; cbn; tauto|apply incl_refl].
  assert (L : forall x, In x (without_all (numpy_removed N) (np_all N)) -> x = np_datetime64 N).
  { intros x I. apply without_all_in in I as [I X]. cbn in I, X. intuition congruence. }
  refine (more_lookup cls (rrun cls ops) _ _ sub c n M _ _ _).
  - intros I. apply D1, L, I.
  - intros x I. apply L in I. subst. exact D2.
  - intros x I. apply L in I. subst. exact D3.
Qed.
Print Assumptions C64_numpy_off.
Theorem C64_pandas_off :
  forall cls sub ops N H P G c n, none_registered cls ops (np_all N ++ pd_all P) ->
  c <> np_datetime64 N -> sub c (np_datetime64 N) = false -> n <> importable_name (cls (np_datetime64 N)) ->
  reg_lookup sub (pandas_unregister cls N P (pandas_register cls N H P G (rrun cls ops))) c n = reg_lookup sub (rrun cls ops) c n.
Proof.
  intros cls sub ops N H P G c n U D1 D2 D3. apply none_untouched in U. set (K := np_all N ++ pd_all P) in *.
  assert (I1 : incl (np_all N) K) by (intros x I; apply in_or_app; left; exact I).
  assert (I2 : incl (pd_all P) K) by (intros x I; apply in_or_app; right; exact I).
  pose proof (more_reg_all cls K (rrun cls ops) U (numpy_entries N H) I1 (rrun cls ops) (more_refl cls _ _)) as M.
  apply (more_reg_all cls K (rrun cls ops) U (pandas_entries P G) I2) in M.
  apply (more_unreg_all cls K (rrun cls ops) U (numpy_removed N)) in M; [|intros x I; apply I1; revert I; cbn; tauto|apply incl_refl].
  apply (more_unreg_all cls K (rrun cls ops) U (pandas_removed P)) in M; [|intros x I; apply I2; exact I|intros x I; apply without_all_in in I; apply I].
  assert (L : forall x, In x (without_all (pandas_removed P) (without_all (numpy_removed N) K)) -> x = np_datetime64 N).
  { intros x I. apply without_all_in in I as [I X]. apply without_all_in in I as [I Y]. unfold K in I. apply in_app_or in I as [I|I]; [|contradiction].
    cbn in I, Y. intuition congruence. }
  refine (more_lookup cls (rrun cls ops) _ _ sub c n M _ _ _).
  - intros I. apply D1, L, I.
  - intros x I. apply L in I. subst. exact D2.
  - intros x I. apply L in I. subst. exact D3.
Qed.
Print Assumptions C64_pandas_off.

(** Sample: classes 0..22, all with different names, each below itself only. *)
Definition sample_np : np_classes := mkNp 0 1 2 3 4 5 6 7 8.
Definition sample_pd : pd_classes := mkPd 9 10 11 12 13 14 15 16.
Definition named (c : nat) : cinfo := cbase (String (Ascii.ascii_of_nat (65 + c)) EmptyString).
Example C64_case :
  let ops := [OReg 20 3 true; OReg 21 4 false] in
  none_registered named ops (np_all sample_np ++ pd_all sample_pd) /\
  let on := pandas_register named sample_np (mkNpH 50 51 52 53 54) sample_pd (mkPdH 60 61 62 63 64 65 66 67) (rrun named ops) in
  reg_lookup Nat.eqb on 9 (u "x") = Some 60 /\ reg_lookup Nat.eqb (pandas_unregister named sample_np sample_pd on) 9 (u "x") = None /\
  reg_lookup Nat.eqb (pandas_unregister named sample_np sample_pd on) 20 (u "x") = Some 3.
Proof.
  split; [|split; [|split]; vm_compute; reflexivity].
  intros c I. cbn in I. repeat (destruct I as [<-|I]; [vm_compute; auto|]). destruct I.
Qed.

Lemma reg_all_run cls l ops : reg_all cls l (rrun cls ops) = rrun cls (ops ++ map (fun ch => OReg (fst ch) (snd ch) true) l).
Proof.
  revert ops. induction l as [|[c h] l IH]; intros ops; cbn [map]; [rewrite app_nil_r; reflexivity|].
  cbn [reg_all fold_left fst snd]. rewrite <- (rrun_snoc cls ops (OReg c h true)). fold (reg_all cls l (rrun cls (ops ++ [OReg c h true]))).
  rewrite IH, <- app_assoc. reflexivity.
Qed.
Lemma unreg_all_run cls l ops : unreg_all cls l (rrun cls ops) = rrun cls (ops ++ map OUnreg l).
Proof.
  revert ops. induction l as [|c l IH]; intros ops; cbn [map]; [rewrite app_nil_r; reflexivity|].
  cbn [unreg_all fold_left]. rewrite <- (rrun_snoc cls ops (OUnreg c)). fold (unreg_all cls l (rrun cls (ops ++ [OUnreg c]))).
  rewrite IH, <- app_assoc. reflexivity.
Qed.
(** datetime64: the handler stays, whatever was registered before. *)
Theorem C64_datetime64_refuted :
  forall cls sub ops N H n, ~ In (np_datetime64 N) (numpy_removed N) ->
  reg_lookup sub (numpy_unregister cls N (numpy_register cls N H (rrun cls ops))) (np_datetime64 N) n = Some (nh_datetime H).
Proof.
  intros cls sub ops N H n D. unfold numpy_unregister, numpy_register. rewrite reg_all_run, unreg_all_run.
  unfold reg_lookup. rewrite (get_cls_direct cls sub _ _ (nh_datetime H)); [reflexivity|].
  unfold registered. rewrite !rev_app_distr. cbn [numpy_removed numpy_entries map rev app fst snd newest about_class].
  assert (E : forall x, In x (numpy_removed N) -> Nat.eqb (np_datetime64 N) x = false).
  { intros x I. apply Nat.eqb_neq. intros <-. contradiction. }
  rewrite !E by (cbn; tauto). rewrite Nat.eqb_refl. reflexivity.
Qed.
Print Assumptions C64_datetime64_refuted.
(** A handler of one's own for arrays, registered before, is gone afterwards. *)
Theorem C64_own_handler_refuted :
  exists cls sub ops N H c h n, In c (np_all N) /\ c <> np_datetime64 N /\ reg_lookup sub (rrun cls ops) c n = Some h /\
    reg_lookup sub (numpy_unregister cls N (numpy_register cls N H (rrun cls ops))) c n = None.
Proof.
  exists named, Nat.eqb, [OReg 0 99 true], sample_np, (mkNpH 50 51 52 53 54), 0, 99, (u "x").
  split; [left; reflexivity|]. split; [discriminate|]. split; vm_compute; reflexivity.
Qed.
Print Assumptions C64_own_handler_refuted.
(** Subclasses: a class below MultiIndex or PeriodIndex, hence below Index, gets the handler of Index,
    because Index is registered first; for every registry in which its bases had no handler. *)
Lemma base_stays l : forall ops b, registered_base ops b <> None ->
  registered_base (ops ++ map (fun ch => OReg (fst ch) (snd ch) true) l) b <> None.
Proof.
  induction l as [|[c h] l IH] using rev_ind; intros ops b A; cbn [map]; [rewrite app_nil_r; exact A|].
  rewrite map_app, app_assoc. unfold registered_base in *. rewrite rev_app_distr. cbn [map rev app newest about_base fst snd].
  destruct (Nat.eqb b c); [discriminate|]. apply IH. exact A.
Qed.
Lemma base_other l : forall ops b, ~ In b (map fst l) ->
  registered_base (ops ++ map (fun ch => OReg (fst ch) (snd ch) true) l) b = registered_base ops b.
Proof.
  induction l as [|[c h] l IH] using rev_ind; intros ops b A; cbn [map]; [rewrite app_nil_r; reflexivity|].
  rewrite map_app in *. rewrite app_assoc. unfold registered_base in *. rewrite rev_app_distr. cbn [map rev app newest about_base fst snd].
  rewrite (proj2 (Nat.eqb_neq b c)); [apply IH|]; intros X; apply A; apply in_or_app; [left; exact X|right; left; symmetry; exact X].
Qed.
Theorem C64_index_subclass_refuted :
  forall cls sub ops N H P G c n,
  registered ops c = None -> ~ In c (np_all N ++ pd_all P) ->
  (forall b, sub c b = true -> registered_base ops b = None) -> (forall b, In b (np_all N) -> sub c b = false) ->
  sub c (pd_index P) = true -> sub c (pd_frame P) = false -> sub c (pd_series P) = false -> NoDup (pd_all P) ->
  reg_lookup sub (pandas_register cls N H P G (rrun cls ops)) c n = Some (ph_index G).
Proof.
  intros cls sub ops N H P G c n R NC RB NS S1 S3 S4 ND.
  unfold pandas_register, numpy_register. rewrite !reg_all_run. set (reg := fun ch : nat * nat => OReg (fst ch) (snd ch) true).
  set (early := [(pd_frame P, ph_frame G); (pd_series P, ph_series G)]).
  set (late := [(pd_period_index P, ph_period_index G); (pd_multi_index P, ph_multi_index G); (pd_timestamp P, ph_timestamp G); (pd_period P, ph_period G); (pd_interval P, ph_interval G)]).
  set (pre := (ops ++ map reg (numpy_entries N H)) ++ map reg (early ++ [(pd_index P, ph_index G)])).
  assert (E : (ops ++ map reg (numpy_entries N H)) ++ map reg (pandas_entries P G) = pre ++ map reg late).
  { unfold pre. rewrite <- (app_assoc (ops ++ _)), <- map_app. reflexivity. }
  rewrite E.
  assert (B : registered_base pre (pd_index P) = Some (ph_index G)).
  { unfold pre. rewrite map_app, !app_assoc. unfold registered_base. rewrite rev_app_distr. cbn [map rev app newest about_base reg fst snd].
    rewrite Nat.eqb_refl. reflexivity. }
  assert (X : reg_get_cls sub (rrun cls (pre ++ map reg late)) c = registered_base (pre ++ map reg late) (pd_index P)).
  { apply (get_cls_oldest cls sub (pre ++ map reg late) c (pd_index P)); [|exact S1|apply base_stays; rewrite B; discriminate|].
    - rewrite <- E. rewrite <- app_assoc, <- map_app. unfold registered. rewrite rev_app_distr.
      assert (F : forall x, In x (np_all N ++ pd_all P) -> Nat.eqb c x = false) by (intros x Hx; apply Nat.eqb_neq; intros ->; contradiction).
      cbn [numpy_entries pandas_entries app map rev reg fst snd newest about_class]. rewrite !F by (cbn; tauto). exact R.
    - intros b' S' A' D. exists pre, (map reg late). split; [reflexivity|]. split; [rewrite B; discriminate|]. split.
      + unfold pre. rewrite !base_other; [apply RB; exact S'| |].
        * intros Hx. rewrite NS in S'; [discriminate|]. exact Hx.
        * cbn. intros [<-|[<-|[<-|[]]]]; congruence.
      + intros p q Q. assert (Q' : exists l, p = map reg l).
        { apply map_eq_app in Q as (l1 & l2 & _ & Q & _). exists l1. symmetry. exact Q. }
        destruct Q' as (l & ->). apply base_stays. rewrite B. discriminate. }
  unfold reg_lookup. rewrite X. rewrite base_other, B; [reflexivity|].
  unfold pd_all in ND. apply NoDup_cons_iff in ND as [_ ND]. apply NoDup_cons_iff in ND as [_ ND]. apply NoDup_cons_iff in ND as [ND _].
  exact ND.
Qed.
Print Assumptions C64_index_subclass_refuted.
(** A class (20) below MultiIndex (13), which is below Index (11). *)
Example C64_subclass_case :
  let sub := fun a b => Nat.eqb a b || (Nat.eqb a 20 && (Nat.eqb b 13 || Nat.eqb b 11)) || (Nat.eqb a 13 && Nat.eqb b 11) in
  let on := pandas_register named sample_np (mkNpH 50 51 52 53 54) sample_pd (mkPdH 60 61 62 63 64 65 66 67) (rrun named []) in
  reg_lookup sub on 13 (u "x") = Some 64 /\ reg_lookup sub on 20 (u "x") = Some 62.
Proof. split; vm_compute; reflexivity. Qed.
