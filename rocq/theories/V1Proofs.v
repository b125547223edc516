(** Decoding a document and its version 1 form: the two runs in step. *)
From Verif Require Import PyStr Tags Json JsonText JsonTextProofs Base Heap Registry LoadClass Pickler Unpickler SpecGraph SpecPlain SpecRefs SpecFail SpecHoles SpecLack SpecV1 SpecJson.
From Verif Require Import PlainEncode RTBase RTStep RTPure RTCont RTKinds RTInst RTObj RTShapes RTProps PlainProofs CleanProofs FillProofs LackProofs.
From Coq Require Import List Lia. Import ListNotations.
Open Scope nat_scope.

(** the objects that are no dicts *)
Fixpoint pick (K : list bool) (xs : list val) : list val :=
  match K, xs with
  | b :: K, x :: xs => if b then pick K xs else x :: pick K xs
  | _, _ => []
  end.
Lemma pick_snoc K xs b x : length K = length xs -> pick (K ++ [b]) (xs ++ [x]) = pick K xs ++ (if b then [] else [x]).
Proof.
  revert xs. induction K as [|a K IH]; intros [|y xs] E; try discriminate; [destruct b; reflexivity|].
  cbn [app pick]. injection E as E. rewrite IH by auto. destruct a; reflexivity.
Qed.
Lemma pick_nth : forall K xs i x, nth_error K i = Some false -> nth_error xs i = Some x ->
  nth_error (pick K xs) (length (filter negb (firstn i K))) = Some x.
Proof.
  induction K as [|a K IH]; intros [|y xs] [|i] x A B; try discriminate; cbn [nth_error] in *.
  - injection A as ->. exact B.
  - cbn [firstn filter]. destruct a; cbn [negb length pick]; [|cbn [nth_error]]; apply IH; auto.
Qed.

(** the value of a scalar document, read at any time *)
Definition reads (w : world) (o : uopts) (j : json) : Prop := forall v, value_doc j = Some v ->
  jwf j = true /\ is_proxy v = false /\ (forall c h, hashable c h v = true) /\ exists N, forall m t, N <= m -> restore w o m j t = (Ret v, t).
Lemma values_run w o js : Forall (reads w o) js -> forall vs,
  (fix go js := match js with [] => Some [] | j :: js => match value_doc j, go js with Some v, Some vs => Some (v :: vs) | _, _ => None end end) js = Some vs ->
  forallb jwf js = true /\ (forall c h, forallb (hashable c h) vs = true) /\ exists N, forall m t, N <= m -> mapM (restore w o m) js t = (Ret vs, t).
Proof.
  induction 1 as [|j js R F IH]; intros vs E.
  - injection E as <-. repeat (split; auto). exists 0. reflexivity.
  - destruct (value_doc j) as [v|] eqn:E1; [|discriminate].
    match type of E with match ?x with _ => _ end = _ => destruct x as [vs1|] eqn:E2; [|discriminate] end. injection E as <-.
    destruct (R v E1) as (A1 & A2 & A3 & N1 & A4). destruct (IH vs1 eq_refl) as (B1 & B3 & N2 & B4).
    split; [cbn; rewrite A1; exact B1|]. split; [intros; cbn; rewrite A3; apply B3|]. exists (Nat.max N1 N2). intros m t L. cbn [mapM].
    rewrite (bind_eq _ _ t v t) by (apply A4; lia). rewrite (bind_eq _ _ t vs1 t) by (apply B4; lia). reflexivity.
Qed.
Lemma value_run w o j : reads w o j.
Proof.
  enough (H : reads w o j /\ forall js, j = JList js -> Forall (reads w o) js) by apply H.
  induction j as [|b|z|x|s|js IHj|ob IHj] using json_ind'; (split; [|try discriminate]).
  1-3: intros v E; injection E as <-; repeat (split; auto); exists 1; intros [|m] t L; [lia|reflexivity].
  1: intros v E; cbn [value_doc] in E; destruct (float_ok x) eqn:F; [|discriminate]; injection E as <-; repeat (split; auto); exists 1; intros [|m] t L; [lia|reflexivity].
  1: intros v E; cbn [value_doc] in E; destruct (str_ok s) eqn:F; [|discriminate]; injection E as <-; repeat (split; auto); exists 1; intros [|m] t L; [lia|reflexivity].
  1: intros v E; discriminate.
  1: { intros js0 [= <-]. eapply Forall_impl; [|exact IHj]. intros j H. apply H. }
  intros v E. destruct ob as [|[a x] [|]]; try discriminate; destruct x as [| | | | |js|]; try discriminate.
  inversion IHj as [|? ? [_ Fj] _]; subst. specialize (Fj js eq_refl). cbn [value_doc] in E.
  destruct (seqb_spec a (u "py/tuple")) as [->|]; [|discriminate].
  match type of E with option_map _ ?x = _ => destruct x as [vs|] eqn:E2; [|discriminate] end. injection E as <-.
  destruct (values_run w o js Fj vs E2) as (B1 & B3 & N & B4). split; [cbn [jwf map fst nodupb forallb]; rewrite B1; reflexivity|]. split; [reflexivity|]. split; [exact B3|].
  exists (S N). intros [|m] t L; [lia|].
  change (restore w o (S m) (JObj [(u "py/tuple", JList js)]) t) with (restore_tuple (restore w o m) [(u "py/tuple", JList js)] t).
  unfold restore_tuple. apply catch_ret. change (jfield TUPLE [(u "py/tuple", JList js)]) with (JList js). cbn [jiter].
  rewrite (bind_eq _ _ t js t) by reflexivity. rewrite (bind_eq _ _ t vs t) by (apply B4; lia). reflexivity.
Qed.
Definition set_of (js : list json) (acc : list val) : list val :=
  fold_left (fun a j => match value_doc j with Some v => set_add v a | None => a end) js acc.
Lemma set_values w o js : Forall (fun j => exists v, value_doc j = Some v) js ->
  forallb jwf js = true /\ exists N, forall m t acc c, N <= m ->
    foldM (fun acc j => v <- restore w o m j ;; h <- gets u_heap ;; if hashable c h v then ret (set_add v acc) else raise ETypeError) js acc t = (Ret (set_of js acc), t).
Proof.
  induction 1 as [|j js (v & E) F IH].
  - split; auto. exists 0. reflexivity.
  - destruct (value_run w o j v E) as (A1 & _ & A3 & N1 & A4). destruct IH as (B1 & N2 & B2). split; [cbn; rewrite A1; exact B1|].
    exists (Nat.max N1 N2). intros m t acc c L. cbn [foldM]. unfold set_of. cbn [fold_left]. rewrite E.
    rewrite (bind_eq _ _ t (set_add v acc) t); [apply B2; lia|]. rewrite (bind_eq _ _ t v t) by (apply A4; lia).
    rewrite (bind_eq _ _ t (u_heap t) t) by reflexivity. rewrite A3. reflexivity.
Qed.

Section run.
  Variables (w : world) (cl : list (pystr * val)) (uo : uopts).
  Hypothesis Uk : uo_keys uo = false.
  Let o1 := with_v1 true uo.
  Let o2 := with_v1 false uo.

  (** the state t1 of reading the version 1 form and the state t2 of reading the document *)
  Record sr (K : list bool) (t1 t2 : ust) : Prop := {
    sr_heap : u_heap t1 = u_heap t2;
    sr_prox : u_prox t1 = u_prox t2;
    sr_log : u_log t1 = u_log t2;
    sr_cls1 : u_classes t1 = cl;
    sr_cls2 : u_classes t2 = cl;
    sr_sw1 : u_swaps t1 = [];
    sr_sw2 : u_swaps t2 = [];
    sr_idx1 : idx_ok t1;
    sr_idx2 : idx_ok t2;
    sr_objs : u_objs t1 = pick K (u_objs t2);
    sr_len : length K = length (u_objs t2);
    sr_loc : forall v, In v (u_objs t2) -> exists l, v = VLoc l
  }.
  (** nothing that was there is changed, but for P *)
  Definition grows (P : loc -> Prop) (t t' : ust) : Prop :=
    length (u_heap t) <= length (u_heap t') /\ forall x, x < length (u_heap t) -> ~ P x -> hget (u_heap t') x = hget (u_heap t) x.
  Definition goes2 (K : list bool) (j j1 : json) (K' : list bool) : Prop :=
    jwf j = true /\ jwf j1 = true /\ exists N, forall m, N <= m -> forall t1 t2, sr K t1 t2 ->
      exists v t1' t2', restore w o1 m j1 t1 = (Ret v, t1') /\ restore w o2 m j t2 = (Ret v, t2') /\ is_proxy v = false /\ sr K' t1' t2' /\ grows nil_ t2 t2'.
  Definition goes2s (K : list bool) (js js1 : list json) (K' : list bool) : Prop :=
    forallb jwf js = true /\ forallb jwf js1 = true /\ exists N, forall m, N <= m -> forall t1 t2, sr K t1 t2 ->
      exists vs t1' t2', mapM (restore w o1 m) js1 t1 = (Ret vs, t1') /\ mapM (restore w o2 m) js t2 = (Ret vs, t2') /\
        Forall (fun v => is_proxy v = false) vs /\ sr K' t1' t2' /\ grows nil_ t2 t2'.
  Definition goes2f (K : list bool) (ob ob1 : jobj) (K' : list bool) : Prop :=
    map fst ob1 = map fst ob /\ forallb jwf (map snd ob) = true /\ forallb jwf (map snd ob1) = true /\
    exists N, forall m, N <= m -> forall nm keep p body1 body2, stores w o1 m nm keep p body1 -> stores w o2 m nm keep p body2 ->
      (forall a, In a (map fst ob) -> nm a) -> forall t1 t2 d, sr K t1 t2 -> keep (u_heap t2) -> hget (u_heap t2) p = Some (ODict d) ->
      exists t1' t2' d', foldM body1 ob1 tt t1 = (Ret tt, t1') /\ foldM body2 ob tt t2 = (Ret tt, t2') /\ sr K' t1' t2' /\ grows (eq p) t2 t2' /\
        keep (u_heap t2') /\ hget (u_heap t2') p = Some (ODict d') /\
        forall x, In x (map fst d') -> In x (map fst d) \/ exists a, x = VStr a /\ In a (map fst ob).

  Lemma grows_refl P t : grows P t t.
  Proof. split; auto. Qed.
  Lemma grows_trans (P Q : loc -> Prop) t t1 t2 : grows P t t1 -> grows Q t1 t2 -> (forall x, x < length (u_heap t) -> Q x -> P x) -> grows P t t2.
  Proof. intros [A1 A2] [B1 B2] H. split; [lia|]. intros x L N. rewrite B2, A2; auto. lia. Qed.

  Lemma idx_more t hp : idx_ok t -> idx_ok (us_heap (u_heap t ++ hp) t).
  Proof. intros H v n I. destruct (H v n I) as (l & -> & L). exists l. split; auto. cbn. rewrite app_length. lia. Qed.
  Lemma idx_set t p o : idx_ok t -> idx_ok (us_heap (hset (u_heap t) p o) t).
  Proof. intros H v n I. destruct (H v n I) as (l & -> & L). exists l. split; auto. cbn. rewrite hset_length. auto. Qed.
  Lemma sr_set K t1 t2 p o : sr K t1 t2 -> sr K (us_heap (hset (u_heap t1) p o) t1) (us_heap (hset (u_heap t2) p o) t2).
  Proof. intros [A1 A2 A3 A4 A5 A6 A7 A8 A9 A10 A11 A12]. constructor; auto; try (apply idx_set; auto). cbn. congruence. Qed.
  Lemma sr_more K t1 t2 hp : sr K t1 t2 -> sr K (us_heap (u_heap t1 ++ hp) t1) (us_heap (u_heap t2 ++ hp) t2).
  Proof. intros [A1 A2 A3 A4 A5 A6 A7 A8 A9 A10 A11 A12]. constructor; auto; try (apply idx_more; auto). cbn. congruence. Qed.
  Lemma enters t o : idx_ok t -> umkref (VLoc (length (u_heap t))) (us_heap (u_heap t ++ [o]) t) = (Ret (VLoc (length (u_heap t))), entered o t) /\ idx_ok (entered o t).
  Proof.
    intros H. split.
    - unfold umkref. cbn [u_idx us_heap]. rewrite idx_get_None; [reflexivity|]. intros m I. destruct (H _ _ I) as (x & X & L). injection X as <-. lia.
    - intros v n [I|I]; [injection I as <- _; exists (length (u_heap t)); split; auto; cbn; rewrite app_length; cbn; lia|].
      apply (idx_more t [o] H v n I).
  Qed.
  Lemma grows_more P t hp : grows P t (us_heap (u_heap t ++ hp) t).
  Proof. split; [cbn; rewrite app_length; lia|]. intros x L _. cbn. unfold hget. apply nth_error_app1; auto. Qed.
  Lemma sr_enter K t1 t2 o : sr K t1 t2 -> sr (K ++ [false]) (entered o t1) (entered o t2).
  Proof.
    intros S. pose proof S as [A1 A2 A3 A4 A5 A6 A7 A8 A9 A10 A11 A12]. constructor; auto; try (apply enters; auto); cbn.
    - congruence.
    - rewrite pick_snoc by auto. rewrite A10, A1. reflexivity.
    - rewrite !app_length, A11. reflexivity.
    - intros v I. apply in_app_or in I as [I|[<-|[]]]; eauto.
  Qed.
  Lemma sr_dict K t1 t2 o : sr K t1 t2 -> sr (K ++ [true]) (us_heap (u_heap t1 ++ [o]) t1) (entered o t2).
  Proof.
    intros S. pose proof S as [A1 A2 A3 A4 A5 A6 A7 A8 A9 A10 A11 A12]. constructor; auto; try (apply enters; auto); try (apply idx_more; auto); cbn.
    - congruence.
    - rewrite pick_snoc by auto. rewrite app_nil_r. auto.
    - rewrite !app_length, A11. reflexivity.
    - intros v I. apply in_app_or in I as [I|[<-|[]]]; eauto.
  Qed.

  Lemma go_value K j v : value_doc j = Some v -> goes2 K j j K.
  Proof.
    intros E. destruct (value_run w o1 j v E) as (J & Np & _ & N1 & R1). destruct (value_run w o2 j v E) as (_ & _ & _ & N2 & R2). split; auto. split; auto.
    exists (Nat.max N1 N2). intros m L t1 t2 S. exists v, t1, t2. split; [apply R1; lia|]. split; [apply R2; lia|]. split; auto. split; auto. apply grows_refl.
  Qed.
  Definition load_log (nm : pystr) : list Unpickler.event :=
    EvLoad nm :: match from_classes cl nm with None => [EvImport nm] | Some _ => [] end.
  Lemma load_run t nm v : u_classes t = cl -> loadclass w cl (JStr nm) = Ret v -> u_loadclass w (JStr nm) t = (Ret v, us_log (u_log t ++ load_log nm) t).
  Proof.
    intros C L. unfold u_loadclass, bind, gets, log, modify, lift, ret, load_log. rewrite C, L.
    destruct (from_classes cl nm); destruct t; cbn; [|rewrite <- app_assoc]; reflexivity.
  Qed.
  Lemma sr_log_more K t1 t2 lg : sr K t1 t2 -> sr K (us_log (u_log t1 ++ lg) t1) (us_log (u_log t2 ++ lg) t2).
  Proof. intros [A1 A2 A3 A4 A5 A6 A7 A8 A9 A10 A11 A12]. constructor; auto. cbn. congruence. Qed.
  Lemma go_type K c : str_ok (cname w c) = true -> loadclass w cl (JStr (cname w c)) = Ret (VType c) ->
    goes2 K (JObj [(u "py/type", JStr (cname w c))]) (JObj [(u "py/type", JStr (cname w c))]) K.
  Proof.
    intros J Ld. assert (W : jwf (JObj [(u "py/type", JStr (cname w c))]) = true) by (cbn [jwf map fst nodupb forallb]; rewrite J; reflexivity).
    split; auto. split; auto. exists 1. intros [|m] L t1 t2 S; [lia|].
    exists (VType c), (us_log (u_log t1 ++ load_log (cname w c)) t1), (us_log (u_log t2 ++ load_log (cname w c)) t2).
    assert (X : forall o t, u_classes t = cl -> restore w o (Datatypes.S m) (JObj [(u "py/type", JStr (cname w c))]) t = (Ret (VType c), us_log (u_log t ++ load_log (cname w c)) t)).
    { intros o t C. change (restore w o (Datatypes.S m) (JObj [(u "py/type", JStr (cname w c))]) t) with (restore_type w [(u "py/type", JStr (cname w c))] t).
      unfold restore_type. change (jfield TYPE_ [(u "py/type", JStr (cname w c))]) with (JStr (cname w c)). rewrite (bind_eq _ _ _ _ _ (load_run t _ _ C Ld)). reflexivity. }
    split; [apply X; apply S|]. split; [apply X; apply S|]. split; auto. split; [apply sr_log_more; auto|]. split; auto.
  Qed.
  Lemma go_ref K i : nth_error K i = Some false ->
    goes2 K (JObj [(u "py/id", JInt (Z.of_nat i))]) (JObj [(u "py/id", JInt (Z.of_nat (length (filter negb (firstn i K)))))]) K.
  Proof.
    intros E. split; [reflexivity|]. split; [reflexivity|]. exists 1. intros [|m] L t1 t2 Sd; [lia|].
    destruct (nth_error (u_objs t2) i) as [v|] eqn:Ev.
    2:{ apply nth_error_None in Ev. rewrite <- (sr_len _ _ _ Sd) in Ev. assert (i < length K) by (apply nth_error_Some; congruence). lia. }
    assert (X : forall o t n, nth_error (u_objs t) n = Some v -> restore w o (S m) (JObj [(u "py/id", JInt (Z.of_nat n))]) t = (Ret v, t)).
    { intros o t n H. change (restore_id [(ID, JInt (Z.of_nat n))] t = (Ret v, t)).
      unfold restore_id, bind, gets. change (sget ID [(ID, JInt (Z.of_nat n))]) with (Some (JInt (Z.of_nat n))).
      unfold py_index. destruct (Z.leb_spec 0 (Z.of_nat n)); [|lia]. rewrite Nat2Z.id, H. reflexivity. }
    exists v, t1, t2. split; [apply X; rewrite (sr_objs _ _ _ Sd); apply pick_nth; auto|]. split; [apply X; auto|]. split; [|split; [auto|apply grows_refl]].
    destruct (sr_loc _ _ _ Sd v (nth_error_In _ _ Ev)) as (l & ->). reflexivity.
  Qed.
  Lemma go_tuple K js js1 K' : goes2s K js js1 K' -> goes2 K (JObj [(u "py/tuple", JList js)]) (JObj [(u "py/tuple", JList js1)]) K'.
  Proof.
    intros (J & J1 & N & H). split; [cbn [jwf map fst nodupb forallb]; rewrite J; reflexivity|]. split; [cbn [jwf map fst nodupb forallb]; rewrite J1; reflexivity|].
    exists (S N). intros [|m] L t1 t2 Sd; [lia|]. destruct (H m ltac:(lia) t1 t2 Sd) as (vs & t1' & t2' & R1 & R2 & P & S' & G).
    assert (X : forall o js t t', mapM (restore w o m) js t = (Ret vs, t') -> restore w o (S m) (JObj [(u "py/tuple", JList js)]) t = (Ret (VTuple vs), t')).
    { intros o ks t t' Rs. change (restore w o (Datatypes.S m) (JObj [(u "py/tuple", JList ks)]) t) with (restore_tuple (restore w o m) [(u "py/tuple", JList ks)] t).
      unfold restore_tuple. apply catch_ret. change (jfield TUPLE [(u "py/tuple", JList ks)]) with (JList ks). cbn [jiter].
      rewrite (bind_eq _ _ t ks t) by reflexivity. rewrite (bind_eq _ _ _ _ _ Rs). reflexivity. }
    exists (VTuple vs), t1', t2'. auto 10.
  Qed.
  Lemma go_set K js : Forall (fun j => exists v, value_doc j = Some v) js -> goes2 K (JObj [(u "py/set", JList js)]) (JObj [(u "py/set", JList js)]) K.
  Proof.
    intros F. destruct (set_values w o1 js F) as (J & N1 & R1). destruct (set_values w o2 js F) as (_ & N2 & R2).
    assert (W : jwf (JObj [(u "py/set", JList js)]) = true) by (cbn [jwf map fst nodupb forallb]; rewrite J; reflexivity). split; auto. split; auto.
    exists (S (Nat.max N1 N2)). intros [|m] L t1 t2 Sd; [lia|]. pose proof (sr_more _ _ _ [OSet (set_of js [])] Sd) as S2.
    assert (X : forall o t, (forall acc c, foldM (fun acc j => v <- restore w o m j ;; h <- gets u_heap ;; if hashable c h v then ret (set_add v acc) else raise ETypeError) js acc t = (Ret (set_of js acc), t)) ->
      restore w o (S m) (JObj [(u "py/set", JList js)]) t = (Ret (VLoc (length (u_heap t))), us_heap (u_heap t ++ [OSet (set_of js [])]) t)).
    { intros o t Rs. change (restore w o (Datatypes.S m) (JObj [(u "py/set", JList js)]) t) with (restore_set w (restore w o m) [(u "py/set", JList js)] t).
      unfold restore_set. apply catch_ret. change (jfield SET_ [(u "py/set", JList js)]) with (JList js). cbn [jiter].
      rewrite (bind_eq _ _ t js t) by reflexivity. rewrite (bind_eq _ _ _ _ _ (Rs _ _)). reflexivity. }
    exists (VLoc (length (u_heap t2))), (us_heap (u_heap t1 ++ [OSet (set_of js [])]) t1), (us_heap (u_heap t2 ++ [OSet (set_of js [])]) t2). split.
    { rewrite <- (sr_heap _ _ _ Sd). apply X. intros. apply R1. lia. }
    split; [apply X; intros; apply R2; lia|]. split; auto. split; auto. apply grows_more.
  Qed.
  Lemma grows_entered P o t t' : grows P (entered o t) t' -> grows P t t'.
  Proof.
    intros [G1 G2]. cbn in G1. rewrite app_length in G1. cbn in G1. split; [lia|]. intros x L N. rewrite G2; auto.
    - cbn. unfold hget. apply nth_error_app1; auto.
    - cbn. rewrite app_length. lia.
  Qed.
  Lemma go_list K js js1 K' : goes2s (K ++ [false]) js js1 K' -> goes2 K (JList js) (JList js1) K'.
  Proof.
    intros (J & J1 & N & H). split; auto. split; auto. exists (S N). intros [|m] L t1 t2 Sd; [lia|].
    destruct (H m ltac:(lia) _ _ (sr_enter K t1 t2 (OList []) Sd)) as (vs & t1' & t2' & R1 & R2 & P & S' & G).
    assert (X : forall o ks t t', idx_ok t -> mapM (restore w o m) ks (entered (OList []) t) = (Ret vs, t') ->
      restore w o (S m) (JList ks) t = (Ret (VLoc (length (u_heap t))), us_heap (hset (u_heap t') (length (u_heap t)) (OList vs)) t')).
    { intros o ks t t' I Rs. change (restore w o (Datatypes.S m) (JList ks) t) with (restore_list (restore w o m) (JList ks) t). unfold restore_list.
      rewrite (bind_eq _ _ t (VLoc (length (u_heap t))) (us_heap (u_heap t ++ [OList []]) t)) by reflexivity.
      rewrite (bind_eq _ _ _ _ _ (proj1 (enters t (OList []) I))). cbn [jiter].
      rewrite (bind_eq _ _ _ ks (entered (OList []) t)) by reflexivity. rewrite (bind_eq _ _ _ _ _ Rs).
      set (t3 := us_heap (hset (u_heap t') (length (u_heap t)) (OList vs)) t'). rewrite (bind_eq _ _ t' tt t3) by reflexivity.
      rewrite (bind_eq _ _ t3 tt t3); [reflexivity|]. rewrite list_swaps_none by auto.
      unfold modify. rewrite app_nil_r. destruct t3; reflexivity. }
    exists (VLoc (length (u_heap t2))), (us_heap (hset (u_heap t1') (length (u_heap t2)) (OList vs)) t1'), (us_heap (hset (u_heap t2') (length (u_heap t2)) (OList vs)) t2'). split.
    { rewrite <- (sr_heap _ _ _ Sd). apply X; auto. apply Sd. }
    split; [apply X; auto; apply Sd|]. split; auto. split; [apply sr_set; auto|].
    apply grows_entered in G. destruct G as [G1 G2]. split; [cbn; rewrite hset_length; lia|].
    intros x Lx Nx. cbn. rewrite hget_hset_other by lia. apply G2; auto.
  Qed.

  Lemma go_nil K : goes2s K [] [] K.
  Proof. split; auto. split; auto. exists 0. intros m _ t1 t2 S. exists [], t1, t2. repeat (split; auto). Qed.
  Lemma go_cons K j j1 K1 js js1 K2 : goes2 K j j1 K1 -> goes2s K1 js js1 K2 -> goes2s K (j :: js) (j1 :: js1) K2.
  Proof.
    intros (A & A1 & N & H) (B & B1 & N' & H'). split; [cbn; rewrite A; auto|]. split; [cbn; rewrite A1; auto|]. exists (Nat.max N N'). intros m L t1 t2 Sd.
    destruct (H m ltac:(lia) t1 t2 Sd) as (v & s1 & s2 & R1 & R2 & P & S' & G).
    destruct (H' m ltac:(lia) s1 s2 S') as (vs & r1 & r2 & Q1 & Q2 & P' & S2 & G'). exists (v :: vs), r1, r2. split; [|split; [|split; [|split]]]; auto.
    - cbn [mapM]. rewrite (bind_eq _ _ _ _ _ R1). rewrite (bind_eq _ _ _ _ _ Q1). reflexivity.
    - cbn [mapM]. rewrite (bind_eq _ _ _ _ _ R2). rewrite (bind_eq _ _ _ _ _ Q2). reflexivity.
    - eapply grows_trans; eauto.
  Qed.
  Lemma go_fnil K : goes2f K [] [] K.
  Proof.
    split; auto. split; auto. split; auto. exists 0. intros m _ nm keep p body1 body2 _ _ _ t1 t2 d S Kp G. exists t1, t2, d. repeat (split; auto).
  Qed.
  Lemma dset_keys a v d x : In x (map fst (dset a v d)) -> In x (map fst d) \/ x = a.
  Proof.
    induction d as [|[y z] d IH]; cbn; [intros [<-|[]]; auto|]. destruct (key_eqb a y); cbn; [tauto|]. intros [<-|I]; auto. destruct (IH I); auto.
  Qed.
  Lemma go_fcons K a j j1 K1 ob ob1 K2 : goes2 K j j1 K1 -> goes2f K1 ob ob1 K2 -> goes2f K ((a, j) :: ob) ((a, j1) :: ob1) K2.
  Proof.
    intros (A & A1 & N & H) (E & B & B1 & N' & H'). split; [cbn; rewrite E; auto|]. split; [cbn; rewrite A; auto|]. split; [cbn; rewrite A1; auto|].
    exists (Nat.max N N'). intros m L nm keep p body1 body2 [C1 C2] [D1 D2] Nm t1 t2 d Sd Kp Gp.
    destruct (H m ltac:(lia) t1 t2 Sd) as (v & s1 & s2 & R1 & R2 & P & S' & G). destruct G as [G1 G2]. pose proof (hget_lt _ _ _ Gp) as Lp.
    assert (Gp' : hget (u_heap s2) p = Some (ODict d)) by (rewrite G2; [auto|auto|intros []]).
    assert (Kp' : keep (u_heap s2)). { apply (D1 (u_heap t2)); auto. intros x o _ Gx. rewrite (G2 x); [exact Gx|eapply hget_lt; eauto|intros []]. }
    pose proof (sr_set _ _ _ p (ODict (dset (VStr a) v d)) S') as S2. set (r1 := us_heap (hset (u_heap s1) p (ODict (dset (VStr a) v d))) s1) in *. set (r2 := us_heap (hset (u_heap s2) p (ODict (dset (VStr a) v d))) s2) in *.
    assert (Q1 : body1 tt (a, j1) t1 = (Ret tt, r1)).
    { apply C2; auto; [apply Nm; left; auto|rewrite (sr_heap _ _ _ S'); auto|rewrite (sr_heap _ _ _ S'); auto]. }
    assert (Q2 : body2 tt (a, j) t2 = (Ret tt, r2)) by (apply D2; auto; apply Nm; left; auto).
    assert (Gr : hget (u_heap r2) p = Some (ODict (dset (VStr a) v d))) by (cbn; apply hget_hset_same; eapply hget_lt; eauto).
    destruct (H' m ltac:(lia) nm keep p body1 body2 (conj C1 C2) (conj D1 D2) (fun b I => Nm b (or_intror I)) r1 r2 (dset (VStr a) v d) S2) as (x1 & x2 & d' & T1 & T2 & S3 & G3 & K3 & H3 & I3); auto.
    { apply (D1 (u_heap s2)); auto. intros x o Nx Gx. cbn. rewrite hget_hset_other; auto. }
    exists x1, x2, d'. split; [cbn [foldM]; rewrite (bind_eq _ _ _ _ _ Q1); exact T1|]. split; [cbn [foldM]; rewrite (bind_eq _ _ _ _ _ Q2); exact T2|].
    split; auto. split.
    { destruct G3 as [G3 G4]. cbn in G3. rewrite hset_length in G3. split; [lia|]. intros x Lx Nx. rewrite G4; auto; [|cbn; rewrite hset_length; lia].
      cbn. rewrite hget_hset_other by auto. apply G2; auto. }
    split; auto. split; auto. intros x I. destruct (I3 x I) as [I1|(b & -> & Ib)].
    - apply dset_keys in I1 as [I1| ->]; auto. right. exists a. cbn. auto.
    - right. exists b. cbn. auto.
  Qed.

  Lemma go_dict K ob ob1 K' : NoDup (map fst ob) -> (forall a, In a (map fst ob) -> name_ok false a = true) ->
    goes2f (K ++ [true]) ob ob1 K' -> goes2 K (JObj ob) (JObj ob1) K'.
  Proof.
    intros Nd Nm (E & J & J1 & N & H).
    assert (Np : forall a, In a (map fst ob) -> str_ok a = true /\ is_reserved a = false /\ seqb a B64 = false /\ seqb a B85 = false) by (intros a Ia; apply name_parts; auto).
    split; [apply jwf_obj; auto; intros a Ia; apply Np in Ia; tauto|]. split; [apply jwf_obj; auto; rewrite E; auto; intros a Ia; apply Np in Ia; tauto|].
    exists (S N). intros [|m] L t1 t2 Sd; [lia|]. pose proof (sr_dict _ _ _ (ODict []) Sd) as S1. set (p := length (u_heap t2)) in *.
    assert (Ep : p = length (u_heap t1)) by (rewrite (sr_heap _ _ _ Sd); reflexivity).
    set (body := fun (o : uopts) (_ : unit) (kv : pystr * json) => v <- restore w o m (snd kv) ;; dict_assign w p (VStr (fst kv)) v ;;; swap_if_proxy (VLoc p) (VStr (fst kv)) v SetValue).
    assert (B : forall o, stores w o m (fun _ => True) (fun _ => True) p (body o)).
    { intros o. split; auto. intros a j v s1 s2 dd _ Rs _ Gd Pv. unfold body. cbn [fst snd]. rewrite (bind_eq _ _ _ _ _ Rs).
      rewrite (bind_eq _ _ s2 tt (us_heap (hset (u_heap s2) p (ODict (dset (VStr a) v dd))) s2)).
      - unfold swap_if_proxy. rewrite Pv. reflexivity.
      - unfold dict_assign, get_uobj. rewrite (bind_eq _ _ s2 (ODict dd) s2).
        + rewrite (bind_eq _ _ s2 (u_heap s2) s2) by reflexivity. reflexivity.
        + rewrite (bind_eq _ _ s2 (u_heap s2) s2) by reflexivity. rewrite Gd. reflexivity. }
    assert (Hp : hget (u_heap (entered (ODict []) t2)) p = Some (ODict [])) by (cbn; apply hget_app_new).
    destruct (H m ltac:(lia) _ _ p (body o1) (body o2) (B o1) (B o2) (fun _ _ => Logic.I) _ _ [] S1 Logic.I Hp) as (r1 & r2 & d' & R1 & R2 & S2 & G & _).
    assert (U : forall ob2, map fst ob2 = map fst ob -> untagged ob2 = true).
    { intros ob2 E2. apply untagged_names. intros a Ia. change (Json.keys ob2) with (map fst ob2) in Ia. rewrite E2 in Ia. apply Np in Ia. tauto. }
    exists (VLoc p), r1, r2. split; [|split; [|split; [reflexivity|split; [exact S2|]]]].
    - rewrite restore_untagged by auto. unfold restore_dict.
      rewrite (bind_eq _ _ t1 (VLoc p) (us_heap (u_heap t1 ++ [ODict []]) t1)) by (rewrite Ep; reflexivity).
      change (uo_v1 o1) with true. change (uo_keys o1) with (uo_keys uo). rewrite Uk. cbv iota.
      rewrite (bind_eq _ _ _ tt (us_heap (u_heap t1 ++ [ODict []]) t1)) by reflexivity.
      change (foldM (body o1) ob1 tt (us_heap (u_heap t1 ++ [ODict []]) t1) = (Ret tt, r1)) in R1. rewrite (bind_eq _ _ _ _ _ R1). reflexivity.
    - rewrite restore_untagged by auto. unfold restore_dict.
      rewrite (bind_eq _ _ t2 (VLoc p) (us_heap (u_heap t2 ++ [ODict []]) t2)) by reflexivity.
      change (uo_v1 o2) with false. change (uo_keys o2) with (uo_keys uo). rewrite Uk. cbv iota.
      rewrite (bind_eq _ _ _ tt (entered (ODict []) t2)).
      2:{ rewrite (bind_eq _ _ _ _ _ (proj1 (enters t2 (ODict []) (sr_idx2 _ _ _ Sd)))). reflexivity. }
      change (foldM (body o2) ob tt (entered (ODict []) t2) = (Ret tt, r2)) in R2. rewrite (bind_eq _ _ _ _ _ R2). reflexivity.
    - apply grows_entered in G. destruct G as [G1 G2]. split; auto. intros x Lx _. apply G2; auto. lia.
  Qed.

  (** a new instance, up to the restoring of its attributes *)
  Lemma new_run o m c ob t : found w w cl c -> idx_ok t -> u_classes t = cl -> (forall a, In a (map fst ob) -> attr_ok false (w_cls w c) a = true) ->
    exists t4, u_heap t4 = u_heap t ++ [ODict []; OInst (mk_inst c (length (u_heap t)))] /\ u_objs t4 = u_objs t ++ [VLoc (S (length (u_heap t)))] /\
      u_prox t4 = u_prox t ++ [Some (VLoc (S (length (u_heap t))))] /\ u_swaps t4 = u_swaps t /\ u_classes t4 = u_classes t /\
      u_log t4 = u_log t ++ load_log (cname w c) ++ [EvNew c [] []] /\ idx_ok t4 /\
      restore w o (S m) (JObj ((u "py/object", JStr (cname w c)) :: ob)) t =
        (inst2 <- restore_object_instance_variables w o (restore w o m) ((u "py/object", JStr (cname w c)) :: ob) (VLoc (S (length (u_heap t)))) ;; fin w inst2) t4.
  Proof.
    intros Fo Ix Cl Nm. destruct Fo as [F1 F2 F3 F4 F5 F6]. set (b := length (u_heap t)). set (ob0 := (u "py/object", JStr (cname w c)) :: ob).
    assert (Nr : forall tg, In tg [NEWARGSEX; NEWARGS; INITARGS; SEQ; DEFAULT_FACTORY; u "default_factory"] -> sget tg ob0 = None).
    { intros tg I. apply sget_notin. intros [E|Ia].
      - change (OBJECT = tg) in E. subst tg. cbn [In] in I. assert (X : forallb (fun x => negb (seqb OBJECT x)) [NEWARGSEX; NEWARGS; INITARGS; SEQ; DEFAULT_FACTORY; u "default_factory"] = true) by reflexivity.
        rewrite forallb_forall in X. specialize (X OBJECT I). destruct (seqb_spec OBJECT OBJECT); [discriminate|congruence].
      - apply Nm in Ia. apply attr_ok_split in Ia as (A1 & _ & A3 & _). apply name_parts in A1 as (_ & A1 & _).
        assert (X : forallb (fun x => is_reserved x || seqb x (u "default_factory")) [NEWARGSEX; NEWARGS; INITARGS; SEQ; DEFAULT_FACTORY; u "default_factory"] = true) by reflexivity.
        rewrite forallb_forall in X. specialize (X tg I). rewrite A1, A3 in X. discriminate. }
    pose proof (load_run t _ _ Cl F1) as EL. set (lg := u_log t ++ load_log (cname w c)) in *.
    set (pp := length (u_prox t)). set (t1 := us_prox (u_prox t ++ [None]) (us_log lg t)).
    assert (Np : idx_get (VProxy pp) (u_idx t) = None).
    { apply idx_get_None. intros q I. destruct (Ix _ _ I) as (z & Z1 & _). discriminate. }
    set (t2 := uref (VProxy pp) t1).
    assert (E3 : new_attempt w c None (Ret []) (Ret []) t2 = (Ret (VLoc (S b)), us_log (u_log t2 ++ [EvNew c [] []]) (us_heap (u_heap t ++ [ODict []; OInst (mk_inst c b)]) t2))).
    { pose proof (new_attempt_run w false (mkPopts true true false None false None false None false false VNone false None false) o 0 0 (le_n 0) c None [] [] t2 Logic.I (F6 _)) as X. cbn [olist app] in X. rewrite X. unfold cell, cells. rewrite F4. reflexivity. }
    set (t3 := us_log _ (us_heap _ t2)) in E3.
    set (t3' := us_prox (list_set (u_prox t3) pp (Some (VLoc (S b)))) t3).
    set (t4 := us_objs (list_set (u_objs t3') (length (u_objs t)) (VLoc (S b)))
                 (us_idx (idx_del (VProxy pp) ((VLoc (S b), length (u_objs t)) :: idx_del (VLoc (S b)) (u_idx t3'))) t3')).
    assert (H4 : u_heap t4 = u_heap t ++ [ODict []; OInst (mk_inst c b)]) by reflexivity.
    exists t4. split; auto. split; [cbn; apply (list_set_app (u_objs t) [])|]. split; [cbn; apply (list_set_app (u_prox t) [])|].
    split; [reflexivity|]. split; [reflexivity|]. split; [cbn; unfold lg; rewrite <- app_assoc; reflexivity|]. split.
    { intros v n I. change (u_idx t4) with (idx_del (VProxy pp) ((VLoc (S b), length (u_objs t)) :: idx_del (VLoc (S b)) (u_idx t3'))) in I. rewrite H4, app_length.
      apply idx_del_In in I as ([I|I] & Nv).
      - injection I as <- _. exists (S b). split; auto. cbn. unfold b. lia.
      - apply idx_del_In in I as (I & _). destruct I as [I|I]; [injection I as <- _; contradiction|].
        destruct (Ix v n I) as (z & -> & Lz). exists z. split; auto. cbn. lia. }
    change (restore w o (S m) (JObj ob0) t) with (restore_step w o (restore w o m) (JObj ob0) t). rewrite dispatch_object.
    2: reflexivity.
    2:{ intros a [<-|Ia]; [left; vm_compute; auto|]. right. right. right. apply Nm in Ia. apply attr_ok_split in Ia as (A1 & _). apply name_parts in A1. tauto. }
    unfold restore_object. change (jfield OBJECT ob0) with (JStr (cname w c)). rewrite (bind_eq _ _ _ _ _ EL). rewrite F2. unfold restore_object_instance.
    rewrite (bind_eq _ _ (us_log lg t) (VProxy pp) t1) by reflexivity.
    rewrite (bind_eq _ _ t1 (VProxy pp) t2).
    2:{ unfold umkref. cbn [t1 u_idx us_prox us_log]. rewrite Np. reflexivity. }
    rewrite (bind_eq _ _ t2 (None, ob0) t2).
    2:{ unfold loadfactory. rewrite (Nr DEFAULT_FACTORY), (Nr (u "default_factory")) by (cbn; auto 10). reflexivity. }
    cbv beta iota. rewrite (bind_eq _ _ t2 (JList [], JObj []) t2).
    2:{ rewrite (Nr NEWARGSEX) by (cbn; auto 10). unfold getargs. rewrite (Nr NEWARGS), (Nr INITARGS), (Nr SEQ) by (cbn; auto 10). reflexivity. }
    cbn [fst snd]. rewrite (bind_eq _ _ t2 (Ret []) t2) by reflexivity. rewrite (bind_eq _ _ t2 (Ret []) t2) by reflexivity.
    rewrite (bind_eq _ _ t2 (Some (VLoc (S b))) t3).
    2:{ apply catch_ret. rewrite (bind_eq _ _ _ _ _ E3). reflexivity. }
    rewrite (bind_eq _ _ t3 (Some (VLoc (S b))) t3) by reflexivity. rewrite (bind_eq _ _ t3 tt t3') by reflexivity.
    rewrite (bind_eq _ _ t3' tt t4).
    2:{ unfold swapref. assert (X : idx_get (VProxy pp) (u_idx t3') = Some (length (u_objs t))).
        { cbn [t3' t3 t2 uref u_idx us_prox us_log us_heap us_objs us_idx idx_get]. destruct (val_eqb_spec (VProxy pp) (VProxy pp)); [reflexivity|congruence]. }
        rewrite X. reflexivity. }
    rewrite (bind_eq _ _ t4 (u_heap t4) t4) by reflexivity.
    assert (X : is_tuple w (u_heap t4) (VLoc (S b)) = false).
    { unfold is_tuple. rewrite H4. unfold b. unfold hget. rewrite nth_error_app2 by lia. replace (S (length (u_heap t)) - length (u_heap t)) with 1 by lia. cbn. rewrite F3. reflexivity. }
    rewrite X. reflexivity.
  Qed.

  Lemma go_inst K c ob ob1 K' : str_ok (cname w c) = true -> found w w cl c -> NoDup (map fst ob) ->
    (forall a, In a (map fst ob) -> attr_ok false (w_cls w c) a = true /\ slot_named (w_cls w c) a = false) -> goes2f (K ++ [false]) ob ob1 K' ->
    goes2 K (JObj ((u "py/object", JStr (cname w c)) :: ob)) (JObj ((u "py/object", JStr (cname w c)) :: ob1)) K'.
  Proof.
    intros Sn Fo Nd Nm (E & J & J1 & N & H).
    assert (Np : forall a, In a (map fst ob) -> str_ok a = true /\ is_reserved a = false /\ seqb a B64 = false /\ seqb a B85 = false).
    { intros a Ia. apply name_parts. apply Nm in Ia as (Ia & _). apply attr_ok_split in Ia. tauto. }
    assert (W : forall ob2, map fst ob2 = map fst ob -> forallb jwf (map snd ob2) = true -> jwf (JObj ((u "py/object", JStr (cname w c)) :: ob2)) = true).
    { intros ob2 E2 J2. apply jwf_obj.
      - cbn. rewrite E2. constructor; auto. intros I. apply Np in I as (_ & I & _). discriminate.
      - cbn. rewrite E2. intros a [<-|I]; [reflexivity|]. apply Np in I. tauto.
      - cbn [map snd forallb jwf]. rewrite Sn. exact J2. }
    split; auto. split; auto. exists (S N). intros [|m] L t1 t2 Sd; [lia|].
    assert (Nm1 : forall a, In a (map fst ob) -> attr_ok false (w_cls w c) a = true) by (intros a Ia; apply Nm; auto).
    destruct (new_run o1 m c ob1 t1 Fo (sr_idx1 _ _ _ Sd) (sr_cls1 _ _ _ Sd)) as (s1 & A1 & A2 & A3 & A4 & A5 & A6 & A7 & Run1); [rewrite E; auto|].
    destruct (new_run o2 m c ob t2 Fo (sr_idx2 _ _ _ Sd) (sr_cls2 _ _ _ Sd) Nm1) as (s2 & B1 & B2 & B3 & B4 & B5 & B6 & B7 & Run2).
    rewrite (sr_heap _ _ _ Sd) in A1, A2, A3, Run1. set (b := length (u_heap t2)) in *. assert (Eb : b = length (u_heap t2)) by reflexivity.
    assert (S4 : sr (K ++ [false]) s1 s2).
    { destruct Sd as [C1 C2 C3 C4 C5 C6 C7 C8 C9 C10 C11 C12]. constructor; auto; try congruence.
      - rewrite A2, B2, pick_snoc by auto. congruence.
      - rewrite B2, !app_length, C11. reflexivity.
      - rewrite B2. intros v I. apply in_app_or in I as [I|[<-|[]]]; eauto. }
    assert (G4d : hget (u_heap s2) b = Some (ODict [])).
    { rewrite B1. unfold hget. rewrite nth_error_app2, Eb, Nat.sub_diag by lia. reflexivity. }
    assert (G4x : hget (u_heap s2) (S b) = Some (OInst (mk_inst c b))).
    { rewrite B1. unfold hget. rewrite nth_error_app2 by lia. replace (S b - length (u_heap t2)) with 1 by lia. reflexivity. }
    set (body := fun (o : uopts) (_ : unit) (kv : pystr * json) => if is_reserved (fst kv) then ret tt
       else key <- restore_key o (restore w o m) (fst kv) ;; v <- restore w o m (snd kv) ;; set_one w o (VLoc (S b)) key v).
    assert (B : forall o, uo_keys o = false -> stores w o m (fun a => attr_ok false (w_cls w c) a = true /\ slot_named (w_cls w c) a = false)
                  (fun h1 => hget h1 (S b) = Some (OInst (mk_inst c b))) b (body o)).
    { intros o Ko. split.
      - intros h1 h2 K1 Hs. apply Hs; auto.
      - intros a j v x1 x2 dd (D1 & D2) Rs K1 Gdd Pv. destruct (attr_ok_split _ _ _ D1) as (E1 & E2 & E3 & _). apply name_parts in E1 as (_ & E1 & _).
        unfold body. cbn [fst snd]. rewrite E1. unfold restore_key. rewrite Ko. rewrite (bind_eq _ _ x1 (VStr a) x1) by reflexivity. rewrite (bind_eq _ _ _ _ _ Rs).
        eapply set_one_run; [exact K1| |exact D1|exact Pv|].
        + cbn. rewrite (fd_kind _ _ _ _ Fo). discriminate.
        + unfold inst_store. cbn [mk_inst i_cls i_dict]. rewrite (dunder_not_dict _ E2), E3. cbn [andb]. unfold slot_named in D2. rewrite D2, Gdd. reflexivity. }
    destruct (H m ltac:(lia) _ _ b (body o1) (body o2) (B o1 Uk) (B o2 Uk) Nm s1 s2 [] S4 G4x G4d) as (r1 & r2 & d' & R1 & R2 & S5 & G & K5 & G5 & I5).
    assert (Fin : forall r, u_heap r = u_heap r2 -> fin w (VLoc (S b)) r = (Ret (VLoc (S b)), r)).
    { intros r Er. unfold fin. rewrite (bind_eq _ _ r None r); [reflexivity|]. unfold gets, inst_factory. cbn [u_inst]. rewrite Er, K5. cbn [mk_inst i_cls].
      rewrite (fd_deffac _ _ _ _ Fo). unfold inst_attr. cbn [mk_inst i_slots sget i_dict]. rewrite G5.
      assert (X : dget (VStr (u "default_factory")) d' = None).
      { apply dget_none. intros x Ix. destruct (I5 x Ix) as [[]|(a & -> & Ia)]. rewrite key_str.
        apply Nm in Ia as (D1 & _). apply attr_ok_split in D1 as (_ & _ & D3 & _).
        destruct (seqb_spec (u "default_factory") a) as [<-|]; auto. }
      rewrite X. reflexivity. }
    assert (Vars : forall o ob2 s r, map fst ob2 = map fst ob -> foldM (body o) ob2 tt s = (Ret tt, r) ->
      restore_object_instance_variables w o (restore w o m) ((u "py/object", JStr (cname w c)) :: ob2) (VLoc (S b)) s = (Ret (VLoc (S b)), r)).
    { intros o ob2 s r E2 Rs. assert (NS : forall tg, is_reserved tg = true -> seqb tg (u "py/object") = false -> sget tg ((u "py/object", JStr (cname w c)) :: ob2) = None).
      { intros tg Rt Nt. apply sget_notin. cbn [map fst]. rewrite E2. intros [X|Ia]; [cbn in X; subst tg; discriminate|]. apply Np in Ia as (_ & Ia & _). congruence. }
      unfold restore_object_instance_variables. rewrite (bind_eq _ _ s tt r).
      - rewrite (NS SEQ), (NS STATE) by reflexivity. reflexivity.
      - unfold restore_from_dict. cbn [foldM]. rewrite (bind_eq _ _ s tt s) by reflexivity. exact Rs. }
    exists (VLoc (S b)), r1, r2. split; [|split; [|split; [reflexivity|split; [exact S5|]]]].
    - rewrite Run1. rewrite (bind_eq _ _ _ _ _ (Vars o1 ob1 s1 r1 E R1)). apply Fin. apply (sr_heap _ _ _ S5).
    - rewrite Run2. rewrite (bind_eq _ _ _ _ _ (Vars o2 ob s2 r2 eq_refl R2)). apply Fin. reflexivity.
    - destruct G as [G1 G2]. rewrite B1, app_length in G1. cbn in G1. split; [lia|]. intros x Lx _. rewrite G2; [|rewrite B1, app_length; lia|lia].
      rewrite B1. unfold hget. apply nth_error_app1; auto.
  Qed.

  Theorem all_go : (forall K j j1 K', old_form w cl K j j1 K' -> goes2 K j j1 K') /\ (forall K js js1 K', old_forms w cl K js js1 K' -> goes2s K js js1 K') /\
    (forall K ob ob1 K', old_fields w cl K ob ob1 K' -> goes2f K ob ob1 K').
  Proof.
    apply old_mutind; intros; [eapply go_value; eauto|apply go_type; auto|apply go_tuple; auto|apply go_set; auto|apply go_ref; auto|apply go_list; auto
      |apply go_dict; auto|apply go_inst; auto|apply go_nil|eapply go_cons; eauto|apply go_fnil|eapply go_fcons; eauto].
  Qed.
End run.
