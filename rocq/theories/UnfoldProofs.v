(** Encoding without references: every object is written in full wherever it occurs. *)
From Verif Require Import PyStr Tags Json JsonText Base Heap Registry Pickler PGen PStep SpecPlain SpecHoles SpecDepth SpecUnfold HeapProofs PlainEncode HolesProofs RTBase.
From Coq Require Import List. Import ListNotations.
Open Scope nat_scope.
Local Open Scope monad_scope.

Lemma jdepth_list js j : In j js -> jdepth j < jdepth (JList js).
Proof.
  intros I. cbn [jdepth]. apply le_n_S. induction js as [|x js IH]; [destruct I|]. cbn [map list_max fold_right].
  fold (list_max (map jdepth js)). destruct I as [->|I]; [lia|]. specialize (IH I). lia.
Qed.
Lemma jdepth_obj (ob : jobj) a j : In (a, j) ob -> jdepth j < jdepth (JObj ob).
Proof.
  intros I. cbn [jdepth]. apply le_n_S. induction ob as [|[b x] ob IH]; [destruct I|]. cbn [map list_max fold_right snd].
  fold (list_max (map (fun kv : pystr * json => jdepth (snd kv)) ob)). destruct I as [[= -> ->]|I]; [lia|]. specialize (IH I). lia.
Qed.

Section det.
  Variables (w : world) (tg : bool) (h : heap).
  Lemma spelled_det : (forall v j, spelled w tg h v j -> forall j', spelled w tg h v j' -> j = j') /\
    (forall vs js, spelleds w tg h vs js -> forall js', spelleds w tg h vs js' -> js = js') /\
    (forall d ob, spelled_fields w tg h d ob -> forall ob', spelled_fields w tg h d ob' -> ob = ob').
  Proof.
    apply spelled_mutind.
    - intros j' S. inversion S; reflexivity.
    - intros b j' S. inversion S; reflexivity.
    - intros z j' S. inversion S; reflexivity.
    - intros t j' S. inversion S; reflexivity.
    - intros s j' S. inversion S; reflexivity.
    - intros c j' S. inversion S; reflexivity.
    - intros vs js _ IH j' S. inversion S as [| | | | | |vs0 js0 S0| | | |]. subst. rewrite (IH _ S0). reflexivity.
    - intros l vs js G _ IH j' S. inversion S as [| | | | | | |l0 vs0 js0 G0 S0|l0 vs0 js0 G0 S0|l0 d0 ob0 G0 S0|l0 i0 dl0 d0 ob0 G0 P0 D0 G1 S0]; subst;
        rewrite G in G0; try discriminate G0. injection G0 as <-. rewrite (IH _ S0). reflexivity.
    - intros l vs js G _ IH j' S. inversion S as [| | | | | | |l0 vs0 js0 G0 S0|l0 vs0 js0 G0 S0|l0 d0 ob0 G0 S0|l0 i0 dl0 d0 ob0 G0 P0 D0 G1 S0]; subst;
        rewrite G in G0; try discriminate G0. injection G0 as <-. rewrite (IH _ S0). reflexivity.
    - intros l d ob G _ IH j' S. inversion S as [| | | | | | |l0 vs0 js0 G0 S0|l0 vs0 js0 G0 S0|l0 d0 ob0 G0 S0|l0 i0 dl0 d0 ob0 G0 P0 D0 G1 S0]; subst;
        rewrite G in G0; try discriminate G0. injection G0 as <-. rewrite (IH _ S0). reflexivity.
    - intros l i dl d ob G P D Gd _ IH j' S. inversion S as [| | | | | | |l0 vs0 js0 G0 S0|l0 vs0 js0 G0 S0|l0 d0 ob0 G0 S0|l0 i0 dl0 d0 ob0 G0 P0 D0 G1 S0]; subst;
        rewrite G in G0; try discriminate G0. injection G0 as <-. rewrite D in D0. injection D0 as <-. rewrite Gd in G1. injection G1 as <-.
      rewrite (IH _ S0). reflexivity.
    - intros js' S. inversion S. reflexivity.
    - intros v j vs js _ IH1 _ IH2 js' S. inversion S as [|v0 j0 vs0 js0 S1 S2]. subst. rewrite (IH1 _ S1), (IH2 _ S2). reflexivity.
    - intros ob' S. inversion S. reflexivity.
    - intros a v j d ob _ _ _ _ _ IH1 _ IH2 ob' S. inversion S as [|a0 v0 j0 d0 ob0 X1 X2 X3 X4 S1 S2]. subst. rewrite (IH1 _ S1), (IH2 _ S2). reflexivity.
  Qed.
End det.

Lemma cache_same v j c : cache_get v ((v, j) :: c) = Some j.
Proof. cbn [cache_get]. destruct (val_eqb_spec v v); congruence. Qed.
Lemma cache_other v x j c : cache_get v c <> None -> cache_get v ((x, j) :: c) <> None.
Proof. cbn [cache_get]. destruct (val_eqb v x); [discriminate|auto]. Qed.

Section encoding.
  Variables (w : world) (k : hooks) (o : popts) (h : heap).
  Notation tg := (po_unpicklable o).
  Hypothesis Om : tg && po_make_refs o = false.
  Hypothesis Od : po_max_depth o = None.
  Hypothesis Op : po_props o = false.
  Hypothesis Or : po_readonly o = false.
  Hypothesis Ok : po_keys o = false.
  Notation spelled := (spelled w tg h).
  Notation spelleds := (spelleds w tg h).
  Notation spelled_fields := (spelled_fields w tg h).

  (** What is cached is right; an object that is numbered and not cached is being written, its
      document is deeper than n. *)
  Definition good (s : pst) (n : nat) : Prop :=
    p_heap s = h /\ (forall x j, cache_get x (p_cache s) = Some j -> spelled x j) /\
    (forall x, In x (p_objs s) -> cache_get x (p_cache s) <> None \/ exists j, spelled x j /\ n < jdepth j).
  Definition fin (s s' : pst) : Prop :=
    p_heap s' = h /\ ((0 <= p_depth s)%Z -> p_depth s' = p_depth s /\
      (forall x j, cache_get x (p_cache s') = Some j -> spelled x j) /\
      (forall x, cache_get x (p_cache s) <> None -> cache_get x (p_cache s') <> None) /\
      (forall x, In x (p_objs s') -> In x (p_objs s) \/ cache_get x (p_cache s') <> None)).
  Lemma good_le s n m : m <= n -> good s n -> good s m.
  Proof. intros L (A & B & C). split; [exact A|]. split; [exact B|]. intros x I. destruct (C x I) as [D|(j & D & E)]; [auto|]. right. exists j. split; [auto|lia]. Qed.
  Lemma fin_good s s' n : (0 <= p_depth s)%Z -> good s n -> fin s s' -> good s' n /\ (0 <= p_depth s')%Z.
  Proof.
    intros D (A & B & C) (E & F). destruct (F D) as (F1 & F2 & F3 & F4). split; [|lia]. split; [exact E|]. split; [exact F2|].
    intros x I. destruct (F4 x I) as [I0|Cx]; [|auto]. destruct (C x I0) as [Cx|X]; [left; auto|right; exact X].
  Qed.
  Lemma fin_refl s n : good s n -> fin s s.
  Proof. intros (A & B & C). split; [exact A|]. intros _. split; [reflexivity|]. split; [exact B|]. split; auto. Qed.
  Lemma fin_trans s s1 s2 : (0 <= p_depth s)%Z -> fin s s1 -> fin s1 s2 -> fin s s2.
  Proof.
    intros D (A & B) (C & E). destruct (B D) as (B1 & B2 & B3 & B4). destruct E as (E1 & E2 & E3 & E4); [lia|]. split; [exact C|]. intros _.
    split; [lia|]. split; [exact E2|]. split; [auto|]. intros x I. destruct (E4 x I) as [I1|X]; [|auto]. destruct (B4 x I1) as [I2|X]; auto.
  Qed.

  Definition goes (v : val) (j : json) : Prop :=
    exists N, forall n s, N <= n -> (-1 <= p_depth s)%Z -> good s (jdepth j) -> exists s', flatten w k o n v s = (Ret j, s') /\ fin s s'.
  Definition goes_list (vs : list val) (js : list json) : Prop :=
    exists N, forall n s b, N <= n -> (0 <= p_depth s)%Z -> (forall j, In j js -> jdepth j <= b) -> good s b ->
      exists s', mapM (flatten w k o n) vs s = (Ret js, s') /\ fin s s'.
  Definition goes_fields (d : list (val * val)) (ob : jobj) : Prop :=
    exists N, forall n s acc b, N <= n -> (0 <= p_depth s)%Z -> (forall a j, In (a, j) ob -> jdepth j <= b) -> good s b ->
      (forall a, In a (map fst ob) -> ~ In a (map fst acc)) ->
      exists s', flatten_items w k o (flatten w k o n) d [] acc s = (Ret (acc ++ ob), s') /\ fin s s'.

  Lemma step_off n v : flatten w k o (S n) v =
    (c <- gets p_cache ;;
     match cache_get v c with
     | Some j => ret j
     | None => j <- flatten_impl w k o n (flatten w k o n) v ;; modify (fun s => set_cache ((v, j) :: p_cache s) s) ;;; ret j
     end).
  Proof. cbn [flatten]. unfold flatten_step. rewrite Om. reflexivity. Qed.
  Definition stored (v : val) (j : json) (s : pst) : pst := set_cache ((v, j) :: p_cache s) s.

  (** A value whose document is the result of one call of [get_flattener]. *)
  Lemma lev v j : prim_json v = None -> (forall b, v <> VBytes b) -> (forall l b, v = VLoc l -> hget h l <> Some (OByteArray b)) ->
    spelled v j ->
    (exists N, forall n s, N <= n -> (0 <= p_depth s)%Z -> good s (jdepth j) -> ~ In v (p_objs s) -> exists s1,
       get_flattener w k o n (flatten w k o n) v s = (Ret (Some j), s1) /\ p_heap s1 = h /\ p_depth s1 = p_depth s /\
       (forall x j, cache_get x (p_cache s1) = Some j -> spelled x j) /\
       (forall x, cache_get x (p_cache s) <> None -> cache_get x (p_cache s1) <> None) /\
       (forall x, In x (p_objs s1) -> x = v \/ In x (p_objs s) \/ cache_get x (p_cache s1) <> None)) ->
    goes v j.
  Proof.
    intros Hp Nb Nba SP (N & H). exists (S N). intros [|n] s L D Gd; [lia|]. rewrite step_off. unfold bind at 1, gets.
    destruct (cache_get v (p_cache s)) as [j'|] eqn:C.
    { pose proof Gd as (A & B & _). rewrite (proj1 (spelled_det w tg h) _ _ SP _ (B _ _ C)). exists s. split; [reflexivity|]. eapply fin_refl; eauto. }
    pose proof Gd as (A & B & E).
    assert (NI : ~ In v (p_objs s)).
    { intros I. destruct (E v I) as [X|(j' & S' & Lt)]; [congruence|]. rewrite (proj1 (spelled_det w tg h) _ _ S' _ SP) in Lt. lia. }
    destruct (H n (deeper s)) as (s1 & G & H1 & D1 & B1 & M1 & I1); [lia|cbn; lia|exact Gd|exact NI|].
    assert (X : flatten_impl w k o n (flatten w k o n) v s = (Ret j, popped s1)).
    { assert (X : (push;;; j0 <- flatten_obj w k o n (flatten w k o n) v;; pop j0) s = (Ret j, popped s1)).
      { unfold push. unfold bind at 1, modify. change (set_depth (p_depth s + 1)%Z s) with (deeper s).
        unfold bind at 1. unfold flatten_obj, max_reached. rewrite Od. unfold bind at 1 2, gets, ret at 1.
        unfold catch, in_cycle. unfold bind at 1 2, get, ret at 1. change (p_objs (deeper s)) with (p_objs s). rewrite (index_of_none _ _ NI), andb_false_r. cbn [orb andb].
        unfold bind at 1. rewrite G. reflexivity. }
      unfold flatten_impl. unfold bind at 1, gets. destruct v; cbn [prim_json] in *; try discriminate; try exact X.
      all: try (exfalso; eapply Nb; reflexivity).
      rewrite A. destruct (hget h l) as [[]|] eqn:G0; try exact X. exfalso. eapply Nba; eauto. }
    exists (stored v j (popped s1)). split; [unfold bind, modify, ret; rewrite X; reflexivity|].
    assert (PH : p_heap (popped s1) = h).
    { unfold popped. cbv zeta. destruct (_ =? _)%Z; exact H1. }
    split; [exact PH|]. intros D0. cbn [deeper set_depth p_depth] in D1.
    assert (PP : popped s1 = set_depth (p_depth s) s1).
    { unfold popped. cbv zeta. rewrite D1. replace (p_depth s + 1 - 1)%Z with (p_depth s) by lia. cbn [set_depth p_depth].
      destruct (Z.eqb_spec (p_depth s) (-1)); [lia|reflexivity]. }
    rewrite PP. cbn [stored set_cache set_depth p_depth p_cache p_objs]. split; [reflexivity|]. split; [|split].
    - intros x jx. cbn [cache_get]. destruct (val_eqb_spec x v) as [->|]; [intros [= <-]; exact SP|apply B1].
    - intros x Cx. apply cache_other. apply M1. exact Cx.
    - intros x I. destruct (I1 x I) as [->|[I2|Cx]]; [right|auto|right].
      + rewrite cache_same. discriminate.
      + apply cache_other. exact Cx.
  Qed.
  Lemma prim_go v j : prim_json v = Some j -> spelled v j -> goes v j.
  Proof.
    intros P SP. exists 1. intros [|n] s L D Gd; [lia|]. rewrite step_off. unfold bind at 1, gets.
    pose proof Gd as (A & B & E). destruct (cache_get v (p_cache s)) as [j'|] eqn:C.
    { rewrite (proj1 (spelled_det w tg h) _ _ SP _ (B _ _ C)). exists s. split; [reflexivity|]. eapply fin_refl; eauto. }
    exists (stored v j s). split.
    - unfold bind, modify, ret, flatten_impl. unfold bind, gets. destruct v; try discriminate; cbn in P |- *; injection P as <-; reflexivity.
    - split; [exact A|]. intros _. split; [reflexivity|]. cbn [stored set_cache p_cache p_objs]. split; [|split].
      + intros x jx. cbn [cache_get]. destruct (val_eqb_spec x v) as [->|]; [intros [= <-]; exact SP|apply B].
      + intros x Cx. apply cache_other. exact Cx.
      + auto.
  Qed.
  Lemma good_numbered v j s : good s (jdepth j) -> spelled v j -> forall b, b < jdepth j -> good (PStep.numbered v s) b.
  Proof.
    intros (A & B & C) SP b L. split; [exact A|]. split; [exact B|]. intros x I. cbn [PStep.numbered set_objs p_objs] in I. apply in_app_or in I.
    destruct I as [I|[<-|[]]].
    - destruct (C x I) as [X|(j' & X & Y)]; [auto|]. right. exists j'. split; [auto|lia].
    - right. exists j. auto.
  Qed.
  Lemma depth_list js : forall j, In j js -> jdepth j <= list_max (map jdepth js).
  Proof. intros j I. apply jdepth_list in I. cbn [jdepth] in I. lia. Qed.
  Lemma depth_obj (ob : jobj) : forall a j, In (a, j) ob -> jdepth j <= list_max (map (fun kv => jdepth (snd kv)) ob).
  Proof. intros a j I. apply jdepth_obj in I. cbn [jdepth] in I. lia. Qed.
  Lemma mkref_new v s : ~ In v (p_objs s) -> mkref o v s = (Ret true, PStep.numbered v s).
  Proof. apply mkref_fresh. Qed.
  Ltac sk s := repeat (rewrite (bind_eq _ _ _ _ _ (eq_refl : ret _ s = (Ret _, s))); cbv beta).
  Definition head (i : inst) : jobj := if tg then [(OBJECT, JStr (importable_name (w_cls w (i_cls i))))] else [].
  Lemma plain_inst_go n rec l i dl d ob s s1 : plain_class w (i_cls i) -> hget (p_heap s) l = Some (OInst i) -> i_dict i = Some dl ->
    hget (p_heap s) dl = Some (ODict d) ->
    flatten_items w k o rec d [] (head i) s = (Ret ob, s1) ->
    flatten_obj_instance w k o n rec l s = (Ret (JObj ob), s1).
  Proof.
    intros [A1 A2 A3 A4 A5 A6 A7 A8 A9] G Gd Gh H. unfold flatten_obj_instance. rewrite (bind_eq _ _ _ _ _ (get_obj_eq l (OInst i) s G)). cbv beta iota zeta.
    rewrite A2, Op. sk s.
    match goal with |- bind ?m _ _ = _ => assert (R : m s = (Ret None, s)) by (unfold reduce_of; rewrite A3; destruct tg; reflexivity);
      rewrite (bind_eq _ _ _ _ _ R); clear R end.
    unfold flatten_inst_rest. cbv zeta. rewrite A4, A5, A6, A7, A8. cbn [andb negb]. sk s.
    rewrite (bind_eq _ _ _ _ _ (eq_refl : gets p_heap s = (Ret _, s))). cbv beta. sk s.
    rewrite (bind_eq _ _ s false s); [|reflexivity]. cbn [andb]. rewrite A1, Gd. unfold flatten_plain_dict. rewrite bind_assoc.
    rewrite (bind_eq _ _ _ _ _ (get_obj_eq dl (ODict d) s Gh)). cbv beta iota. cbn [sset].
    unfold head in H. rewrite (bind_eq _ _ _ _ _ H). reflexivity.
  Qed.
  Lemma by_instance n l i s r s1 : ~ In (VLoc l) (p_objs s) -> hget (p_heap s) l = Some (OInst i) ->
    flatten_obj_instance w k o n (flatten w k o n) l (PStep.numbered (VLoc l) s) = (Ret r, s1) ->
    get_flattener w k o n (flatten w k o n) (VLoc l) s = (Ret (Some r), s1).
  Proof.
    intros N G H. unfold get_flattener. rewrite (bind_eq _ _ _ _ _ (get_obj_eq l (OInst i) s G)). cbv beta iota.
    unfold ref_obj_instance. destruct tg eqn:T.
    - rewrite bind_assoc. rewrite (bind_eq _ _ _ _ _ (mkref_fresh o (VLoc l) s N)). cbv beta iota.
      unfold flatten_object. rewrite (bind_eq _ _ _ _ _ H). reflexivity.
    - rewrite bind_assoc. unfold max_reached. rewrite Od.
      rewrite (bind_eq _ _ s false s) by reflexivity.
      rewrite bind_assoc, (bind_eq _ _ s false s).
      + rewrite bind_assoc, (bind_eq _ _ _ _ _ (mkref_fresh o (VLoc l) s N)). cbv beta iota.
        unfold flatten_object. rewrite (bind_eq _ _ _ _ _ H). reflexivity.
      + unfold in_cycle, bind, get, ret. rewrite (index_of_none _ _ N). reflexivity.
  Qed.
  Lemma by_list n l vs js s s1 : ~ In (VLoc l) (p_objs s) -> hget (p_heap s) l = Some (OList vs) ->
    mapM (flatten w k o n) vs (PStep.numbered (VLoc l) s) = (Ret js, s1) ->
    get_flattener w k o n (flatten w k o n) (VLoc l) s = (Ret (Some (JList js)), s1).
  Proof.
    intros N G H. unfold get_flattener. rewrite (bind_eq _ _ _ _ _ (get_obj_eq l _ s G)). cbv beta iota.
    rewrite (bind_eq _ _ _ _ _ (mkref_fresh o (VLoc l) s N)). cbv beta iota. unfold list_recurse. rewrite bind_assoc, (bind_eq _ _ _ _ _ H). reflexivity.
  Qed.
  Lemma by_dict n l d ob s s1 : ~ In (VLoc l) (p_objs s) -> hget (p_heap s) l = Some (ODict d) ->
    flatten_items w k o (flatten w k o n) d [] [] (PStep.numbered (VLoc l) s) = (Ret ob, s1) ->
    get_flattener w k o n (flatten w k o n) (VLoc l) s = (Ret (Some (JObj ob)), s1).
  Proof.
    intros N G H. unfold get_flattener. rewrite (bind_eq _ _ _ _ _ (get_obj_eq l _ s G)). cbv beta iota.
    rewrite (bind_eq _ _ _ _ _ (mkref_fresh o (VLoc l) s N)). cbv beta iota. unfold flatten_plain_dict.
    rewrite bind_assoc, (bind_eq _ _ _ _ _ (get_obj_eq l _ (PStep.numbered (VLoc l) s) G)). cbv beta iota. rewrite (bind_eq _ _ _ _ _ H). reflexivity.
  Qed.
  Lemma list_le js j b : b = list_max (map jdepth js) -> In j js -> jdepth j <= b.
  Proof. intros ->. apply depth_list. Qed.

  (** from the run of the parts of a numbered object to what [lev] asks for *)
  Lemma numbered_fin v j s b s1 : (0 <= p_depth s)%Z -> good s (jdepth j) -> spelled v j -> b < jdepth j -> fin (PStep.numbered v s) s1 ->
    p_heap s1 = h /\ p_depth s1 = p_depth s /\
       (forall x j, cache_get x (p_cache s1) = Some j -> spelled x j) /\
       (forall x, cache_get x (p_cache s) <> None -> cache_get x (p_cache s1) <> None) /\
       (forall x, In x (p_objs s1) -> x = v \/ In x (p_objs s) \/ cache_get x (p_cache s1) <> None).
  Proof.
    intros D Gd SP L (A & B). destruct (B D) as (B1 & B2 & B3 & B4). split; [exact A|]. split; [exact B1|]. split; [exact B2|]. split; [exact B3|].
    intros x I. destruct (B4 x I) as [I0|X]; [|auto]. cbn [PStep.numbered set_objs p_objs] in I0. apply in_app_or in I0. destruct I0 as [I0|[<-|[]]]; auto.
  Qed.
  Lemma plain_fin (v : val) s s1 : (0 <= p_depth s)%Z -> fin s s1 ->
    p_heap s1 = h /\ p_depth s1 = p_depth s /\
       (forall x j, cache_get x (p_cache s1) = Some j -> spelled x j) /\
       (forall x, cache_get x (p_cache s) <> None -> cache_get x (p_cache s1) <> None) /\
       (forall x, In x (p_objs s1) -> x = v \/ In x (p_objs s) \/ cache_get x (p_cache s1) <> None).
  Proof.
    intros D (A & B). destruct (B D) as (B1 & B2 & B3 & B4). split; [exact A|]. split; [exact B1|]. split; [exact B2|]. split; [exact B3|].
    intros x I. destruct (B4 x I) as [I0|X]; auto.
  Qed.

  Lemma all_spelled : (forall v j, spelled v j -> goes v j) /\ (forall vs js, spelleds vs js -> goes_list vs js) /\
    (forall d ob, spelled_fields d ob -> goes_fields d ob).
  Proof.
    assert (NB : forall l ob, hget h l = Some ob -> (forall b, ob <> OByteArray b) -> forall l0 b0, VLoc l = VLoc l0 -> hget h l0 <> Some (OByteArray b0)).
    { intros l ob G X l0 b0 [= <-]. rewrite G. intros [= E]. eapply X; eauto. }
    apply spelled_mutind.
    - apply prim_go; [reflexivity|constructor].
    - intros. apply prim_go; [reflexivity|constructor].
    - intros. apply prim_go; [reflexivity|constructor].
    - intros. apply prim_go; [reflexivity|constructor].
    - intros. apply prim_go; [reflexivity|constructor].
    - (* type *) intros c. apply lev; [reflexivity|discriminate|discriminate|constructor|]. exists 0. intros n s _ D Gd _. exists s. split; [reflexivity|].
      apply plain_fin; [exact D|eapply fin_refl; eauto].
    - (* tuple *) intros vs js SP (N & Go). assert (SPT : spelled (VTuple vs) (tag tg "py/tuple" (JList js))) by (constructor; auto).
      apply lev; [reflexivity|discriminate|discriminate|exact SPT|]. exists N. intros n s L D Gd _.
      destruct (Go n s (list_max (map jdepth js)) L D (depth_list js)) as (s1 & R & F).
      { eapply good_le; [|exact Gd]. unfold tag. destruct tg; cbn [jdepth map list_max fold_right snd]; lia. }
      exists s1. split; [|apply plain_fin; auto]. unfold get_flattener, list_recurse. rewrite bind_assoc, (bind_eq _ _ _ _ _ R). unfold tag. destruct tg; reflexivity.
    - (* set *) intros l vs js G SP (N & Go). assert (SPT : spelled (VLoc l) (tag tg "py/set" (JList js))) by (eapply sp_set; eauto).
      apply lev; [reflexivity|discriminate|eapply NB; eauto; discriminate|exact SPT|]. exists N. intros n s L D Gd _.
      destruct (Go n s (list_max (map jdepth js)) L D (depth_list js)) as (s1 & R & F).
      { eapply good_le; [|exact Gd]. unfold tag. destruct tg; cbn [jdepth map list_max fold_right snd]; lia. }
      exists s1. split; [|apply plain_fin; auto]. unfold get_flattener. rewrite <- (proj1 Gd) in G. rewrite (bind_eq _ _ _ _ _ (get_obj_eq l _ s G)). cbv beta iota.
      unfold list_recurse. rewrite bind_assoc, (bind_eq _ _ _ _ _ R). unfold tag. destruct tg; reflexivity.
    - (* list *) intros l vs js G SP (N & Go). assert (SPT : spelled (VLoc l) (JList js)) by (eapply sp_list; eauto).
      apply lev; [reflexivity|discriminate|eapply NB; eauto; discriminate|exact SPT|]. exists N. intros n s L D Gd NI.
      assert (Lb : list_max (map jdepth js) < jdepth (JList js)) by (cbn [jdepth]; lia).
      destruct (Go n (PStep.numbered (VLoc l) s) (list_max (map jdepth js)) L D (depth_list js)) as (s1 & R & F).
      { eapply good_numbered; eauto. }
      exists s1. split; [|eapply numbered_fin; eauto]. rewrite <- (proj1 Gd) in G. eapply by_list; eauto.
    - (* dict *) intros l d ob G SP (N & Go). assert (SPT : spelled (VLoc l) (JObj ob)) by (eapply sp_dict; eauto).
      apply lev; [reflexivity|discriminate|eapply NB; eauto; discriminate|exact SPT|]. exists N. intros n s L D Gd NI.
      assert (Lb : list_max (map (fun kv => jdepth (snd kv)) ob) < jdepth (JObj ob)) by (cbn [jdepth]; lia).
      destruct (Go n (PStep.numbered (VLoc l) s) [] _ L D (depth_obj ob)) as (s1 & R & F); [eapply good_numbered; eauto|auto|].
      exists s1. split; [|eapply numbered_fin; eauto]. rewrite <- (proj1 Gd) in G. eapply by_dict; eauto.
    - (* instance *) intros l i dl d ob G PC Gi Gd0 SP (N & Go).
      match goal with |- goes _ ?j => set (jj := j); assert (SPT : spelled (VLoc l) jj) by (eapply sp_inst; eauto) end.
      assert (Ej : jj = JObj (head i ++ ob)) by (unfold jj, head; destruct tg; reflexivity).
      apply lev; [reflexivity|discriminate|eapply NB; eauto; discriminate|exact SPT|]. exists N. intros n s L D Gd NI.
      assert (Lb : list_max (map (fun kv => jdepth (snd kv)) ob) < jdepth jj).
      { unfold jj. destruct tg; cbn [jdepth map list_max fold_right snd]; unfold list_max; lia. }
      destruct (Go n (PStep.numbered (VLoc l) s) (head i) _ L D (depth_obj ob)) as (s1 & R & F); [eapply good_numbered; eauto| |].
      { intros a I X. unfold head in X. destruct tg; [|destruct X]. destruct X as [<-|[]]. revert I. clear - SP. change (u "py/object") with OBJECT.
        induction SP as [|a v j d ob Wn _ _ _ _ _ IHW]; [auto|]. cbn [map fst]. intros [E|I]; [subst a; discriminate|auto]. }
      exists s1. split; [|eapply numbered_fin; eauto]. rewrite Ej. rewrite <- (proj1 Gd) in G, Gd0.
      eapply by_instance; eauto. eapply plain_inst_go; eauto.
    - exists 0. intros n s b _ D _ Gd. exists s. split; [reflexivity|eapply fin_refl; eauto].
    - intros v j vs js SP1 (N1 & G1) SP2 (N2 & G2). exists (Nat.max N1 N2). intros n s b L D Hb Gd.
      destruct (G1 n s) as (s1 & R1 & F1); [lia|lia|eapply good_le; [|exact Gd]; apply Hb; left; reflexivity|].
      destruct (fin_good _ _ _ D Gd F1) as (Gd1 & D1). destruct (G2 n s1 b) as (s2 & R2 & F2); [lia|exact D1|intros; apply Hb; right; auto|exact Gd1|].
      exists s2. split; [|eapply fin_trans; eauto]. cbn [mapM]. rewrite (bind_eq _ _ _ _ _ R1), (bind_eq _ _ _ _ _ R2). reflexivity.
    - exists 0. intros n s acc b _ D _ Gd _. exists s. rewrite app_nil_r. unfold flatten_items. rewrite Ok. split; [reflexivity|eapply fin_refl; eauto].
    - intros a v j d ob Wn Na Nf Ni SP1 (N1 & G1) SP2 (N2 & G2). exists (Nat.max N1 N2). intros n s acc b L D Hb Gd Ac.
      destruct (G1 n s) as (s1 & R1 & F1); [lia|lia|eapply good_le; [|exact Gd]; eapply Hb; left; reflexivity|].
      destruct (fin_good _ _ _ D Gd F1) as (Gd1 & D1).
      assert (NK : ~ In a (map fst acc)) by (apply Ac; left; reflexivity).
      destruct (G2 n s1 (acc ++ [(a, j)]) b) as (s2 & R2 & F2); [lia|exact D1|intros a0 j0 I0; eapply Hb; right; eauto|exact Gd1| |].
      { intros c I. rewrite map_app, in_app_iff. intros [X|[X|[]]]; [exact (Ac c (or_intror I) X)|]. cbn in X. subst c. auto. }
      exists s2. split; [|eapply fin_trans; eauto]. unfold flatten_items in *. rewrite Ok in *. rewrite items_nil in *.
      rewrite <- app_assoc in R2. cbn [app] in R2. cbn [foldM fst snd].
      rewrite (bind_eq _ _ _ (acc ++ [(a, j)]) s1); [exact R2|]. unfold flatten_key_value_pair. unfold bind at 1, gets.
      assert (PF : is_module_function w v || negb (is_function w (p_heap s) v) = true).
      { apply orb_true_iff. right. unfold is_function. destruct v; auto; [exfalso; eapply Nf; reflexivity|]. rewrite (proj1 Gd). destruct (hget h l) as [[]|] eqn:G; auto.
        rewrite (Ni _ _ eq_refl G). reflexivity. }
      assert (PK : is_picklable w (p_heap s) (VStr a) v = true).
      { unfold is_picklable. rewrite wire_reserved in Wn. rewrite Wn. exact PF. }
      rewrite PK. cbn [negb]. unfold readonly_skip. rewrite Or. rewrite (bind_eq _ _ s false s) by reflexivity. rewrite (bind_eq _ _ s a s) by reflexivity.
      rewrite (bind_eq _ _ _ _ _ R1). rewrite sset_new by auto. reflexivity.
  Qed.
  Hypothesis Os : po_sort o = false.
  Theorem encode_spelled v j : spelled v j ->
    exists N, forall n s, N <= n -> p_heap s = h -> exists s', encode w k o n v s = (Ret (dumps j), s') /\ p_heap s' = h.
  Proof.
    intros W. destruct all_spelled as (G & _). destruct (G _ _ W) as (N & Go). exists N. intros n s L E.
    destruct (Go n (p_reset_st s) L) as (s1 & H1 & E1 & _).
    { cbn. lia. }
    { split; [exact E|]. split; [discriminate|]. intros x []. }
    exists s1. split; auto. unfold encode, pickle, pflatten. rewrite Os.
    unfold bind, p_reset, modify, ret. rewrite H1. reflexivity.
  Qed.
End encoding.
