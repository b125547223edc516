(** Documents naming classes: missing classes and classes supplied by the caller. *)
From Verif Require Import PyStr Tags Json JsonText B64 B85 Base Heap Registry LoadClass LoadClassProofs Unpickler UGen SpecJson RestoreProofs PlainProofs.
Open Scope nat_scope.
Local Open Scope monad_scope.

Lemma tree_frame h h' :
  (forall j v ls, tree h j v ls -> (forall l, In l ls -> hget h' l = hget h l) -> tree h' j v ls) /\
  (forall js vs ls, trees h js vs ls -> (forall l, In l ls -> hget h' l = hget h l) -> trees h' js vs ls) /\
  (forall ob d ls, fields h ob d ls -> (forall l, In l ls -> hget h' l = hget h l) -> fields h' ob d ls).
Proof.
  apply tree_mutind; intros; try (constructor; fail).
  - apply tr_list with (vs := vs); [rewrite H2; [auto|left; auto]|]. apply H1. intros. apply H2. right; auto.
  - apply tr_obj with (d := d); [rewrite H2; [auto|left; auto]|]. apply H1. intros. apply H2. right; auto.
  - constructor; [apply H0|apply H2]; intros; apply H3; apply in_or_app; auto.
  - constructor; [apply H0|apply H2]; intros; apply H3; apply in_or_app; auto.
Qed.

(** A raw document as a Python object is the tree of the document, in fresh containers. *)
Definition raw_ok (j : json) : Prop :=
  forall h v h', alloc_json j h = (v, h') ->
    ext h h' /\ exists ls, tree h' j v ls /\ within (length h) (length h') ls.
Lemma within_app a b c la lb : within a b la -> within b c lb -> a <= b -> b <= c -> within a c (la ++ lb).
Proof.
  intros [N1 B1] [N2 B2] L1 L2. split.
  - revert N1 B1. induction la as [|x la IH]; simpl; intros N1 B1; auto. inversion N1; subst.
    constructor; [|apply IH; auto]. intros I. apply in_app_iff in I. destruct I as [I|I]; auto.
    specialize (B1 x (or_introl eq_refl)). specialize (B2 x I). lia.
  - intros l I. apply in_app_iff in I. destruct I as [I|I]; [specialize (B1 l I)|specialize (B2 l I)]; lia.
Qed.
Lemma raw_close h h1 ob ls : ext h h1 -> within (length h) (length h1) ls ->
  ext h (h1 ++ [ob]) /\ within (length h) (length (h1 ++ [ob])) (length h1 :: ls) /\
  (forall l, In l ls -> hget (h1 ++ [ob]) l = hget h1 l) /\ hget (h1 ++ [ob]) (length h1) = Some ob.
Proof.
  intros E [N B]. pose proof (proj1 E). split; [eapply ext_trans; eauto using ext_alloc|]. split; [|split].
  - split; [constructor; auto; intros I; specialize (B _ I); lia|].
    rewrite app_length. simpl. intros l [<-|I]; [lia|]. specialize (B _ I). lia.
  - intros l I. apply hget_app_old. apply B; auto.
  - apply hget_app_new.
Qed.
Lemma raw_tree j : raw_ok j.
Proof.
  induction j as [|b|z|t|s0|l IH|ob IH] using json_ind';
    try (intros h v h' E; cbn in E; inversion E; subst; split; [apply ext_refl|]; exists []; split;
         [constructor|split; [constructor|intros l []]]).
  - intros h v h' E. cbn [alloc_json] in E.
    match type of E with (let (_, _) := ?f l h in _) = _ => set (go := f) in E end.
    assert (G : forall l, Forall raw_ok l -> forall h vs h1, go l h = (vs, h1) -> ext h h1 /\ exists ls, trees h1 l vs ls /\ within (length h) (length h1) ls).
    { clear. induction l as [|x l IHl]; intros F h vs h1 E; cbn in E.
      - inversion E; subst. split; [apply ext_refl|]. exists []. split; [constructor|]. split; [constructor|intros y []].
      - inversion F as [|? ? Fx Fl]; subst. destruct (alloc_json x h) as [v h2] eqn:E1. destruct (go l h2) as [vs2 h3] eqn:E2.
        inversion E; subst. destruct (Fx _ _ _ E1) as (X1 & la & T1 & W1). destruct (IHl Fl _ _ _ E2) as (X2 & lb & T2 & W2).
        split; [eapply ext_trans; eauto|]. exists (la ++ lb). split.
        + constructor; auto. eapply (proj1 (tree_frame _ _)); eauto. intros y I. apply (proj2 X2). apply W1; auto.
        + eapply within_app; eauto; [apply X1|apply X2]. }
    destruct (go l h) as [vs h1] eqn:E1. inversion E; subst. destruct (G l IH _ _ _ E1) as (X & ls & T & W).
    destruct (raw_close _ _ (OList vs) _ X W) as (X' & W' & Fr & Gt). split; auto. exists (length h1 :: ls). split; auto.
    econstructor; eauto. eapply (proj1 (proj2 (tree_frame _ _))); eauto.
  - intros h v h' E. cbn [alloc_json] in E.
    match type of E with (let (_, _) := ?f ob h in _) = _ => set (go := f) in E end.
    assert (G : forall l, Forall (fun kv => raw_ok (snd kv)) l -> forall h vs h1, go l h = (vs, h1) -> ext h h1 /\ exists ls, fields h1 l vs ls /\ within (length h) (length h1) ls).
    { clear. induction l as [|[k x] l IHl]; intros F h vs h1 E; cbn in E.
      - inversion E; subst. split; [apply ext_refl|]. exists []. split; [constructor|]. split; [constructor|intros y []].
      - inversion F as [|? ? Fx Fl]; subst. destruct (alloc_json x h) as [v h2] eqn:E1. destruct (go l h2) as [vs2 h3] eqn:E2.
        inversion E; subst. destruct (Fx _ _ _ E1) as (X1 & la & T1 & W1). destruct (IHl Fl _ _ _ E2) as (X2 & lb & T2 & W2).
        split; [eapply ext_trans; eauto|]. exists (la ++ lb). split.
        + constructor; auto. eapply (proj1 (tree_frame _ _)); eauto. intros y I. apply (proj2 X2). apply W1; auto.
        + eapply within_app; eauto; [apply X1|apply X2]. }
    destruct (go ob h) as [vs h1] eqn:E1. inversion E; subst. destruct (G ob IH _ _ _ E1) as (X & ls & T & W).
    destruct (raw_close _ _ (ODict vs) _ X W) as (X' & W' & Fr & Gt). split; auto. exists (length h1 :: ls). split; auto.
    econstructor; eauto. eapply (proj2 (proj2 (tree_frame _ _))); eauto.
Qed.

(** The document is read as a description of an object: it has a class name and none of the
    tags that are looked at earlier. *)
Definition object_doc (ob : jobj) (name : pystr) : Prop :=
  sget (u "py/object") ob = Some (JStr name) /\
  forall t, In t (map u ["py/tuple"; "py/set"; "py/b64"; "py/b85"; "py/bytea"; "py/id"; "py/iterator"]%string) ->
    sget t ob = None.
(** No class is known under the name: not in the table of supplied classes, and no way of
    reading the dotted name as module and attributes leads anywhere. *)
Definition missing_name (w : world) (table : list (pystr * val)) (name : pystr) : Prop :=
  sget name table = None /\ sget (last_field name) table = None /\ name <> u "builtins.NoneType" /\
  forall i, 1 <= i < length (split_on DOT name) ->
    exists e, try_split w (split_on DOT name) i = Exc e /\
              (is_AttributeError e || is_ImportError e || is_ValueError e) = true.

Lemma missing_load w table name : missing_name w table name -> loadclass_str w table name = Ret VNone.
Proof.
  intros (H1 & H2 & H3 & H4). unfold loadclass_str, from_classes. rewrite H1, H2.
  set (names := split_on DOT name) in *.
  assert (G : forall k, k < length names -> load_splits w names k = Ret None).
  { induction k as [|k IH]; intros Hk; auto. cbn [load_splits]. destruct (H4 (S k) ltac:(lia)) as (e & -> & C).
    unfold load_caught. rewrite C. apply IH. lia. }
  assert (G0 : load_splits w names (length names - 1) = Ret None).
  { destruct (length names) as [|m] eqn:L; [reflexivity|]. apply G. lia. }
  rewrite G0. destruct (seqb_spec name (u "builtins.NoneType")); [contradiction|reflexivity].
Qed.

Lemma object_doc_step w o n ob name s : object_doc ob name ->
  restore w o (S n) (JObj ob) s = restore_object w o (restore w o n) ob s.
Proof.
  intros (H1 & H2). cbn [restore restore_step].
  assert (F : forall t, In t (map u ["py/tuple"; "py/set"; "py/b64"; "py/b85"; "py/bytea"; "py/id"; "py/iterator"]%string) -> shas t ob = false).
  { intros t I. unfold shas. rewrite (H2 t I). reflexivity. }
  rewrite (F TUPLE ltac:(vm_compute; auto 10)), (F SET_ ltac:(vm_compute; auto 10)), (F B64 ltac:(vm_compute; auto 10)),
    (F B85 ltac:(vm_compute; auto 10)), (F BYTEARRAY ltac:(vm_compute; auto 10)), (F ID ltac:(vm_compute; auto 10)),
    (F ITERATOR ltac:(vm_compute; auto 10)).
  replace (shas OBJECT ob) with true; [reflexivity|]. unfold shas. change OBJECT with (u "py/object"). rewrite H1. reflexivity.
Qed.

Definition loaded (name : pystr) (s : ust) : ust := us_log (u_log s ++ [EvLoad name; EvImport name]) s.

Lemma missing_step w o n ob name s : object_doc ob name -> missing_name w (u_classes s) name ->
  reg_get_name (w_reg w) name = None ->
  restore w o (S n) (JObj ob) s =
    bind (process_missing o name) (fun _ => v <- raw (JObj ob) ;; umkref v) (loaded name s).
Proof.
  intros D Ms R. rewrite (object_doc_step _ _ _ _ _ _ D). unfold restore_object, jfield.
  destruct D as (D & _). change OBJECT with (u "py/object"). rewrite D.
  pose proof (missing_load _ _ _ Ms) as L. destruct Ms as (M1 & M2 & _).
  assert (E : u_loadclass w (JStr name) s = (Ret VNone, loaded name s)).
  { unfold u_loadclass, bind, gets, log, modify, lift. unfold from_classes at 1. rewrite M1, M2. simpl. rewrite L.
    unfold loaded, us_log. simpl. rewrite <- List.app_assoc. reflexivity. }
  rewrite (bind_eq _ _ _ _ _ E). cbn. rewrite R. reflexivity.
Qed.

Lemma raw_run ob s : exists v ls s', (v <- raw (JObj ob) ;; umkref v) s = (Ret v, s') /\
  tree (u_heap s') (JObj ob) v ls /\ NoDup ls /\ (forall l, In l ls -> length (u_heap s) <= l) /\
  (forall l, l < length (u_heap s) -> hget (u_heap s') l = hget (u_heap s) l) /\ u_log s' = u_log s.
Proof.
  destruct (alloc_json (JObj ob) (u_heap s)) as [v h'] eqn:E.
  destruct (raw_tree (JObj ob) _ _ _ E) as (X & ls & T & W).
  assert (U : exists s', (v <- raw (JObj ob) ;; umkref v) s = (Ret v, s') /\ u_heap s' = h' /\ u_log s' = u_log s).
  { unfold bind at 1, raw. rewrite E. unfold umkref. destruct (idx_get _ _); eexists; repeat split. }
  destruct U as (s' & R & <- & L). exists v, ls, s'. split; auto. split; auto. split; [apply W|]. split; [|split; auto].
  - intros l I. apply W; auto.
  - intros l Hl. apply X; auto.
Qed.

(** What a policy does before the document is returned: events, or an exception. *)
Definition policy_effect (m : missing) (name : pystr) : list event * option exn :=
  match m with
  | MIgnore | MOther => ([], None)
  | MWarn => ([EvWarn name], None)
  | MError => ([], Some EClassNotFound)
  | MCall f => ([EvMissing name], f name)
  end.
Lemma missing_run w o n ob name s : object_doc ob name -> missing_name w (u_classes s) name ->
  reg_get_name (w_reg w) name = None ->
  match snd (policy_effect (uo_missing o) name) with
  | Some e => exists s', restore w o (S n) (JObj ob) s = (Exc e, s')
  | None =>
      exists v ls s', restore w o (S n) (JObj ob) s = (Ret v, s') /\
        tree (u_heap s') (JObj ob) v ls /\ NoDup ls /\ (forall l, In l ls -> length (u_heap s) <= l) /\
        (forall l, l < length (u_heap s) -> hget (u_heap s') l = hget (u_heap s) l) /\
        u_log s' = u_log s ++ [EvLoad name; EvImport name] ++ fst (policy_effect (uo_missing o) name)
  end.
Proof.
  intros D Ms R. pose proof (missing_step w o n ob name s D Ms R) as E.
  assert (H : forall s1, u_heap s1 = u_heap s -> process_missing o name (loaded name s) = (Ret tt, s1) ->
     exists v ls s', restore w o (S n) (JObj ob) s = (Ret v, s') /\
        tree (u_heap s') (JObj ob) v ls /\ NoDup ls /\ (forall l, In l ls -> length (u_heap s) <= l) /\
        (forall l, l < length (u_heap s) -> hget (u_heap s') l = hget (u_heap s) l) /\
        u_log s' = u_log s1).
  { intros s1 Hh P. destruct (raw_run ob s1) as (v & ls & s' & R' & T & ND & F1 & F2 & L). rewrite Hh in *.
    exists v, ls, s'. rewrite E, (bind_eq _ _ _ _ _ P). auto 10. }
  unfold process_missing in *. destruct (uo_missing o) eqn:Mo; cbn [policy_effect fst snd].
  - destruct (H (loaded name s) eq_refl eq_refl) as (v & ls & s' & A & B & C & D' & F & G).
    exists v, ls, s'. repeat split; auto.
  - destruct (H (us_log (u_log (loaded name s) ++ [EvWarn name]) (loaded name s)) eq_refl eq_refl)
      as (v & ls & s' & A & B & C & D' & F & G).
    exists v, ls, s'. repeat split; auto. rewrite G. simpl. rewrite <- List.app_assoc. reflexivity.
  - rewrite E. eexists. reflexivity.
  - set (s1 := us_log (u_log (loaded name s) ++ [EvMissing name]) (loaded name s)).
    destruct (f name) as [e|].
    + rewrite E. eexists. reflexivity.
    + destruct (H s1 eq_refl eq_refl) as (v & ls & s' & A & B & C & D' & F & G).
      exists v, ls, s'. repeat split; auto. rewrite G. simpl. rewrite <- List.app_assoc. reflexivity.
  - destruct (H (loaded name s) eq_refl eq_refl) as (v & ls & s' & A & B & C & D' & F & G).
    exists v, ls, s'. repeat split; auto.
Qed.

(** ** Supplied classes *)
Lemma unpickle_table w o n c j s m :
  let T := register_classes w c [] in
  forall es, u_log (snd (unpickle w o n true (Some c) j s)) = u_log s ++ es ->
  In (EvImport m) es -> sget m T = None /\ sget (last_field m) T = None.
Proof.
  intros T es E I. unfold unpickle in E.
  set (s1 := mkUst (u_heap s) [] [] (u_prox s) [] T (u_log s)).
  rewrite (bind_eq _ _ s tt (mkUst (u_heap s) [] [] (u_prox s) [] [] (u_log s))) in E by reflexivity.
  rewrite (bind_eq _ _ _ tt s1) in E by reflexivity.
  pose proof (restore_table w o n j s1) as (C & es1 & E1 & F1).
  assert (G : u_log (snd (bind (restore w o n j) (fun v => swap_proxies w ;;; ret v) s1)) = u_log (snd (restore w o n j s1))).
  { unfold bind at 1. destruct (restore w o n j s1) as [[v|e|] s2]; auto.
    unfold bind. pose proof (swap_proxies_pres w (fun a b => u_log b = u_log a)) as P.
    unfold pres in P. specialize (P ltac:(auto) ltac:(intros; congruence) ltac:(auto) ltac:(auto)). specialize (P s2).
    destruct (swap_proxies w s2) as [[]]; exact P. }
  change (u_log (snd (bind (restore w o n j) (fun v => swap_proxies w ;;; ret v) s1)) = u_log s ++ es) in E.
  rewrite G, E1 in E. apply app_inv_head in E. subst es1.
  specialize (F1 m I). unfold from_classes in F1. change (u_classes s1) with T in F1.
  destruct (sget m T); [discriminate|]. auto.
Qed.

Lemma supplied_type w o n c name v s : sget name (register_classes w c []) = Some v -> v <> VNone ->
  exists s', unpickle w o (S n) true (Some c) (JObj [(u "py/type", JStr name)]) s = (Ret v, s') /\
    u_log s' = u_log s ++ [EvLoad name].
Proof.
  intros G Nv. unfold unpickle. set (T := register_classes w c []) in *.
  rewrite (bind_eq _ _ s tt (mkUst (u_heap s) [] [] (u_prox s) [] [] (u_log s))) by reflexivity.
  set (s1 := mkUst (u_heap s) [] [] (u_prox s) [] T (u_log s)).
  rewrite (bind_eq _ _ _ tt s1) by reflexivity.
  assert (E : restore w o (S n) (JObj [(u "py/type", JStr name)]) s1 = (Ret v, us_log (u_log s ++ [EvLoad name]) s1)).
  { change (restore w o (S n) (JObj [(u "py/type", JStr name)]) s1) with (restore_type w [(u "py/type", JStr name)] s1).
    unfold restore_type. change (jfield TYPE_ [(u "py/type", JStr name)]) with (JStr name).
    assert (E1 : u_loadclass w (JStr name) s1 = (Ret v, us_log (u_log s ++ [EvLoad name]) s1)).
    { unfold u_loadclass, bind, gets, log, modify, lift. cbn [loadclass]. unfold loadclass_str, from_classes.
      change (u_classes s1) with T. rewrite G. reflexivity. }
    rewrite (bind_eq _ _ _ _ _ E1). destruct v; try reflexivity. contradiction. }
  rewrite (bind_eq _ _ _ _ _ E). eexists. split; reflexivity.
Qed.
Lemma supplied_object w o n c name cn s :
  sget name (register_classes w c []) = Some (VType cn) -> reg_lookup (w_sub w) (w_reg w) cn name = None ->
  c_kind (w_cls w cn) <> KTuple -> c_deffac (w_cls w cn) = false ->
  w_new w (u_heap s) cn [] [] = CInst cn ->
  exists l i s', unpickle w o (S n) true (Some c) (JObj [(u "py/object", JStr name)]) s = (Ret (VLoc l), s') /\
    hget (u_heap s') l = Some (OInst i) /\ i_cls i = cn /\ length (u_heap s) <= l /\
    u_log s' = u_log s ++ [EvLoad name; EvNew cn [] []].
Proof.
  intros G R K DF W. unfold unpickle. set (T := register_classes w c []) in *.
  rewrite (bind_eq _ _ s tt (mkUst (u_heap s) [] [] (u_prox s) [] [] (u_log s))) by reflexivity.
  rewrite (bind_eq _ _ _ tt (mkUst (u_heap s) [] [] (u_prox s) [] T (u_log s))) by reflexivity.
  set (s1 := mkUst (u_heap s) [] [] (u_prox s) [] T (u_log s)).
  set (ob := [(u "py/object", JStr name)]).
  assert (E : exists l i s', restore w o (S n) (JObj ob) s1 = (Ret (VLoc l), s') /\
    hget (u_heap s') l = Some (OInst i) /\ i_cls i = cn /\ length (u_heap s) <= l /\
    u_log s' = u_log s ++ [EvLoad name; EvNew cn [] []] /\ u_swaps s' = []).
  { assert (D : object_doc ob name).
    { split; [reflexivity|]. intros t I. vm_compute in I. repeat (destruct I as [<-|I]; [reflexivity|]). destruct I. }
    rewrite (object_doc_step _ _ _ _ _ _ D). unfold restore_object. change (jfield OBJECT ob) with (JStr name).
    set (s2 := us_log (u_log s ++ [EvLoad name]) s1). set (p := length (u_prox s)).
    assert (E1 : u_loadclass w (JStr name) s1 = (Ret (VType cn), s2)).
    { unfold u_loadclass, bind, gets, log, modify, lift. cbn [loadclass]. unfold loadclass_str, from_classes.
      change (u_classes s1) with T. rewrite G. reflexivity. }
    rewrite (bind_eq _ _ _ _ _ E1). rewrite R. unfold restore_object_instance.
    rewrite (bind_eq _ _ s2 (VProxy p) (us_prox (u_prox s2 ++ [None]) s2)) by reflexivity.
    rewrite (bind_eq _ _ _ (VProxy p) (us_objs [VProxy p] (us_idx [(VProxy p, 0)] (us_prox (u_prox s2 ++ [None]) s2)))) by reflexivity.
    set (s3 := us_objs _ _).
    rewrite (bind_eq _ _ s3 (None, ob) s3) by reflexivity.
    rewrite (bind_eq _ _ s3 (JList [], JObj []) s3) by reflexivity.
    rewrite (bind_eq _ _ s3 (Ret []) s3) by reflexivity.
    rewrite (bind_eq _ _ s3 (Ret []) s3) by reflexivity.
    set (hd := if c_dict (w_cls w cn) then u_heap s ++ [ODict []] else u_heap s).
    set (iv := mkInst cn (if c_dict (w_cls w cn) then Some (length (u_heap s)) else None) [] [] [] None (CNew [] []) [] 0).
    set (s4 := us_heap (hd ++ [OInst iv]) (us_log (u_log s3 ++ [EvNew cn [] []]) s3)).
    assert (NA : new_attempt w cn None (Ret []) (Ret []) s3 = (Ret (VLoc (length hd)), s4)).
    { transitivity (run_cres w (w_new w (u_heap s) cn [] []) (CNew [] []) (us_log (u_log s3 ++ [EvNew cn [] []]) s3)); [reflexivity|].
      rewrite W. unfold run_cres, fresh_inst, bind. unfold s4, hd, iv. destruct (c_dict (w_cls w cn)); reflexivity. }
    rewrite (bind_eq _ _ s3 (Some (VLoc (length hd))) s4).
    2:{ unfold catch. rewrite (bind_eq _ _ _ _ _ NA). reflexivity. }
    rewrite (bind_eq _ _ s4 (Some (VLoc (length hd))) s4) by reflexivity.
    cbv iota beta.
    rewrite (bind_eq _ _ s4 tt (us_prox (list_set (u_prox s4) p (Some (VLoc (length hd)))) s4)) by reflexivity.
    set (s5 := us_prox _ s4).
    set (s6 := us_objs [VLoc (length hd)] (us_idx [(VLoc (length hd), 0)] s5)).
    rewrite (bind_eq _ _ s5 tt s6).
    2:{ unfold swapref. cbn [s5 s4 s3 u_idx us_prox us_objs us_idx us_heap us_log idx_get u_objs]. rewrite val_eqb_refl.
        unfold s6. f_equal. cbn [idx_del]. change (val_eqb (VLoc (length hd)) (VProxy p)) with false. cbn [idx_del].
        change (val_eqb (VProxy p) (VLoc (length hd))) with false. rewrite val_eqb_refl. reflexivity. }
    rewrite (bind_eq _ _ s6 (u_heap s6) s6) by reflexivity.
    assert (Gl : hget (u_heap s6) (length hd) = Some (OInst iv)) by (cbn; apply hget_app_new).
    assert (NT : is_tuple w (u_heap s6) (VLoc (length hd)) = false).
    { unfold is_tuple. rewrite Gl. cbn. destruct (c_kind (w_cls w cn)); auto. contradiction. }
    rewrite NT.
    rewrite (bind_eq _ _ s6 (VLoc (length hd)) s6) by reflexivity.
    rewrite (bind_eq _ _ s6 None s6).
    2:{ unfold gets. f_equal. f_equal. unfold inst_factory, u_inst. rewrite Gl. cbn [iv i_cls]. rewrite DF.
        unfold inst_attr. cbn [iv i_slots sget i_dict]. destruct (c_dict (w_cls w cn)) eqn:CD; auto.
        cbn [s6 s5 s4 u_heap us_heap us_objs us_idx us_prox us_log]. unfold hd. rewrite hget_app_old by (rewrite app_length; simpl; lia).
        rewrite hget_app_new. reflexivity. }
    exists (length hd), iv, s6. split; [reflexivity|]. split; [exact Gl|]. split; [reflexivity|]. split.
    - unfold hd. destruct (c_dict (w_cls w cn)); rewrite ?app_length; lia.
    - split; [|reflexivity]. cbn. rewrite <- List.app_assoc. reflexivity. }
  destruct E as (l & i & s' & E & A & B & C & D & F). rewrite (bind_eq _ _ _ _ _ E).
  assert (SP : swap_proxies w s' = (Ret tt, us_swaps [] s')) by (unfold swap_proxies, bind, gets; rewrite F; reflexivity).
  rewrite (bind_eq _ _ _ _ _ SP). exists l, i, (us_swaps [] s'). repeat split; auto.
Qed.
