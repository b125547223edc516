(** C01, C02, C29, C31, C32, C34, C35, C36, C42, C44: decode(encode(v)) is a copy of v. *)
From Coq Require Import Permutation.
From Verif Require Import PyStr Tags Json JsonText JsonTextProofs Base Heap Registry LoadClass Pickler Unpickler SpecGraph PGen PTerm RTBase RTOrder RTKinds RTMain RTProps Samples PropEncode.
Open Scope nat_scope.

(** C01.  For every supported graph, whatever its sharing and cycles. *)
Theorem C01_roundtrip :
  forall w k po uo classes h dm N v, rt_case w k po uo classes h dm N v ->
  roundtrips w k po uo classes h v (fun h' b v' => is_copy w k (po_keys po) h h' b v v').
Proof. intros w k po uo classes h dm N v HC. exact (roundtrips_copy w k po uo classes h dm N v HC). Qed.
Print Assumptions C01_roundtrip.

(** C02.  Two paths lead to the same list, dict or instance in the result if and only if
    they do in the original, and the result has the same paths. *)
Theorem C02_aliasing :
  forall w k po uo classes h dm N v, rt_case w k po uo classes h dm N v ->
  roundtrips w k po uo classes h v (fun h' b v' =>
    forall p q l1 l2, encoded_path w k h v p -> encoded_path w k h v q ->
      before w k h v p = Some (VLoc l1) -> before w k h v q = Some (VLoc l2) ->
      is_object h l1 = true -> is_object h l2 = true ->
      exists l1' l2', after w h' v' p = Some (VLoc l1') /\ after w h' v' q = Some (VLoc l2') /\ (l1 = l2 <-> l1' = l2')).
Proof.
  intros w k po uo classes h dm N v HC. eapply roundtrips_use; [exact HC|]. intros h' b v' CP p q l1 l2 EP EQ Bp Bq O1 O2.
  destruct (copy_path w k po h v h' b v' CP) as (R & RF & RJ & OM & PT).
  pose proof (PT p EP) as X. rewrite Bp in X. pose proof (PT q EQ) as Y. rewrite Bq in Y.
  destruct (after w h' v' p) as [x1|]; [|destruct X]. destruct (after w h' v' q) as [x2|]; [|destruct Y].
  destruct (object_copy h h' b R l1 x1 O1 X) as (l1' & -> & R1). destruct (object_copy h h' b R l2 x2 O2 Y) as (l2' & -> & R2).
  exists l1', l2'. split; auto. split; auto. split; intros E; subst; eauto.
Qed.
Print Assumptions C02_aliasing.
Theorem C02_same_positions :
  forall w k po uo classes h dm N v, rt_case w k po uo classes h dm N v ->
  roundtrips w k po uo classes h v (fun h' b v' =>
    forall p, encoded_path w k h v p -> (before w k h v p = None <-> after w h' v' p = None)).
Proof.
  intros w k po uo classes h dm N v HC. eapply roundtrips_use; [exact HC|]. intros h' b v' CP p EP.
  destruct (copy_path w k po h v h' b v' CP) as (R & RF & RJ & OM & PT). specialize (PT p EP).
  destruct (before w k h v p), (after w h' v' p); simpl in PT; try contradiction; split; congruence.
Qed.
Print Assumptions C02_same_positions.

(** C44.  Classes, functions and modules come back as themselves. *)
Theorem C44_classes_functions_modules :
  forall w k po uo classes h dm N v, rt_case w k po uo classes h dm N v ->
  roundtrips w k po uo classes h v (fun h' b v' =>
    forall p x, encoded_path w k h v p -> before w k h v p = Some x ->
      (exists c, x = VType c) \/ (exists f, x = VFun f) \/ (exists m, x = VMod m) -> after w h' v' p = Some x).
Proof.
  intros w k po uo classes h dm N v HC. eapply roundtrips_use; [exact HC|]. intros h' b v' CP p x EP Bp HX.
  destruct (copy_path w k po h v h' b v' CP) as (R & RF & RJ & OM & PT). specialize (PT p EP). rewrite Bp in PT.
  destruct (after w h' v' p) as [x'|]; [|destruct PT].
  destruct HX as [(c & ->)|[(c & ->)|(c & ->)]]; inversion PT; subst; reflexivity.
Qed.
Print Assumptions C44_classes_functions_modules.

(** C29.  [__setstate__] is called once, with a copy of what [__getstate__] returned; a falsy
    state is not delivered; without [__setstate__] a dict becomes the attributes, and a pair of
    (None or a dict, a dict for the slots) becomes the attributes and slots. *)
Theorem C29_state :
  forall w k po uo classes h dm N v, rt_case w k po uo classes h dm N v ->
  roundtrips w k po uo classes h v (fun h' b v' => at_instance w k (po_keys po) h h' b v v' (fun l i i' =>
    let c := w_cls w (i_cls i) in
    ordinary w k l i ->
    (forall st, own_state w k h c l st -> c_setstate c = true -> exists st', i_state i' = [st'] /\ is_copy w k (po_keys po) h h' b st st') /\
    (no_state w k h c l -> i_state i' = []) /\
    (forall sd items, own_state w k h c l (VLoc sd) -> c_setstate c = false -> hget h sd = Some (ODict items) ->
       i_state i' = [] /\ forall a, ocopy w k (po_keys po) h h' b (dget (VStr a) items) (inst_attr h' i' a)) /\
    (forall x sb a slots, own_state w k h c l (VTuple [x; VLoc sb]) -> c_setstate c = false -> hget h sb = Some (ODict slots) -> state_dict h x a ->
       i_state i' = [] /\ forall n, ocopy w k (po_keys po) h h' b (dget (VStr n) (slots ++ a)) (inst_attr h' i' n)))).
Proof.
  intros w k po uo classes h dm N v HC. eapply (roundtrips_instances w k po uo classes h dm N v HC (fun h' b l i i' => _)).
  intros h' b l i i' (_ & _ & F). cbv zeta. intros OR. destruct (F OR) as (F1 & F2 & (F3 & F4) & _). split; [exact F1|]. split; [exact F2|]. split.
  - intros sd items O S G. destruct (F3 sd items O S G) as (X1 & X2 & _). auto.
  - intros x sb a slots O S G SD. destruct (F4 x sb a slots O S G SD) as (X1 & X2 & _). auto.
Qed.
Print Assumptions C29_state.

(** C31.  [cls.__new__] received copies of the arguments; a defaultdict passes its factory
    before them.  Namedtuples and tuple subclasses are made by this call. *)
Theorem C31_constructor_arguments :
  forall w k po uo classes h dm N v, rt_case w k po uo classes h dm N v ->
  roundtrips w k po uo classes h v (fun h' b v' => at_instance w k (po_keys po) h h' b v v' (fun l i i' =>
    let c := w_cls w (i_cls i) in
    forall cs args kw, ordinary w k l i -> ctor k h c l cs args kw ->
    exists args' kw', i_rec i' = CNew args' kw' /\
      (c_kind c <> KDict \/ (exists st, own_state w k h c l st) -> Forall2 (is_copy w k (po_keys po) h h' b) args args') /\
      (c_kind c = KDict -> no_state w k h c l -> Forall2 (is_copy w k (po_keys po) h h' b) (factory_args w i ++ args) args') /\
      Forall2 (fun x x' => fst x' = fst x /\ is_copy w k (po_keys po) h h' b (snd x) (snd x')) kw kw')).
Proof.
  intros w k po uo classes h dm N v HC. eapply (roundtrips_instances w k po uo classes h dm N v HC (fun h' b l i i' => _)).
  intros h' b l i i' (_ & _ & F). cbv zeta. intros cs args kw OR C. destruct (F OR) as (_ & _ & _ & F4 & _).
  exact (F4 cs args kw C).
Qed.
Print Assumptions C31_constructor_arguments.

(** C30.  The function given by [__reduce__] is called once, with copies of the arguments; the
    state, list items and dict items are copies of those it gave. *)
Theorem C30_reduce :
  forall w k po uo classes h dm N v, rt_case w k po uo classes h dm N v ->
  roundtrips w k po uo classes h v (fun h' b v' => at_instance w k (po_keys po) h h' b v v' (fun l i i' =>
    let c := w_cls w (i_cls i) in
    forall f args mkrec st li xs di d, reduced w k h l i f args mkrec st li xs di d ->
    (exists args', i_rec i' = mkrec args' /\ Forall2 (is_copy w k (po_keys po) h h' b) args args') /\
    (truthy (w_cls w) h st = false -> i_state i' = [] /\ forall x, i_dict i' = Some x -> hget h' x = Some (ODict [])) /\
    (truthy (w_cls w) h st = true -> c_setstate c = true -> exists st', i_state i' = [st'] /\ is_copy w k (po_keys po) h h' b st st') /\
    (truthy (w_cls w) h st = true -> c_setstate c = false ->
       i_state i' = [] /\ exists x, i_dict i' = Some x /\ is_copy w k (po_keys po) h h' b st (VLoc x)) /\
    Forall2 (is_copy w k (po_keys po) h h' b) xs (i_elems i') /\
    Forall2 (fun p p' => is_copy w k (po_keys po) h h' b (fst p) (fst p') /\ is_copy w k (po_keys po) h h' b (snd p) (snd p')) d (i_items i') /\
    i_slots i' = [])).
Proof.
  intros w k po uo classes h dm N v HC. eapply (roundtrips_instances w k po uo classes h dm N v HC (fun h' b l i i' => _)).
  intros h' b l i i' (_ & F & _). exact F.
Qed.
Print Assumptions C30_reduce.

(** C45.  An object with a registered handler is made by that handler from copies of the values
    it was taken apart into. *)
Theorem C45_handler :
  forall w k po uo classes h dm N v, rt_case w k po uo classes h dm N v ->
  roundtrips w k po uo classes h v (fun h' b v' => at_instance w k (po_keys po) h h' b v v' (fun l i i' =>
    forall hd pre vs, handled w l i hd pre vs ->
    exists vs', i_rec i' = CHandler hd (pre ++ vs') /\ Forall2 (is_copy w k (po_keys po) h h' b) vs vs')).
Proof.
  intros w k po uo classes h dm N v HC. eapply (roundtrips_instances w k po uo classes h dm N v HC (fun h' b l i i' => _)).
  intros h' b l i i' (F & _). exact F.
Qed.
Print Assumptions C45_handler.

(** C32.  A defaultdict whose factory is a class. *)
Theorem C32_default_factory :
  forall w k po uo classes h dm N v, rt_case w k po uo classes h dm N v ->
  roundtrips w k po uo classes h v (fun h' b v' => at_instance w k (po_keys po) h h' b v v' (fun l i i' =>
    let c := w_cls w (i_cls i) in
    forall f, ordinary w k l i -> c_kind c = KDict -> c_deffac c = true -> no_state w k h c l -> i_fac i = Some (VType f) ->
    i_fac i' = Some (VType f) /\
    Forall2 (item_copy w k (po_keys po) h h' b) (strings_first (i_items i)) (i_items i'))).
Proof.
  intros w k po uo classes h dm N v HC. eapply (roundtrips_instances w k po uo classes h dm N v HC (fun h' b l i i' => _)).
  intros h' b l i i' (_ & _ & F). cbv zeta. intros f OR KD DF NS FC.
  destruct (F OR) as (_ & _ & _ & _ & F5). destruct (F5 NS) as (_ & _ & _ & X & _). destruct (X KD) as [X1 X2]. specialize (X2 DF). rewrite FC in X2. auto.
Qed.
Print Assumptions C32_default_factory.

(** C34.  Subclasses of dict, list and set: class, contents in order, attributes.  (Entries
    with string keys come first in a decoded dict; without keys=True there are no others.) *)
Theorem C34_subclasses :
  forall w k po uo classes h dm N v, rt_case w k po uo classes h dm N v ->
  roundtrips w k po uo classes h v (fun h' b v' => at_instance w k (po_keys po) h h' b v v' (fun l i i' =>
    let c := w_cls w (i_cls i) in
    ordinary w k l i -> no_state w k h c l -> c_exclude c = [] ->
    (c_kind c = KDict -> Forall2 (item_copy w k (po_keys po) h h' b) (strings_first (i_items i)) (i_items i')) /\
    (c_kind c = KList \/ c_kind c = KSet -> Forall2 (is_copy w k (po_keys po) h h' b) (i_elems i) (i_elems i')) /\
    (forall a, ocopy w k (po_keys po) h h' b (inst_attr h i a) (inst_attr h' i' a)))).
Proof.
  intros w k po uo classes h dm N v HC. eapply (roundtrips_instances w k po uo classes h dm N v HC (fun h' b l i i' => _)).
  intros h' b l i i' (_ & _ & F). cbv zeta. intros OR NS CE. destruct (F OR) as (_ & _ & _ & _ & F5).
  destruct (F5 NS) as (X1 & _ & _ & X2 & X3). split; [intros KD; apply X2; auto|]. split; auto.
  intros a. apply X1. unfold kept. rewrite CE. reflexivity.
Qed.
Print Assumptions C34_subclasses.

(** C35.  Slots. *)
Theorem C35_slots :
  forall w k po uo classes h dm N v, rt_case w k po uo classes h dm N v ->
  roundtrips w k po uo classes h v (fun h' b v' => at_instance w k (po_keys po) h h' b v v' (fun l i i' =>
    let c := w_cls w (i_cls i) in
    forall a x, ordinary w k l i -> no_state w k h c l -> sget a (i_slots i) = Some x -> kept c a = true ->
    exists x', inst_attr h' i' a = Some x' /\ is_copy w k (po_keys po) h h' b x x')).
Proof.
  intros w k po uo classes h dm N v HC. eapply (roundtrips_instances w k po uo classes h dm N v HC (fun h' b l i i' => _)).
  intros h' b l i i' (_ & _ & F). cbv zeta. intros a x OR NS SG KA. destruct (F OR) as (_ & _ & _ & _ & F5).
  destruct (F5 NS) as (X1 & _). specialize (X1 a KA). unfold inst_attr at 1 in X1. rewrite SG in X1.
  destruct (inst_attr h' i' a) as [x'|]; [|destruct X1]. exists x'. auto.
Qed.
Print Assumptions C35_slots.

(** C36.  Excluded attributes are absent from the copy, the others are there in order. *)
Theorem C36_exclude :
  forall w k po uo classes h dm N v, rt_case w k po uo classes h dm N v ->
  roundtrips w k po uo classes h v (fun h' b v' => at_instance w k (po_keys po) h h' b v v' (fun l i i' =>
    let c := w_cls w (i_cls i) in ordinary w k l i -> no_state w k h c l -> c_kind c <> KDict ->
    (forall a, In a (c_exclude c) -> inst_attr h' i' a = None) /\
    (forall a, ~ In a (c_exclude c) -> ocopy w k (po_keys po) h h' b (inst_attr h i a) (inst_attr h' i' a)) /\
    (forall items, attrs_of h i = Some items -> exists d' items', i_dict i' = Some d' /\ hget h' d' = Some (ODict items') /\
       Forall2 (item_copy w k (po_keys po) h h' b) (kept_attrs c items) items'))).
Proof.
  intros w k po uo classes h dm N v HC. eapply (roundtrips_instances w k po uo classes h dm N v HC (fun h' b l i i' => _)).
  intros h' b l i i' (_ & _ & F). cbv zeta. intros OR NS NK. destruct (F OR) as (_ & _ & _ & _ & F5).
  destruct (F5 NS) as (X1 & X2 & X3 & _). split; [|split; auto].
  - intros a Ha. apply X2; auto. unfold kept. rewrite (proj2 (smem_In _ _) Ha). reflexivity.
  - intros a Ha. apply X1. unfold kept. destruct (smem a (c_exclude (w_cls w (i_cls i)))) eqn:E; auto. apply smem_In in E. contradiction.
Qed.
Print Assumptions C36_exclude.

(** ** A graph meeting the hypotheses: every shape, cycles and sharing *)
Definition K_rt : hooks :=
  {| k_reduce := k_reduce K0;
     k_getstate := fun l => if l =? 11 then Ret (VTuple [VLoc 0; VInt 7]) else if l =? 18 then Ret (VLoc 20) else Ret VNone;
     k_newargs := fun l => if l =? 13 then Ret (VTuple [VInt 5; VStr (u "s"); VLoc 17]) else Ret (VTuple []);
     k_newargs_ex := k_newargs_ex K0; k_initargs := k_initargs K0; k_iter := k_iter K0; k_attr := k_attr K0; k_dir := k_dir K0;
     k_props := k_props K0; k_eqdict := k_eqdict K0; k_members := k_members K0; k_repr := k_repr K0; k_str := k_str K0; k_call0 := k_call0 K0 |}.
Definition H_rt : heap :=
  [ plain_inst cNode 1;
    ODict [(VStr (u "next"), VLoc 0); (VStr (u "items"), VLoc 2); (VStr (u "t"), VTuple [VLoc 2; VLoc 3]);
           (VStr (u "d"), VLoc 4); (VStr (u "l"), VLoc 6); (VStr (u "s"), VLoc 8); (VStr (u "e"), VLoc 9);
           (VStr (u "st"), VLoc 11); (VStr (u "na"), VLoc 13); (VStr (u "dd"), VLoc 15); (VStr (u "ba"), VLoc 16);
           (VStr (u "og"), VLoc 18)];
    OList [VLoc 0; VInt 1; VNone; VBool true; VFloat (u "1.5"); VStr [233%N]; VBytes [Ascii.zero]; VType cNode; VFun 0; VMod 0; VLoc 2];
    OSet [VInt 1; VTuple [VInt 2; VStr (u "x")]];
    OInst (mkInst cDict (Some 5) [] [(VStr (u "a"), VLoc 2)] [] None CSrc [] 0);
    ODict [(VStr (u "attr"), VLoc 0); (VStr (u "b"), VInt 1)];
    OInst (mkInst cList (Some 7) [] [] [VLoc 4; VInt 3] None CSrc [] 0);
    ODict [(VStr (u "name"), VStr (u "n"))];
    OInst (mkInst cSlots None [(u "a", VLoc 0); (u "_Slots__p", VLoc 2)] [] [] None CSrc [] 0);
    plain_inst cEx 10;
    ODict [(VStr (u "secret"), VInt 1); (VStr (u "pub"), VLoc 8)];
    plain_inst cState 12;
    ODict [(VStr (u "x"), VInt 0)];
    plain_inst cNewargs 14;
    ODict [(VStr (u "y"), VLoc 11)];
    OInst (mkInst cDD None [] [(VStr (u "k"), VLoc 2)] [] (Some (VType cNode)) CSrc [] 0);
    OByteArray [Ascii.zero];
    OList [VInt 1];
    plain_inst cPlainNoState 19;
    ODict [];
    ODict [(VStr (u "z"), VLoc 17)] ].
Definition all_rt : list val := map VLoc [0; 2; 3; 4; 5; 6; 8; 9; 11; 13; 15; 16; 17; 18; 20] ++
  [VTuple [VLoc 2; VLoc 3]; VTuple [VInt 2; VStr (u "x")]; VTuple [VLoc 0; VInt 7]; VTuple [VInt 5; VStr (u "s"); VLoc 17];
   VInt 1; VInt 2; VInt 3; VInt 5; VInt 7; VNone; VBool true; VFloat (u "1.5"); VStr [233%N]; VBytes [Ascii.zero]; VType cNode; VFun 0; VMod 0;
   VStr (u "x"); VStr (u "a"); VStr (u "attr"); VStr (u "b"); VStr (u "n"); VStr (u "s"); VStr (u "k"); VStr (u "z")].
Lemma class_ok_W0 c n kws : str_ok (importable_name (w_cls W0 c)) = true ->
  loadclass W0 [] (JStr (importable_name (w_cls W0 c))) = Ret (VType c) -> c_isfun (w_cls W0 c) = false ->
  class_ok W0 [] c n kws.
Proof. intros A B C. split; [exact A|]. split; [exact B|]. split; [reflexivity|]. split; [exact C|]. reflexivity. Qed.
Ltac cok := apply class_ok_W0; vm_compute; reflexivity.
Lemma incl_check (xs ys : list val) : forallb (fun x => existsb (val_eqb x) ys) xs = true -> incl xs ys.
Proof.
  intros H x I. rewrite forallb_forall in H. specialize (H x I). apply existsb_exists in H. destruct H as (y & Iy & E).
  apply val_eqb_eq in E. subst. exact Iy.
Qed.
Ltac incl_tac := apply incl_check; vm_compute; reflexivity.
(** Dicts with immutable keys: a check that they are encoded to different texts. *)
Lemma dict_ok_check w k keys h d :
  forallb (fun kv => key_ok w keys h (fst kv)) d && kdistinct (map fst d) && forallb pure (map fst (non_strings d)) = true ->
  dict_ok w k keys h d.
Proof.
  intros H. apply andb_true_iff in H as [H H3]. apply andb_true_iff in H as [H1 H2]. split; [exact H1|]. split; [exact H2|].
  induction (map fst (non_strings d)) as [|x l IH]; constructor.
  - cbn [forallb] in H3. apply andb_true_iff in H3 as [Px Pl]. rewrite forallb_forall in Pl. apply Forall_forall.
    intros y Hy. left. rewrite Px, (Pl y Hy). reflexivity.
  - apply IH. cbn [forallb] in H3. apply andb_true_iff in H3. apply H3.
Qed.
Lemma order_ok_check keys d : forallb (fun kv => negb (is_escaped keys (fst kv)) || pure (snd kv)) d = true -> order_ok keys d.
Proof.
  induction d as [|[q v] d IH]; simpl; auto. intros H. apply andb_true_iff in H as [H1 H2]. split; auto.
  intros E. rewrite E in H1. left. exact H1.
Qed.
Ltac dok := apply dict_ok_check; vm_compute; reflexivity.
Ltac ook := apply order_ok_check; vm_compute; reflexivity.
Lemma shapes_rt : forall l, In (VLoc l) all_rt -> exists cs, shape W0 K_rt false [] H_rt l cs /\ incl cs all_rt.
Proof.
  intros l I. unfold all_rt in I. rewrite in_app_iff in I. destruct I as [I|I].
  2: { exfalso. cbn [In] in I. repeat (destruct I as [I|I]; [discriminate|]). exact I. }
  apply in_map_iff in I. destruct I as (x & E & I). injection E as ->.
  repeat (destruct I as [<-|I]); [..|destruct I].
  - eexists. split; [eapply (sh_plain W0 K_rt false [] H_rt 0) with (args := []) (kw := []); try reflexivity; [cok|left; reflexivity|left; reflexivity|apply ct_none; reflexivity]|incl_tac].
  - eexists. split; [eapply sh_list; reflexivity|incl_tac].
  - eexists. split; [eapply sh_set; reflexivity|incl_tac].
  - eexists. split; [eapply (sh_dictsub W0 K_rt false [] H_rt 4) with (args := []) (kw := []); try reflexivity; [cok|left; reflexivity|left; reflexivity|apply ct_none; reflexivity|dok| |]|incl_tac].
    + intros kv s [<-|[]] E. cbn in E. injection E as <-. split; vm_compute; discriminate.
    + split; [reflexivity|]. split; [reflexivity|]. eexists. split; [reflexivity|]. split; [dok|]. discriminate.
  - eexists. split; [eapply sh_dict; [reflexivity|dok|ook]|incl_tac].
  - eexists. split; [eapply (sh_seq W0 K_rt false [] H_rt 6) with (a := [(VStr (u "name"), VStr (u "n"))]) (args := []) (kw := []); try reflexivity; [left; reflexivity|cok|left; reflexivity|left; reflexivity|apply ct_none; reflexivity|]|incl_tac].
    split; [reflexivity|]. split; reflexivity.
  - eexists. split; [eapply (sh_slots W0 K_rt false [] H_rt 8) with (args := []) (kw := []); try reflexivity; [cok|left; reflexivity|left; reflexivity|apply ct_none; reflexivity| | | ]|incl_tac].
    + repeat constructor; intros I; repeat (destruct I as [I|I]; try discriminate I); auto.
    + intros a I. simpl in I. destruct I as [<-|[<-|[]]]; [left|right; right; left]; reflexivity.
    + exists (u "a"), (VLoc 0). split; [left; reflexivity|]. split; reflexivity.
  - eexists. split; [eapply (sh_plain W0 K_rt false [] H_rt 9) with (args := []) (kw := []); try reflexivity; [cok|left; reflexivity|left; reflexivity|apply ct_none; reflexivity]|incl_tac].
  - eexists. split; [eapply (sh_state W0 K_rt false [] H_rt 11) with (st := VTuple [VLoc 0; VInt 7]) (args := []) (kw := []); try reflexivity; [cok|left; reflexivity| |apply ct_none; reflexivity|discriminate]|incl_tac].
    split; [reflexivity|]. split; [reflexivity|]. split; [reflexivity|]. left. reflexivity.
  - eexists. split; [eapply (sh_plain W0 K_rt false [] H_rt 13) with (kw := []); try reflexivity; [|left; reflexivity|left; reflexivity|apply ct_newargs; reflexivity]|incl_tac]. cok.
  - eexists. split; [eapply (sh_dictsub W0 K_rt false [] H_rt 15) with (args := []) (kw := []); try reflexivity; [cok|left; reflexivity|left; reflexivity|apply ct_none; reflexivity|dok|]|incl_tac].
    intros kv s [<-|[]] E. cbn in E. injection E as <-. split; vm_compute; discriminate.
  - eexists. split; [eapply sh_bytearray; reflexivity|incl_tac].
  - eexists. split; [eapply sh_list; reflexivity|incl_tac].
  - eexists. split; [eapply (sh_dstate W0 K_rt false [] H_rt 18) with (sd := 20) (args := []) (kw := []); try reflexivity; [cok|left; reflexivity| |apply ct_none; reflexivity]|incl_tac].
    split; [reflexivity|]. split; [reflexivity|]. split; [reflexivity|]. left. reflexivity.
  - eexists. split; [eapply sh_dict; [reflexivity|dok|ook]|incl_tac].
Qed.
Lemma early_rt l x : In (VLoc l) all_rt -> early W0 K_rt H_rt l x ->
  x = VTuple [VInt 5; VStr (u "s"); VLoc 17] /\ l = 13 \/ x = VLoc 20 /\ l = 18.
Proof.
  intros I E. unfold all_rt in I. rewrite in_app_iff in I. destruct I as [I|I].
  2: { exfalso. cbn [In] in I. repeat (destruct I as [I|I]; [discriminate|]). exact I. }
  apply in_map_iff in I. destruct I as (y & Ey & I). injection Ey as ->.
  repeat (destruct I as [<-|I]); [..|destruct I]; inversion E as [l0 i cs args kw x0 G OR C Ix El Ex|l0 i st G OR OS S El Ex|l0 i hd pre vs x0 G HA Ix El Ex|l0 i f args mkrec st li xs di d x0 G RD Ix El Ex]; subst;
    try (destruct HA as (_ & HA & _); vm_compute in HA; discriminate HA);
    try (destruct RD as [_ RD _ (rl & RV & _) _ _ _ _ _]; cbn in RV; discriminate RV);
    try (destruct OS as (O1 & O2 & O3 & _)); cbn in G; try discriminate G; injection G as <-;
    try (vm_compute in O1; discriminate O1); try (vm_compute in S; discriminate S).
  all: try (destruct C as [E1 E2 E3|a E1 E2 E3 E4|a kd d kw E1 E2 E3|a E1 E2 E3 E4]; try (vm_compute in E1; discriminate E1); try (vm_compute in E2; discriminate E2); try (vm_compute in E3; discriminate E3); try (destruct Ix; fail)).
  - left. split; auto. destruct Ix as [<-|[]]. cbn in E4. injection E4 as <-. reflexivity.
  - right. split; auto. cbn in O2. injection O2 as <-. reflexivity.
Qed.
Lemma closed_all : closed W0 K_rt false [] H_rt all_rt.
Proof.
  intros x I. destruct x; auto; [|apply shapes_rt; auto].
  apply in_app_or in I. destruct I as [I|I]; [apply in_map_iff in I; destruct I as (? & ? & _); discriminate|].
  cbn [In] in I. repeat (destruct I as [I|I]; [try discriminate I; injection I as <-; incl_tac|]). destruct I.
Qed.
Lemma supported_rt : supported W0 K_rt false [] H_rt (VLoc 0).
Proof.
  apply (closed_supported W0 K_rt false [] H_rt all_rt); [exact closed_all|left; reflexivity|].
  intros x I. destruct x; try exact Logic.I;
    try (apply in_app_or in I; destruct I as [I|I]; [apply in_map_iff in I; destruct I as (? & ? & _); discriminate|];
         cbn [In] in I; repeat (destruct I as [I|I]; [try discriminate I; injection I as <-; vm_compute; auto|]); destruct I).
  - split.
    + destruct (shapes_rt l I) as (cs & S & _). eauto.
    + intros x E R. destruct (early_rt l x I E) as [[-> ->]|[-> ->]].
      * assert (C : closed W0 K_rt false [] H_rt [VTuple [VInt 5; VStr (u "s"); VLoc 17]; VInt 5; VStr (u "s"); VLoc 17; VInt 1]).
        { intros x I2. cbn [In] in I2. repeat (destruct I2 as [<-|I2]; [try exact Logic.I; try incl_tac|]); [|destruct I2].
          eexists. split; [eapply sh_list; reflexivity|incl_tac]. }
        pose proof (closed_reach _ _ _ _ _ _ _ _ C (or_introl eq_refl) R) as X. cbn [In] in X.
        repeat (destruct X as [X|X]; [discriminate X|]). exact X.
      * assert (C : closed W0 K_rt false [] H_rt [VLoc 20; VStr (u "z"); VLoc 17; VInt 1]).
        { intros x I2. cbn [In] in I2. repeat (destruct I2 as [<-|I2]; [try exact Logic.I|]); [| |destruct I2].
          - eexists. split; [eapply sh_dict; [reflexivity|dok|ook]|incl_tac].
          - eexists. split; [eapply sh_list; reflexivity|incl_tac]. }
        pose proof (closed_reach _ _ _ _ _ _ _ _ C (or_introl eq_refl) R) as X. cbn [In] in X.
        repeat (destruct X as [X|X]; [discriminate X|]). exact X.
Qed.
Lemma finite_rt : finite_graph W0 K_rt PO H_rt 2 0.
Proof.
  destruct (finite_sample PO H_rt 2 eq_refl ltac:(lia) ltac:(vm_compute; reflexivity)) as [F1 F2 F3 F4 F5 F6 F7 F8 F9 F10 F11 F12 F13 F14 F15].
  constructor; auto.
  - intros l x E. cbn in E. destruct (l =? 13); injection E as <-; split; vm_compute; auto.
  - intros l x E. cbn in E. destruct (l =? 11); [injection E as <-; split; vm_compute; auto|].
    destruct (l =? 18); injection E as <-; split; vm_compute; auto.
  - destruct F12 as (R1 & R2 & R3 & R4 & R5 & R6 & R7 & R8 & R9 & R10 & R11). repeat split; auto.
    + intros l. cbn. destruct (l =? 13); discriminate.
    + intros l. cbn. destruct (l =? 11); [discriminate|]. destruct (l =? 18); discriminate.
Qed.
Example C01_case : rt_case W0 K_rt PO UO None H_rt 2 0 (VLoc 0).
Proof.
  split; [repeat split|]. split; [exact supported_rt|]. split; [exact finite_rt|]. split; vm_compute; auto.
Qed.
Example C02_case :
  let s := u "items" in
  before W0 K_rt H_rt (VLoc 0) [PAttr (u "items"); PIdx 0; PAttr (u "t"); PIdx 0] = Some (VLoc 2) /\
  before W0 K_rt H_rt (VLoc 0) [PAttr (u "dd"); PKey (VStr (u "k"))] = Some (VLoc 2) /\
  before W0 K_rt H_rt (VLoc 0) [PAttr (u "s"); PAttr (u "_Slots__p")] = Some (VLoc 2) /\
  before W0 K_rt H_rt (VLoc 0) [PAttr (u "st"); PState; PIdx 0] = Some (VLoc 0) /\
  before W0 K_rt H_rt (VLoc 0) [PAttr (u "d"); PAttr (u "attr")] = Some (VLoc 0) /\
  before W0 K_rt H_rt (VLoc 0) [PAttr (u "e"); PAttr (u "pub"); PAttr (u "a")] = Some (VLoc 0) /\
  is_object H_rt 2 = true /\ is_object H_rt 0 = true.
Proof. vm_compute. auto 10. Qed.
Example C29_case : own_state W0 K_rt H_rt (w_cls W0 cState) 11 (VTuple [VLoc 0; VInt 7]) /\
  own_state W0 K_rt H_rt (w_cls W0 cPlainNoState) 18 (VLoc 20) /\ no_state W0 K_rt H_rt (w_cls W0 cNode) 0 /\
  ctor K_rt H_rt (w_cls W0 cNewargs) 13 [VTuple [VInt 5; VStr (u "s"); VLoc 17]] [VInt 5; VStr (u "s"); VLoc 17] [].
Proof.
  split; [repeat split; left; reflexivity|]. split; [repeat split; left; reflexivity|]. split; [left; reflexivity|].
  apply ct_newargs; reflexivity.
Qed.

(** C16.  keys=True on both sides: each key comes back as a copy, with a copy of its value.  Keys may
    be any hashable values whose documents differ; paths through keys are among those of C02. *)
Theorem C16_keys :
  forall w k po uo classes h dm N v, po_keys po = true -> rt_case w k po uo classes h dm N v ->
  roundtrips w k po uo classes h v (fun h' b v' =>
    forall p l d, encoded_path w k h v p -> before w k h v p = Some (VLoc l) -> hget h l = Some (ODict d) ->
    exists l' d' d2, after w h' v' p = Some (VLoc l') /\ hget h' l' = Some (ODict d') /\
      Permutation d2 d /\ non_strings d2 = non_strings d /\ Forall2 (item_copy w k true h h' b) d2 d' /\
      forall q, pure q = true -> ocopy w k true h h' b (dget q d) (dget q d')).
Proof.
  intros w k po uo classes h dm N v KT HC. eapply roundtrips_use; [exact HC|]. intros h' b v' CP p l d EP B G.
  destruct (copy_path w k po h v h' b v' CP) as (R & RF & RJ & OM & PT). specialize (PT p EP). rewrite B in PT.
  destruct (after w h' v' p) as [x'|]; [|destruct PT].
  destruct (object_copy h h' b R l x') as (l' & -> & Rl); [unfold is_object; rewrite G; reflexivity|exact PT|].
  destruct (OM l l' Rl) as [xs ys G1 _ _ _|d0 d' G0 L G' F|i0 i' G0 L G' EC IM]; try congruence.
  rewrite G in G0. injection G0 as <-. rewrite KT in *. exists l', d', (dict_order true d). split; auto. split; auto.
  split; [apply dict_order_perm|]. split; [apply non_strings_order|]. split.
  - clear - F RF RJ OM. induction F as [|x x' a a' [E M] F IH]; constructor; auto.
    split; [intros P; eapply pure_copy; eauto|]. split; exists R; auto.
  - intros q P. pose proof (dget_at h h' b R q _ _ P F) as X. rewrite dget_dict_order in X.
    destruct (dget q d), (dget q d'); simpl in *; auto. exists R; auto.
Qed.
Print Assumptions C16_keys.
Definition H_keys : heap :=
  [ ODict [(VInt 1, VLoc 1); (VStr (u "s"), VLoc 0); (VTuple [VNone; VBool true; VBytes [Ascii.zero]], VLoc 1);
           (VNone, VInt 5); (VFloat (u "1.5"), VInt 6); (VType cNode, VInt 7); (VFun 0, VTuple [VLoc 1])];
    OList [VInt 1] ].
Lemma supported_keys : supported W0 K0 true [] H_keys (VLoc 0).
Proof.
  apply (closed_supported W0 K0 true [] H_keys
    [VLoc 0; VLoc 1; VInt 1; VInt 5; VInt 6; VInt 7; VTuple [VLoc 1]; VStr (u "s"); VTuple [VNone; VBool true; VBytes [Ascii.zero]];
     VNone; VBool true; VBytes [Ascii.zero]; VFloat (u "1.5"); VType cNode; VFun 0]).
  - intros x I. cbn [In] in I. repeat (destruct I as [<-|I]; [try exact Logic.I; try incl_tac|]); [| |destruct I].
    + eexists. split; [eapply sh_dict; [reflexivity|dok|ook]|incl_tac].
    + eexists. split; [eapply sh_list; reflexivity|incl_tac].
  - left. reflexivity.
  - intros x I. cbn [In] in I. repeat (destruct I as [<-|I]; [try exact Logic.I; try (vm_compute; auto; fail)|]); [| |destruct I].
    + split; [eexists; eapply sh_dict; [reflexivity|dok|ook]|].
      intros x E. exfalso. inversion E as [l0 i cs args kw x0 G|l0 i st G|l0 i hd pre vs x0 G|l0 i f args mkrec st li xs di d x0 G]; discriminate G.
    + split; [eexists; eapply sh_list; reflexivity|].
      intros x E. exfalso. inversion E as [l0 i cs args kw x0 G|l0 i st G|l0 i hd pre vs x0 G|l0 i f args mkrec st li xs di d x0 G]; discriminate G.
Qed.
Example C16_case : rt_case W0 K0 PO_keys UO_keys None H_keys 2 0 (VLoc 0) /\
  show (enc W0 K0 PO_keys 20 H_keys (VLoc 0)) =
  Ret "{""s"": {""py/id"": 0}, ""json://1"": [1], ""json://{\""py/tuple\"": [null, true, {\""py/b64\"": \""AA==\""}]}"": {""py/id"": 1}, ""json://null"": 5, ""json://1.5"": 6, ""json://{\""py/type\"": \""m.Node\""}"": 7, ""json://{\""py/function\"": \""m.f\""}"": {""py/tuple"": [{""py/id"": 1}]}}"%string.
Proof.
  split.
  - split; [repeat split|]. split; [exact supported_keys|]. split; [apply finite_sample; [reflexivity|lia|vm_compute; reflexivity]|].
    split; vm_compute; auto.
  - vm_compute. reflexivity.
Qed.
