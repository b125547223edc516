(** C49: decoding where some classes are absent; references keep their meaning when the absent
    objects have scalar attributes. *)
From Verif Require Import PyStr Tags Json JsonText JsonTextProofs Base Heap Registry LoadClass Pickler Unpickler SpecGraph SpecPlain SpecRefs SpecFail SpecHoles SpecLack.
From Verif Require Import PlainEncode RTBase RTPure PlainProofs Samples PropEncode PropRoundtrip PropLimits HolesProofs FillProofs CleanProofs LackProofs.
From Coq Require Import List Lia. Import ListNotations.
Open Scope nat_scope.

(** The table of classes that decode is given. *)
Definition class_table (w : world) (classes : option carg) : list (pystr * val) :=
  match classes with Some c => register_classes w c [] | None => [] end.

Lemma pure_flat h v : pure v = true -> flat h v.
Proof.
  induction v as [| | | | | |vs IHv| | | | | | |] using val_ind'; intros P; cbn in P; try discriminate; try exact Logic.I.
  cbn. induction IHv as [|v vs Hv Hvs IH]; [exact Logic.I|]. cbn in P. apply andb_true_iff in P as [P1 P2]. split; [exact (Hv P1)|exact (IH P2)].
Qed.
Lemma calls_clean w w' k fs cl h mem gone ok : with_calls w w' k cl h mem gone ok -> clean w k fs h ok.
Proof.
  intros L v V. destruct (L v V) as [(l & m & -> & _ & c & args & Bc & _)|[(l & -> & _ & _ & c & args & Bc & _)|(_ & H)]]; [left; eexists; apply ho_call; eauto|left; eexists; apply ho_call; eauto|].
  destruct v; auto. right. destruct H as (ob & G & H). exists ob. split; auto.
  assert (FD : forall d, lack_fields w h ok d -> clean_fields w h ok d).
  { intros d (D1 & D2). split; auto. intros kv I. destruct (D2 kv I) as (A & (a & E & Na) & C). split; auto. split.
    - exists a. split; auto. rewrite wire_reserved. apply name_parts in Na. tauto.
    - split; auto. intros f E2. rewrite E2 in A. destruct (L _ A) as [(l0 & m & E3 & _)|[(l0 & E3 & _)|(_ & [])]]; discriminate E3. }
  destruct ob as [vs|vs|d|x|i|x]; cbn in H |- *; auto.
  - destruct H as (A & B & _). split; auto. apply Forall_forall. intros x I. apply pure_flat. rewrite forallb_forall in B. auto.
  - destruct H as (P & _ & dl & d & A & B & C & _). split; auto. exists dl, d. auto.
Qed.
Lemma lacking_clean w w' k fs cl h ok : lacking w w' cl h ok -> clean w k fs h ok.
Proof. intros L. eapply calls_clean, members_calls, lacking_members, L. Qed.
(** With members, which are in the heap of the decoding process, and objects whose class is not there. *)
Lemma calls_decode : forall w w' k po uo classes h mem gone b0 ok v,
  po_unpicklable po = true -> po_make_refs po = true -> po_max_depth po = None -> po_props po = false ->
  po_readonly po = false -> po_sort po = false -> po_keys po = false ->
  uo_keys uo = false -> uo_v1 uo = false -> uo_missing uo <> MError -> (forall f n, uo_missing uo = MCall f -> f n = None) ->
  (forall l m, mem l = Some m -> m < b0) -> (forall l l2 m, mem l = Some m -> mem l2 = Some m -> l = l2) ->
  with_calls w w' k (class_table w' classes) h mem gone ok -> ok v ->
  exists text n0 m0,
    (forall n s, n0 <= n -> p_heap s = h -> exists s', encode w k po n v s = (Ret text, s')) /\
    forall m t, m0 <= m -> b0 <= length (u_heap t) ->
      exists x t', decode w' uo m classes text t = (Ret x, t') /\
      (forall a, a < length (u_heap t) -> hget (u_heap t') a = hget (u_heap t) a) /\
      copy_with_calls w w' (class_table w' classes) h mem gone (u_heap t') (length (u_heap t)) v x.
Proof.
  intros w w' k po uo classes h mem gone b0 ok v O1 O2 O3 O4 O5 O6 Ok U1 U2 U3 U4 Mo Mi L V. set (cl := class_table w' classes) in *.
  destruct (clean_written w k (po_fail_safe po) h ok (calls_clean w w' k (po_fail_safe po) cl h mem gone ok L) v V) as (j & tab & W).
  destruct (encode_written w k po h O1 O2 O3 O4 O5 O6 Ok v j tab W) as (N1 & E1).
  destruct (proj1 (all_goes_m w w' k (po_fail_safe po) cl h uo ok mem b0 Mo Mi gone L U1 U2 U3 U4) _ _ _ _ W V) as (J & N & H).
  exists (dumps j), N1, N. split.
  { intros n s Ln Es. destruct (E1 n s Ln Es) as (s' & E2 & _). eauto. }
  intros m t Lm Lb. set (t0 := mkUst (u_heap t) [] [] (u_prox t) [] cl (u_log t)).
  assert (S0 : St cl b0 t0 []). { constructor; auto; [intros x n []|constructor|intros x []]. }
  assert (A0 : al mem b0 [] []). { split; [reflexivity|]. intros l x (i & E & _). destruct i; discriminate. }
  destruct (H m Lm t0 [] S0 A0) as (x & t1 & e & R & S1 & AL & M & P). cbn [app] in *.
  exists x, (mkUst (u_heap t1) [] [] (u_prox t1) [] [] (u_log t1)). split; [|split].
  - unfold decode. rewrite loads_dumps by exact J. rewrite (bind_eq _ _ t x (us_swaps [] t1)); [reflexivity|].
    unfold unpickle. rewrite (bind_eq _ _ t tt (mkUst (u_heap t) [] [] (u_prox t) [] [] (u_log t))) by reflexivity.
    rewrite (bind_eq _ _ _ tt t0) by (unfold t0, cl, class_table; destruct classes; reflexivity).
    rewrite (bind_eq _ _ _ _ _ R). rewrite (bind_eq _ _ t1 tt (us_swaps [] t1)); [reflexivity|].
    unfold swap_proxies. rewrite (bind_eq _ _ t1 [] t1); [reflexivity|]. unfold gets. rewrite (sp_swaps _ _ _ _ _ _ _ S1). reflexivity.
  - intros a La. apply (sp_old _ _ _ _ _ _ _ S1); auto.
  - cbn [u_heap]. exists (Rl tab e). split; [|split; [|split; [|exact M]]].
    + intros l a c. apply Rl_fun. apply (proj1 (written_nodup w k po h) _ _ _ _ W). constructor.
    + intros a c l. apply Rl_inj. apply (st_nd _ _ _ _ (sp_st _ _ _ _ _ _ _ S1)).
    + intros l l' (i & A & B). apply (P i l l'); auto. cbn. lia.
Qed.

Lemma members_decode : forall w w' k po uo classes h mem b0 ok v,
  po_unpicklable po = true -> po_make_refs po = true -> po_max_depth po = None -> po_props po = false ->
  po_readonly po = false -> po_sort po = false -> po_keys po = false ->
  uo_keys uo = false -> uo_v1 uo = false -> uo_missing uo <> MError -> (forall f n, uo_missing uo = MCall f -> f n = None) ->
  (forall l m, mem l = Some m -> m < b0) -> (forall l l2 m, mem l = Some m -> mem l2 = Some m -> l = l2) ->
  with_members w w' k (class_table w' classes) h mem ok -> ok v ->
  exists text n0 m0,
    (forall n s, n0 <= n -> p_heap s = h -> exists s', encode w k po n v s = (Ret text, s')) /\
    forall m t, m0 <= m -> b0 <= length (u_heap t) ->
      exists x t', decode w' uo m classes text t = (Ret x, t') /\
      (forall a, a < length (u_heap t) -> hget (u_heap t') a = hget (u_heap t) a) /\
      copy_with_members w w' (class_table w' classes) h mem (u_heap t') (length (u_heap t)) v x.
Proof.
  intros w w' k po uo classes h mem b0 ok v O1 O2 O3 O4 O5 O6 Ok U1 U2 U3 U4 Mo Mi L V.
  destruct (calls_decode w w' k po uo classes h mem (fun _ => False) b0 ok v O1 O2 O3 O4 O5 O6 Ok U1 U2 U3 U4 Mo Mi
    (members_calls _ _ _ _ _ _ _ L) V) as (text & n0 & m0 & E & D).
  exists text, n0, m0. split; auto. intros m t Lm Lb. destruct (D m t Lm Lb) as (x & t' & Dx & Fr & R & F & I & S & M).
  exists x, t'. split; auto. split; auto. exists R. split; auto. split; auto. split; auto. intros l l' Rr. specialize (S l l' Rr).
  destruct (mem l); auto. destruct S as [([] & _)|S]; auto.
Qed.

(** C49.  The encoding process has all classes, the decoding process lacks some (on_missing does not
    raise).  If the instances of the absent classes have scalar attributes, decode gives a copy of the
    graph in which the dicts of the documents stand for these instances, and every reference, also
    to objects written after them, is to the right object. *)
Theorem C49_references :
  forall w w' k po uo classes h ok v,
  po_unpicklable po = true -> po_make_refs po = true -> po_max_depth po = None -> po_props po = false ->
  po_readonly po = false -> po_sort po = false -> po_keys po = false ->
  uo_keys uo = false -> uo_v1 uo = false -> uo_missing uo <> MError -> (forall f n, uo_missing uo = MCall f -> f n = None) ->
  lacking w w' (class_table w' classes) h ok -> ok v ->
  exists text n0 m0,
    (forall n s, n0 <= n -> p_heap s = h -> exists s', encode w k po n v s = (Ret text, s')) /\
    forall m t, m0 <= m -> exists x t', decode w' uo m classes text t = (Ret x, t') /\
      copy_lacking w w' (class_table w' classes) h (u_heap t') (length (u_heap t)) v x.
Proof.
  intros w w' k po uo classes h ok v O1 O2 O3 O4 O5 O6 Ok U1 U2 U3 U4 L V.
  destruct (members_decode w w' k po uo classes h (fun _ => None) 0 ok v O1 O2 O3 O4 O5 O6 Ok U1 U2 U3 U4 ltac:(discriminate) ltac:(discriminate)
    (lacking_members w w' k _ h ok L) V) as (text & n0 & m0 & E & D).
  exists text, n0, m0. split; auto. intros m t Lm. destruct (D m t Lm ltac:(lia)) as (x & t' & Dx & _ & C). eauto.
Qed.
Print Assumptions C49_references.

(** Objects that were written as a call of their class (as __reduce__ said) need no such care: where
    the class is absent an empty list stands for the object, one for each object, and
    all other references are right. *)
Theorem C49_calls :
  forall w w' k po uo classes h mem gone b0 ok v,
  po_unpicklable po = true -> po_make_refs po = true -> po_max_depth po = None -> po_props po = false ->
  po_readonly po = false -> po_sort po = false -> po_keys po = false ->
  uo_keys uo = false -> uo_v1 uo = false -> uo_missing uo <> MError -> (forall f n, uo_missing uo = MCall f -> f n = None) ->
  (forall l m, mem l = Some m -> m < b0) -> (forall l l2 m, mem l = Some m -> mem l2 = Some m -> l = l2) ->
  with_calls w w' k (class_table w' classes) h mem gone ok -> ok v ->
  exists text n0 m0,
    (forall n s, n0 <= n -> p_heap s = h -> exists s', encode w k po n v s = (Ret text, s')) /\
    forall m t, m0 <= m -> b0 <= length (u_heap t) ->
      exists x t', decode w' uo m classes text t = (Ret x, t') /\
      (forall a, a < length (u_heap t) -> hget (u_heap t') a = hget (u_heap t) a) /\
      copy_with_calls w w' (class_table w' classes) h mem gone (u_heap t') (length (u_heap t)) v x.
Proof. exact calls_decode. Qed.
Print Assumptions C49_calls.

(** A list with an instance of the absent class, a list and an instance of a class that is there, and
    references to all of them. *)
Definition H_lack : heap :=
  [ OList [VLoc 1; VLoc 3; VLoc 1; VLoc 4; VLoc 3];
    plain_inst cNode 2; ODict [(VStr (u "a"), VInt 1)];
    OList [VInt 1];
    plain_inst cOther 5; ODict [(VStr (u "p"), VLoc 1); (VStr (u "q"), VLoc 3); (VStr (u "r"), VLoc 0)] ].
Definition ok_lack (v : val) : Prop := In v [VLoc 0; VLoc 1; VLoc 3; VLoc 4; VInt 1].
Example C49_case :
  lacking W0 W_miss (class_table W_miss None) H_lack ok_lack /\ ok_lack (VLoc 0) /\
  absent W0 W_miss [] cNode /\ found W0 W_miss [] cOther /\
  show (enc W0 K0 PO 20 H_lack (VLoc 0)) =
    Ret "[{""py/object"": ""m.Node"", ""a"": 1}, [1], {""py/id"": 1}, {""py/object"": ""m.Other"", ""p"": {""py/id"": 1}, ""q"": {""py/id"": 2}, ""r"": {""py/id"": 0}}, {""py/id"": 2}]"%string.
Proof.
  assert (A : absent W0 W_miss [] cNode) by (split; vm_compute; reflexivity).
  assert (F : found W0 W_miss [] cOther) by (constructor; vm_compute; reflexivity).
  assert (PC : forall c, c = cNode \/ c = cOther -> plain_class W0 c) by (intros c [->| ->]; constructor; reflexivity).
  split; [|split; [left; reflexivity|split; [exact A|split; [exact F|vm_compute; reflexivity]]]].
  intros v V. unfold ok_lack in V. cbn [In] in V. repeat (destruct V as [<-|V]; [try exact Logic.I|]); [| | | |destruct V].
  - eexists. split; [reflexivity|]. apply Forall_forall. intros x V. unfold ok_lack. cbn [In] in *. tauto.
  - eexists. split; [reflexivity|]. split; [apply PC; auto|]. split; [vm_compute; reflexivity|]. exists 2. eexists. split; [reflexivity|]. split; [reflexivity|]. split.
    + split; [repeat constructor; intros []|]. intros kv [<-|[]]. cbn [fst snd].
      split; [unfold ok_lack; cbn [In]; tauto|]. split; [eexists; split; [reflexivity|vm_compute; reflexivity]|discriminate].
    + right. split; [exact A|]. intros a v [E|[]]. apply (f_equal snd) in E. cbn in E. subst v. eexists. constructor.
  - eexists. split; [reflexivity|]. apply Forall_forall. intros x V. unfold ok_lack. cbn [In] in *. tauto.
  - eexists. split; [reflexivity|]. split; [apply PC; auto|]. split; [vm_compute; reflexivity|]. exists 5. eexists. split; [reflexivity|]. split; [reflexivity|]. split.
    + split.
      * repeat constructor; cbn [In map fst]; intros X; repeat (destruct X as [X|X]; [discriminate X|]); exact X.
      * intros kv [<-|[<-|[<-|[]]]]; cbn [fst snd]; (split; [unfold ok_lack; cbn [In]; tauto|]; split; [eexists; split; [reflexivity|vm_compute; reflexivity]|]).
        -- intros l i [= <-] [= <-]. reflexivity.
        -- intros l i [= <-] [=].
        -- intros l i [= <-] [=].
    + left. split; [exact F|]. intros a v X. cbn [In] in X. repeat (destruct X as [X|X]; [apply (f_equal fst) in X; apply (f_equal (fun v => match v with VStr s => s | _ => [] end)) in X; cbn [fst] in X; subst a; vm_compute; auto|]). destruct X.
Qed.

(** A list with an object that is written as a call of an absent class, twice, and lists around it. *)
Definition K_call : hooks :=
  {| k_reduce := fun _ => Ret (RTup [VType cNode; VTuple [VInt 1]]); k_getstate := k_getstate K0; k_newargs := k_newargs K0; k_newargs_ex := k_newargs_ex K0; k_initargs := k_initargs K0;
     k_iter := k_iter K0; k_attr := k_attr K0; k_dir := k_dir K0; k_props := k_props K0; k_eqdict := k_eqdict K0; k_members := k_members K0;
     k_repr := k_repr K0; k_str := k_str K0; k_call0 := k_call0 K0 |}.
Definition H_call : heap := [ OList [VLoc 1; VLoc 3; VLoc 1; VLoc 3]; plain_inst cReduce 2; ODict []; OList [VLoc 1; VInt 7] ].
Definition ok_call (v : val) : Prop := In v [VLoc 0; VLoc 1; VLoc 3; VInt 7].
Definition J_call : string := "[{""py/reduce"": [{""py/type"": ""m.Node""}, {""py/tuple"": [1]}]}, [{""py/id"": 1}, 7], {""py/id"": 1}, {""py/id"": 2}]".
Example C49_calls_case :
  with_calls W0 W_miss K_call (class_table W_miss None) H_call (fun _ => None) (eq 1) ok_call /\ ok_call (VLoc 0) /\
  show (enc W0 K_call PO 20 H_call (VLoc 0)) = Ret J_call /\
  (let (r, t) := decode W_miss UO 20 None (u J_call) (new_unpickler []) in r = Ret (VLoc 0) /\
     nth_error (u_heap t) 0 = Some (OList [VLoc 2; VLoc 3; VLoc 2; VLoc 3]) /\
     nth_error (u_heap t) 2 = Some (OList []) /\ nth_error (u_heap t) 3 = Some (OList [VLoc 2; VInt 7])).
Proof.
  split; [|split; [left; reflexivity|split; vm_compute; auto]].
  intros v V. unfold ok_call in V. cbn [In] in V. repeat (destruct V as [<-|V]); [right; right|right; left|right; right|right; right|destruct V].
  - split; [discriminate|]. eexists. split; [reflexivity|]. apply Forall_forall. intros x V. unfold ok_call. cbn [In] in *. tauto.
  - exists 1. split; [reflexivity|]. split; [reflexivity|]. split; [reflexivity|]. exists cNode, [VInt 1].
    split; [split; [eexists; repeat split|reflexivity|reflexivity]|]. split; vm_compute; reflexivity.
  - split; [discriminate|]. eexists. split; [reflexivity|]. apply Forall_forall. intros x V. unfold ok_call. cbn [In] in *. tauto.
  - split; [discriminate|exact Logic.I].
Qed.
