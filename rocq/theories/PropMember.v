(** C59: members of an enumeration and other objects that are had by calling their class come back
    as the objects themselves. *)
From Verif Require Import PyStr Tags Json JsonText JsonTextProofs Base Heap Registry LoadClass Pickler Unpickler SpecGraph SpecPlain SpecRefs SpecFail SpecHoles SpecLack.
From Verif Require Import PGen PStep PlainEncode RTBase RTPure PlainProofs Samples PropEncode PropRoundtrip PropLimits HolesProofs FillProofs CleanProofs LackProofs PropLack.
From Coq Require Import List Lia. Import ListNotations.
Open Scope nat_scope.

(** C59.  [mem] gives for the members in the encoding process the members in the decoding process, which
    are among the first b0 objects of its heap; different members are different objects.  The rest
    of the graph is as for C49.  Then decode gives a copy of the graph in which the very members of
    the decoding process stand in the places of the members, every time, and all references, also
    those after members, are right.  No object that was there before is changed. *)
Theorem C59_members : forall w w' k po uo classes h mem b0 ok v,
  po_unpicklable po = true -> po_make_refs po = true -> po_max_depth po = None -> po_props po = false ->
  po_readonly po = false -> po_sort po = false -> po_keys po = false ->
  uo_keys uo = false -> uo_v1 uo = false -> uo_missing uo <> MError -> (forall f n, uo_missing uo = MCall f -> f n = None) ->
  (forall l m, mem l = Some m -> m < b0) -> (forall l l2 m, mem l = Some m -> mem l2 = Some m -> l = l2) ->
  with_members w w' k (class_table w' classes) h mem ok -> ok v ->
  exists text n0 m0,
    (forall n s, n0 <= n -> p_heap s = h -> exists s', encode w k po n v s = (Ret text, s')) /\
    forall m t, m0 <= m -> b0 <= length (u_heap t) ->
      exists x t', decode w' uo m classes text t = (Ret x, t') /\
      (forall a, a < length (u_heap t) -> hget (u_heap t') a = hget (u_heap t) a) /\
      copy_with_members w w' (class_table w' classes) h mem (u_heap t') (length (u_heap t)) v x.
Proof. exact members_decode. Qed.
Print Assumptions C59_members.

(** A member alone. *)
Theorem C59_identity : forall w w' k po uo classes h l m,
  po_unpicklable po = true -> po_make_refs po = true -> po_max_depth po = None -> po_props po = false ->
  po_readonly po = false -> po_sort po = false -> po_keys po = false ->
  uo_keys uo = false -> uo_v1 uo = false -> uo_missing uo <> MError -> (forall f n, uo_missing uo = MCall f -> f n = None) ->
  member w w' k (class_table w' classes) h l m ->
  exists text n0 m0,
    (forall n s, n0 <= n -> p_heap s = h -> exists s', encode w k po n (VLoc l) s = (Ret text, s')) /\
    forall n t, m0 <= n -> m < length (u_heap t) ->
      exists t', decode w' uo n classes text t = (Ret (VLoc m), t') /\
      forall a, a < length (u_heap t) -> hget (u_heap t') a = hget (u_heap t) a.
Proof.
  intros w w' k po uo classes h l m O1 O2 O3 O4 O5 O6 Ok U1 U2 U3 U4 Mb.
  destruct (members_decode w w' k po uo classes h (fun x => if Nat.eqb x l then Some m else None) (S m) (fun v => v = VLoc l) (VLoc l) O1 O2 O3 O4 O5 O6 Ok U1 U2 U3 U4)
    as (text & n0 & m0 & E & D).
  - intros x y. destruct (Nat.eqb x l); intros [= <-]. lia.
  - intros x y z. destruct (Nat.eqb_spec x l); [|discriminate]. destruct (Nat.eqb_spec y l); [|discriminate]. congruence.
  - intros v ->. left. exists l, m. rewrite Nat.eqb_refl. auto.
  - reflexivity.
  - exists text, n0, m0. split; auto. intros n t Ln Lt. destruct (D n t Ln Lt) as (x & t' & Dx & Fr & R & _ & _ & Rs & V).
    exists t'. split; auto. rewrite Dx. destruct Mb as (c & args & [(i & G & _) _ _] & _).
    inversion V as [v A|xs ys F|l1 l2 xs ys G2|l1 l2 y G2|l1 l2 Rl2]; subst; try discriminate; try congruence.
    apply Rs in Rl2. rewrite Nat.eqb_refl in Rl2. subst. reflexivity.
Qed.
Print Assumptions C59_identity.

(** An object that says with __reduce__ that it is the value of a global name: nothing but a
    reference to itself is written. *)
Theorem C59_by_name : forall w k po h l i s first a rest m,
  po_unpicklable po = true -> po_make_refs po = true -> po_max_depth po = None -> po_props po = false -> po_sort po = false ->
  hget h l = Some (OInst i) ->
  reg_lookup (w_sub w) (w_reg w) (i_cls i) (importable_name (w_cls w (i_cls i))) = None -> c_reduce (w_cls w (i_cls i)) = true ->
  k_reduce k l = Ret (RStr s) -> split_on 46%N s = first :: a :: rest ->
  w_sysmod w first = Some m -> w_getattr w m a = Ret (VLoc l) ->
  forall n st, p_heap st = h -> exists st', encode w k po (S (S n)) (VLoc l) st = (Ret (dumps (JObj [(u "py/id", JInt 0)])), st').
Proof.
  intros w k po h l i s first a rest m O1 O2 O3 O4 O5 G L A K Sp Sm Sg n st Eh.
  set (s0 := p_reset_st st). assert (G0 : hget (p_heap s0) l = Some (OInst i)) by (cbn; rewrite Eh; exact G).
  set (s1 := PStep.numbered (VLoc l) (deeper s0)).
  assert (G1 : hget (p_heap s1) l = Some (OInst i)) by exact G0.
  assert (LV : forall x, hget (p_heap x) l = Some (OInst i) -> layered x (VLoc l)).
  { intros x Gx. split; [reflexivity|]. split; [discriminate|]. intros l0 b0 [= <-]. rewrite Gx. discriminate. }
  assert (X1 : index_of (VLoc l) (p_objs (deeper s1)) = Some 0).
  { cbn. destruct (Nat.eqb_spec l l); [reflexivity|congruence]. }
  assert (R2 : exists s2, flatten w k po (S n) (VLoc l) s1 = (Ret (JObj [(u "py/id", JInt 0)]), s2)).
  { eexists. rewrite (lev w k po O1 O2 O3 n (VLoc l) s1 (deeper s1) (Ret (Some (JObj [(ID, JInt 0)]))) (LV _ G1)); [reflexivity|].
    unfold get_flattener. rewrite (bind_eq _ _ _ _ _ (get_obj_eq l (OInst i) (deeper s1) G1)). cbv beta iota.
    unfold ref_obj_instance. rewrite O1, bind_assoc.
    rewrite (bind_eq _ _ (deeper s1) false (deeper s1)) by (unfold mkref, bind, log_ref; rewrite X1, O1, O2; reflexivity). cbv beta iota.
    rewrite (bind_eq _ _ (deeper s1) (JObj [(ID, JInt 0)]) (deeper s1)); [reflexivity|]. unfold getref, bind, gets, ret. rewrite X1. reflexivity. }
  destruct R2 as (s2 & R2).
  assert (B : flatten_obj_instance w k po (S n) (flatten w k po (S n)) l s1 = (Ret (JObj [(u "py/id", JInt 0)]), s2)).
  { unfold flatten_obj_instance. rewrite (bind_eq _ _ _ _ _ (get_obj_eq l (OInst i) s1 G1)). cbv beta iota zeta. rewrite L, O4, O1.
    rewrite (bind_eq _ _ s1 [] s1) by reflexivity.
    rewrite (bind_eq _ _ s1 (Some (JObj [(u "py/id", JInt 0)])) s2); [reflexivity|].
    rewrite (bind_eq _ _ s1 (RStr s) s1); [|unfold reduce_of; rewrite A; apply catch_ret; unfold lift; rewrite K; reflexivity]. cbv beta iota.
    assert (Ns : flatten_reduce_str w (flatten w k po (S n)) s s1 = (Ret (Some (JObj [(u "py/id", JInt 0)])), s2)).
    { unfold flatten_reduce_str. apply catch_ret. rewrite Sp, Sm. rewrite (bind_eq _ _ s1 (VLoc l) s1) by (unfold lift; rewrite Sg; reflexivity).
      rewrite (bind_eq _ _ _ _ _ R2). reflexivity. }
    destruct s as [|x s]; [discriminate Sp|exact Ns]. }
  pose proof (by_instance w k po O1 (S n) l i s0 _ _ (fun I => I) G0 B) as B1. cbv beta iota in B1.
  pose proof (lev w k po O1 O2 O3 (S n) (VLoc l) s0 _ _ (LV _ G0) B1) as B2. cbv beta iota in B2.
  exists (popped s2). unfold encode, pickle, pflatten. rewrite O5. unfold bind, p_reset, modify, ret.
  change (match flatten w k po (S (S n)) (VLoc l) s0 with (Ret x, s') => (Ret (dumps x), s') | (Exc e, s') => (Exc e, s') | (OOF, s') => (OOF, s') end = (Ret (dumps (JObj [(u "py/id", JInt 0)])), popped s2)).
  rewrite B2. reflexivity.
Qed.
Print Assumptions C59_by_name.

(** Two members of an enumeration, each twice in a list, with another list between that has one of
    them; in the decoding process they are the objects 0 and 2. *)
Definition W_enum : world :=
  {| w_cls := w_cls W0; w_fun := w_fun W0; w_mod := w_mod W0; w_sub := w_sub W0; w_import := w_import W0; w_import_top := w_import_top W0; w_sysmod := w_sysmod W0;
     w_getattr := fun m a => if seqb a (u "ONE") then Ret (VLoc 1) else w_getattr W0 m a; w_new := w_new W0;
     w_call := fun _ f args => match f, args with VType 8, [VInt 1] => CVal (VLoc 0) | VType 8, [VInt 2] => CVal (VLoc 2) | _, _ => CRaise ETypeError end;
     w_blank := w_blank W0; w_ext_callable := w_ext_callable W0; w_setstate := w_setstate W0; w_setter := w_setter W0; w_eval := w_eval W0;
     w_reg := w_reg W0; w_hflat := w_hflat W0; w_hrest := w_hrest W0; w_hctx_flat := w_hctx_flat W0; w_hctx_rest := w_hctx_rest W0; w_clone := w_clone W0; w_nonetype := w_nonetype W0 |}.
Definition K_enum (r : loc -> res rv) : hooks :=
  {| k_reduce := r; k_getstate := k_getstate K0; k_newargs := k_newargs K0; k_newargs_ex := k_newargs_ex K0; k_initargs := k_initargs K0;
     k_iter := k_iter K0; k_attr := k_attr K0; k_dir := k_dir K0; k_props := k_props K0; k_eqdict := k_eqdict K0; k_members := k_members K0;
     k_repr := k_repr K0; k_str := k_str K0; k_call0 := k_call0 K0 |}.
Definition K_members : hooks := K_enum (fun l => Ret (RTup [VType cReduce; VTuple [VInt (if Nat.eqb l 1 then 1 else 2)]])).
Definition H_enum : heap :=
  [ OList [VLoc 1; VLoc 5; VLoc 3; VLoc 1; VLoc 5; VLoc 3]; plain_inst cReduce 2; ODict []; plain_inst cReduce 4; ODict []; OList [VLoc 1] ].
Definition mem_enum (l : loc) : option loc := if Nat.eqb l 1 then Some 0 else if Nat.eqb l 3 then Some 2 else None.
Definition U_enum : heap := [ plain_inst cReduce 1; ODict []; plain_inst cReduce 3; ODict [] ].
Definition ok_enum (v : val) : Prop := In v [VLoc 0; VLoc 1; VLoc 3; VLoc 5].
Definition J_enum : string := "[{""py/reduce"": [{""py/type"": ""m.Red""}, {""py/tuple"": [1]}]}, [{""py/id"": 1}], {""py/reduce"": [{""py/type"": ""m.Red""}, {""py/tuple"": [2]}]}, {""py/id"": 1}, {""py/id"": 2}, {""py/id"": 3}]".
Example C59_case :
  (forall l m, mem_enum l = Some m -> m < length U_enum) /\ (forall l l2 m, mem_enum l = Some m -> mem_enum l2 = Some m -> l = l2) /\
  with_members W0 W_enum K_members (class_table W_enum None) H_enum mem_enum ok_enum /\ ok_enum (VLoc 0) /\
  show (enc W0 K_members PO 20 H_enum (VLoc 0)) = Ret J_enum /\
  (let (r, t) := decode W_enum UO 20 None (u J_enum) (new_unpickler U_enum) in r = Ret (VLoc 4) /\
     u_heap t = U_enum ++ [OList [VLoc 0; VLoc 5; VLoc 2; VLoc 0; VLoc 5; VLoc 2]; OList [VLoc 0]]).
Proof.
  split; [|split; [|split; [|split; [left; reflexivity|split; vm_compute; auto]]]].
  - intros [|[|[|[|l]]]] m E; try discriminate E; injection E as <-; cbn; lia.
  - intros [|[|[|[|l]]]] [|[|[|[|l2]]]] m E E2; try discriminate E; try discriminate E2; auto; rewrite <- E in E2; discriminate E2.
  - intros v V. unfold ok_enum in V. cbn [In] in V. repeat (destruct V as [<-|V]); [right|left|left|right|destruct V].
    + split; [intros l m [= <-]; discriminate|]. eexists. split; [reflexivity|]. apply Forall_forall. intros x V. unfold ok_enum. cbn [In] in *. tauto.
    + exists 1, 0. split; [reflexivity|]. split; [reflexivity|]. exists cReduce, [VInt 1]. split; [split; [eexists; repeat split|reflexivity|reflexivity]|].
      split; [reflexivity|]. split; [vm_compute; reflexivity|]. split; [vm_compute; discriminate|reflexivity].
    + exists 3, 2. split; [reflexivity|]. split; [reflexivity|]. exists cReduce, [VInt 2]. split; [split; [eexists; repeat split|reflexivity|reflexivity]|].
      split; [reflexivity|]. split; [vm_compute; reflexivity|]. split; [vm_compute; discriminate|reflexivity].
    + split; [intros l m [= <-]; discriminate|]. eexists. split; [reflexivity|]. apply Forall_forall. intros x V. unfold ok_enum. cbn [In] in *. tauto.
Qed.

(** The claim is false for objects that name a global: in [ONE, [1]] with such an object ONE the
    document is [{"py/id": 1}, [1]], and the decoded list has the inner list twice. *)
Definition K_name : hooks := K_enum (fun _ => Ret (RStr (u "m.ONE"))).
Definition H_name : heap := [ OList [VLoc 1; VLoc 3]; plain_inst cReduce 2; ODict []; OList [VInt 1] ].
Theorem C59_by_name_refuted : exists text t',
  enc W_enum K_name PO 20 H_name (VLoc 0) = Ret text /\ w_getattr W_enum (VMod 0) (u "ONE") = Ret (VLoc 1) /\
  decode W_enum UO 20 None text (new_unpickler H_name) = (Ret (VLoc 4), t') /\
  u_heap t' = H_name ++ [OList [VLoc 5; VLoc 5]; OList [VInt 1]].
Proof. do 2 eexists. split; [vm_compute; reflexivity|]. split; [reflexivity|]. split; vm_compute; reflexivity. Qed.
Print Assumptions C59_by_name_refuted.
Example C59_by_name_case : split_on 46%N (u "m.ONE") = [u "m"; u "ONE"] /\ w_sysmod W_enum (u "m") = Some (VMod 0) /\
  k_reduce K_name 1 = Ret (RStr (u "m.ONE")) /\ c_reduce (w_cls W_enum cReduce) = true /\
  reg_lookup (w_sub W_enum) (w_reg W_enum) cReduce (importable_name (w_cls W_enum cReduce)) = None.
Proof. vm_compute. auto. Qed.
