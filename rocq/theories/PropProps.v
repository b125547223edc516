(** C55: include_properties. *)
From Verif Require Import PyStr Tags Json JsonText JsonTextProofs Base Heap Registry LoadClass Pickler Unpickler SpecGraph SpecPlain SpecRefs SpecFail SpecHoles SpecLack SpecProps.
From Verif Require Import PlainEncode RTBase RTPure PlainProofs Samples PropEncode PropRoundtrip PropLimits HolesProofs FillProofs CleanProofs LackProofs PropsProofs PropsEncode PropLack.
From Coq Require Import List Lia. Import ListNotations.
Open Scope nat_scope.

(** The options with include_properties set as given. *)
Definition set_props (b : bool) (o : popts) : popts :=
  {| po_unpicklable := po_unpicklable o; po_make_refs := po_make_refs o; po_keys := po_keys o; po_max_depth := po_max_depth o;
     po_warn := po_warn o; po_max_iter := po_max_iter o; po_b85 := po_b85 o; po_fail_safe := po_fail_safe o; po_props := b;
     po_readonly := po_readonly o; po_root := po_root o; po_sort := po_sort o; po_ctx := po_ctx o; po_numeric := po_numeric o |}.

(** The entries that include_properties adds have no effect on decode: if a text differs from
    another one by such entries only, decode does the same things in the same order with both, and gives the
    same result or the same error, whatever the entries hold. *)
Theorem C55_decode :
  forall w uo m classes j j' t, uo_keys uo = false -> jwf j = true -> jwf j' = true ->
  with_props w (class_table w classes) j j' ->
  decode w uo m classes (dumps j') t = decode w uo m classes (dumps j) t.
Proof.
  intros w uo m classes j j' t Uk J J' W. unfold decode. rewrite !loads_dumps by auto.
  set (cl := class_table w classes) in *. set (t0 := mkUst (u_heap t) [] [] (u_prox t) [] cl (u_log t)).
  destruct (props_same w uo cl Uk m j j' W t0 eq_refl) as (E1 & _ & E2).
  assert (E : restore w uo m j' t0 = restore w uo m j t0).
  { destruct (restore w uo m j t0) as [r s1], (restore w uo m j' t0) as [r' s2]. cbn [fst snd] in *. subst s2.
    destruct r, r'; cbn in E2; try (destruct E2; fail); subst; reflexivity. }
  assert (X : forall z, unpickle w uo m true classes z t = bind (restore w uo m z) (fun v => bind (swap_proxies w) (fun _ => ret v)) t0).
  { intros z. unfold unpickle. rewrite (bind_eq _ _ t tt (mkUst (u_heap t) [] [] (u_prox t) [] [] (u_log t))) by reflexivity.
    rewrite (bind_eq _ _ _ tt t0) by (unfold t0, cl, class_table; destruct classes; reflexivity). reflexivity. }
  assert (Y : unpickle w uo m true classes j' t = unpickle w uo m true classes j t).
  { rewrite !X. unfold bind at 1. rewrite E. reflexivity. }
  unfold bind at 1. rewrite Y. reflexivity.
Qed.
Print Assumptions C55_decode.

(** A graph of lists, dicts, tuples, sets and plain instances whose properties (and other members of
    the classes) have scalar values: decode gives the same with and without include_properties,
    and this is a copy of the graph. *)
Theorem C55_scalar_properties :
  forall w w' k po uo classes h ok v,
  po_unpicklable po = true -> po_make_refs po = true -> po_max_depth po = None ->
  po_readonly po = false -> po_sort po = false -> po_keys po = false ->
  uo_keys uo = false -> uo_v1 uo = false -> uo_missing uo <> MError -> (forall f n, uo_missing uo = MCall f -> f n = None) ->
  lacking w w' (class_table w' classes) h ok -> ok v ->
  (forall l i, ok (VLoc l) -> hget h l = Some (OInst i) ->
    found w w' (class_table w' classes) (i_cls i) /\ w_blank w' (i_cls i) = true /\ scalar_members k h l i) ->
  exists text text' n0 m0,
    (forall n s, n0 <= n -> p_heap s = h -> exists s', encode w k (set_props false po) n v s = (Ret text, s')) /\
    (forall n s, n0 <= n -> p_heap s = h -> exists s', encode w k (set_props true po) n v s = (Ret text', s')) /\
    (forall m t, decode w' uo m classes text' t = decode w' uo m classes text t) /\
    forall m t, m0 <= m -> exists x t', decode w' uo m classes text' t = (Ret x, t') /\
      copy_lacking w w' (class_table w' classes) h (u_heap t') (length (u_heap t)) v x.
Proof.
  intros w w' k po uo classes h ok v O1 O2 O3 O5 O6 Ok U1 U2 U3 U4 L V Fd. set (cl := class_table w' classes) in *.
  destruct (clean_written w k (po_fail_safe po) h ok (lacking_clean w w' k (po_fail_safe po) cl h ok L) v V) as (j & tab & W).
  destruct (encode_written w k (set_props false po) h O1 O2 O3 eq_refl O5 O6 Ok v j tab W) as (N1 & E1).
  destruct (proj1 (all_gop w w' k (set_props true po) cl h ok O1 O2 O3 eq_refl O5 Ok L Fd) _ _ _ _ W (NoDup_nil _) V) as (j2 & Wp & J2 & N2 & Go).
  pose proof (LackProofs.all_goes w w' k (po_fail_safe po) cl h uo ok L U1 U2 U3 U4 _ _ _ _ W V) as J.
  assert (Eq : forall m t, decode w' uo m classes (dumps j2) t = decode w' uo m classes (dumps j) t).
  { intros m t. apply C55_decode; auto. }
  destruct (C49_references w w' k (set_props false po) uo classes h ok v O1 O2 O3 eq_refl O5 O6 Ok U1 U2 U3 U4 L V) as (text & n0 & m0 & T1 & T2).
  assert (text = dumps j) as ->.
  { destruct (T1 (Nat.max N1 n0) (new_pickler h) ltac:(lia) eq_refl) as (s1 & X1). destruct (E1 (Nat.max N1 n0) (new_pickler h) ltac:(lia) eq_refl) as (s2 & X2 & _). congruence. }
  exists (dumps j), (dumps j2), (Nat.max n0 N2), m0. split; [intros n s Ln Es; apply T1; auto; lia|]. split.
  { intros n s Ln Es. destruct (Go n (p_reset_st s) ltac:(lia)) as (s1 & H1 & _); [split; [auto|]; split; [cbn; lia|reflexivity]|].
    exists s1. unfold encode, pickle, pflatten. change (po_sort (set_props true po)) with (po_sort po). rewrite O6.
    unfold bind, p_reset, modify, ret. change (mkPst (p_heap s) [] (-1) [] (p_warned s)) with (p_reset_st s). rewrite H1. reflexivity. }
  split; [exact Eq|]. intros m t Lm. rewrite Eq. apply T2; auto.
Qed.
Print Assumptions C55_scalar_properties.

(** A node with a property, in a list with shared lists. *)
Definition H_prop : heap :=
  [ OList [VLoc 1; VLoc 3; VLoc 3; VLoc 1]; plain_inst cNode 2; ODict [(VStr (u "a"), VInt 1)]; OList [VInt 5];
    plain_inst cOther 5; ODict [] ].
Definition K_prop (v : val) : hooks :=
  {| k_reduce := k_reduce K0; k_getstate := k_getstate K0; k_newargs := k_newargs K0; k_newargs_ex := k_newargs_ex K0; k_initargs := k_initargs K0;
     k_iter := k_iter K0; k_attr := fun l a => if seqb a (u "p") then Ret v else Exc EAttributeError; k_dir := k_dir K0;
     k_props := fun l => if Nat.eqb l 1 then [u "p"] else []; k_eqdict := k_eqdict K0; k_members := k_members K0;
     k_repr := k_repr K0; k_str := k_str K0; k_call0 := k_call0 K0 |}.
Definition ok_prop (v : val) : Prop := In v [VLoc 0; VLoc 1; VLoc 3; VInt 1; VInt 5].
Lemma H_prop_ok : lacking W0 W0 (class_table W0 None) H_prop ok_prop.
Proof.
  intros v V. unfold ok_prop in V. cbn [In] in V. repeat (destruct V as [<-|V]; [try exact Logic.I|]); [| | |destruct V].
  - eexists. split; [reflexivity|]. apply Forall_forall. intros x V. unfold ok_prop. cbn [In] in *. tauto.
  - eexists. split; [reflexivity|]. split; [constructor; reflexivity|]. split; [vm_compute; reflexivity|]. exists 2. eexists. split; [reflexivity|]. split; [reflexivity|]. split.
    + split; [repeat constructor; intros []|]. intros kv [<-|[]]. cbn [fst snd].
      split; [unfold ok_prop; cbn [In]; tauto|]. split; [eexists; split; [reflexivity|vm_compute; reflexivity]|discriminate].
    + left. split; [constructor; vm_compute; reflexivity|]. intros a v X. cbn [In] in X.
      repeat (destruct X as [X|X]; [apply (f_equal fst) in X; apply (f_equal (fun v => match v with VStr s => s | _ => [] end)) in X; cbn [fst] in X; subst a; vm_compute; auto|]). destruct X.
  - eexists. split; [reflexivity|]. apply Forall_forall. intros x V. unfold ok_prop. cbn [In] in *. tauto.
Qed.
Lemma H_prop_found l i : ok_prop (VLoc l) -> hget H_prop l = Some (OInst i) -> l = 1 /\ i_cls i = cNode /\ found W0 W0 (class_table W0 None) cNode.
Proof.
  intros V G. unfold ok_prop in V. cbn [In] in V. repeat (destruct V as [V|V]; [try discriminate V; injection V as <-|]); [discriminate G| |discriminate G|destruct V].
  split; auto. injection G as <-. split; [reflexivity|]. constructor; vm_compute; reflexivity.
Qed.
Example C55_case :
  lacking W0 W0 (class_table W0 None) H_prop ok_prop /\ ok_prop (VLoc 0) /\
  (forall l i, ok_prop (VLoc l) -> hget H_prop l = Some (OInst i) ->
    found W0 W0 (class_table W0 None) (i_cls i) /\ w_blank W0 (i_cls i) = true /\ scalar_members (K_prop (VInt 7)) H_prop l i) /\
  show (enc W0 (K_prop (VInt 7)) (set_props true PO) 20 H_prop (VLoc 0)) =
    Ret "[{""py/property"": {""p"": 7}, ""py/object"": ""m.Node"", ""a"": 1}, [5], {""py/id"": 2}, {""py/id"": 1}]"%string /\
  show (enc W0 (K_prop (VInt 7)) (set_props false PO) 20 H_prop (VLoc 0)) =
    Ret "[{""py/object"": ""m.Node"", ""a"": 1}, [5], {""py/id"": 2}, {""py/id"": 1}]"%string.
Proof.
  split; [exact H_prop_ok|]. split; [left; reflexivity|]. split; [|split; vm_compute; reflexivity].
  intros l i V G. destruct (H_prop_found l i V G) as (-> & Ec & F). rewrite Ec. split; [exact F|]. split; [reflexivity|].
  intros a [<-|[]]. split; [reflexivity|]. exists (VInt 7), (JInt 7). injection G as <-. split; [vm_compute; reflexivity|]. split; [constructor|reflexivity].
Qed.

(** A property whose value is an object takes a reference number when it is written, and none when
    the entry is skipped by decode: of a list that occurs twice after the object, the second occurrence is
    decoded as None. *)
Theorem C55_object_property_refuted :
  exists w k po uo h ok v,
  po_unpicklable po = true /\ po_make_refs po = true /\ po_max_depth po = None /\ po_keys po = false /\ uo_keys uo = false /\
  lacking w w (class_table w None) h ok /\ ok v /\
  (forall l i, ok (VLoc l) -> hget h l = Some (OInst i) -> found w w (class_table w None) (i_cls i)) /\
  exists n text x t', enc w k (set_props true po) n h v = Ret text /\ dec w uo n text = (Ret x, t') /\
    ~ copy_lacking w w (class_table w None) h (u_heap t') 0 v x.
Proof.
  exists W0, (K_prop (VLoc 4)), PO, UO, H_prop, ok_prop, (VLoc 0). do 5 (split; [reflexivity|]). split; [exact H_prop_ok|]. split; [left; reflexivity|].
  split. { intros l i V G. destruct (H_prop_found l i V G) as (_ & -> & F). exact F. }
  exists 20. eexists. eexists. eexists. split; [vm_compute; reflexivity|]. split; [vm_compute; reflexivity|].
  intros (R & _ & _ & S & M). cbn [u_heap] in *.
  inversion M; subst; try discriminate.
  match goal with H : R 0 _ |- _ => apply S in H; destruct H as (_ & H); cbn in H end.
  repeat match goal with H : Forall2 _ (_ :: _) _ |- _ => inversion H; subst; clear H end.
  match goal with H : vmatch _ _ _ _ (VLoc 3) VNone |- _ => inversion H; subst; try discriminate end.
Qed.
Print Assumptions C55_object_property_refuted.

(** The same happens with every class that has a method: the bound method is a member of the class, and
    is written by its __reduce__. *)
Definition H_meth : heap :=
  [ OList [VLoc 1; VLoc 3; VLoc 3; VLoc 1]; plain_inst cNode 2; ODict [(VStr (u "a"), VInt 1)]; OList [VInt 5];
    OInst (mkInst cReduce None [] [] [] None CSrc [] 0) ].
Definition K_meth : hooks :=
  {| k_reduce := fun _ => Ret (RTup [VFun 0; VTuple [VLoc 1; VStr (u "p")]]); k_getstate := k_getstate K0; k_newargs := k_newargs K0; k_newargs_ex := k_newargs_ex K0; k_initargs := k_initargs K0;
     k_iter := k_iter K0; k_attr := k_attr (K_prop (VLoc 4)); k_dir := k_dir K0;
     k_props := k_props (K_prop (VLoc 4)); k_eqdict := k_eqdict K0; k_members := k_members K0;
     k_repr := k_repr K0; k_str := k_str K0; k_call0 := k_call0 K0 |}.
Theorem C55_method_refuted :
  exists h v text x t' l, h = H_meth /\ v = VLoc 0 /\ hget h 0 = Some (OList [VLoc 1; VLoc 3; VLoc 3; VLoc 1]) /\
    enc W0 K_meth (set_props true PO) 20 h v = Ret text /\ dec W0 UO 20 text = (Ret x, t') /\
    show (Ret text) = Ret "[{""py/property"": {""p"": {""py/property"": {}, ""py/reduce"": [{""py/function"": ""m.f""}, {""py/tuple"": [{""py/id"": 1}, ""p""]}]}}, ""py/object"": ""m.Node"", ""a"": 1}, [5], {""py/id"": 3}, {""py/id"": 1}]"%string /\
    x = VLoc l /\ hget (u_heap t') l = Some (OList [VLoc 2; VLoc 3; VNone; VLoc 2]).
Proof.
  exists H_meth, (VLoc 0). do 4 eexists. split; [reflexivity|]. split; [reflexivity|]. split; [reflexivity|].
  split; [vm_compute; reflexivity|]. split; [vm_compute; reflexivity|]. split; [vm_compute; reflexivity|]. split; [reflexivity|]. vm_compute. reflexivity.
Qed.
Print Assumptions C55_method_refuted.
