(** C56: backends that sort keys. *)
From Verif Require Import PyStr Tags Json JsonText JsonTextProofs Base Heap Registry LoadClass Pickler Unpickler Sort SpecJson SpecDepth SpecGraph SpecPlain SpecRefs SpecFail SpecHoles SpecLack SpecProps SpecSort.
From Verif Require Import PlainEncode RTBase RTPure PlainProofs Samples PropEncode PropRestore PropRoundtrip PropLimits HolesProofs FillProofs CleanProofs LackProofs PropsProofs PropsEncode PropLack PropProps SortProofs.
From Coq Require Import List Sorted Permutation Lia. Import ListNotations.
Open Scope nat_scope.

Lemma alike_decode w uo m classes j j' t : uo_keys uo = false -> jwf j = true -> jwf j' = true ->
  alike w (class_table w classes) j j' -> decode w uo m classes (dumps j') t = decode w uo m classes (dumps j) t.
Proof.
  intros Uk J J' W. unfold decode. rewrite !loads_dumps by auto.
  set (cl := class_table w classes) in *. set (t0 := mkUst (u_heap t) [] [] (u_prox t) [] cl (u_log t)).
  destruct (alike_same w uo cl Uk m j j' W t0 eq_refl) as (E1 & _ & E2).
  assert (E : restore w uo m j' t0 = restore w uo m j t0).
  { destruct (restore w uo m j t0) as [r s1], (restore w uo m j' t0) as [r' s2]. cbn [fst snd] in *. subst s2.
    destruct r, r'; cbn in E2; try (destruct E2; fail); subst; reflexivity. }
  assert (X : forall z, unpickle w uo m true classes z t = bind (restore w uo m z) (fun v => bind (swap_proxies w) (fun _ => ret v)) t0).
  { intros z. unfold unpickle. rewrite (bind_eq _ _ t tt (mkUst (u_heap t) [] [] (u_prox t) [] [] (u_log t))) by reflexivity.
    rewrite (bind_eq _ _ _ tt t0) by (unfold t0, cl, class_table; destruct classes; reflexivity). reflexivity. }
  assert (Y : unpickle w uo m true classes j' t = unpickle w uo m true classes j t).
  { rewrite !X. unfold bind at 1. rewrite E. reflexivity. }
  unfold bind at 1. rewrite Y. reflexivity.
Qed.

(** A document in which the keys without tags are in ascending order, whatever the place of those
    with tags: decode does the same things in the same order with the sorted text, and gives the same
    result or the same error. *)
Theorem C56_decode :
  forall w uo m classes j t, uo_keys uo = false -> jwf j = true -> sortable w (class_table w classes) j ->
  decode w uo m classes (dumps (jsort j)) t = decode w uo m classes (dumps j) t.
Proof.
  intros w uo m classes j t Uk J So. apply alike_decode; auto; [apply jwf_jsort; auto|]. apply sortable_alike; auto.
Qed.
Print Assumptions C56_decode.

(** The options with sort_keys, as the backend has it, set as given. *)
Definition set_sort (b : bool) (o : popts) : popts :=
  {| po_unpicklable := po_unpicklable o; po_make_refs := po_make_refs o; po_keys := po_keys o; po_max_depth := po_max_depth o;
     po_warn := po_warn o; po_max_iter := po_max_iter o; po_b85 := po_b85 o; po_fail_safe := po_fail_safe o; po_props := po_props o;
     po_readonly := po_readonly o; po_root := po_root o; po_sort := b; po_ctx := po_ctx o; po_numeric := po_numeric o |}.

(** A graph of lists, dicts, tuples, sets and plain instances where the keys of each dict and the
    attributes of each instance are in ascending order, except that the attributes of the object given to encode
    may be in any order: encode sorts them and changes nothing else, and decode gives a copy of the
    graph as it is then. *)
Theorem C56_graphs :
  forall w w' k po uo classes h ok v,
  po_unpicklable po = true -> po_make_refs po = true -> po_max_depth po = None -> po_props po = false ->
  po_readonly po = false -> po_keys po = false ->
  uo_keys uo = false -> uo_v1 uo = false -> uo_missing uo <> MError -> (forall f n, uo_missing uo = MCall f -> f n = None) ->
  lacking w w' (class_table w' classes) h ok -> ok v ->
  (forall l i, ok (VLoc l) -> hget h l = Some (OInst i) -> found w w' (class_table w' classes) (i_cls i) /\ w_blank w' (i_cls i) = true) ->
  dicts_ascend h ok -> others_ascend h ok v ->
  (forall l i, v = VLoc l -> hget h l = Some (OInst i) -> (c_slots (w_cls w (i_cls i)) = None \/ po_warn po = false) /\
    c_setattr (w_cls w (i_cls i)) (u "__dict__") = SAOk /\ c_dict (w_cls w (i_cls i)) = true) ->
  exists text h1 n0 m0, root_sorted h h1 v /\
    (forall n s, n0 <= n -> p_heap s = h -> exists s', encode_sorted w k (set_sort true po) n v s = (Ret text, s') /\ p_heap s' = h1) /\
    forall m t, m0 <= m -> exists x t', decode w' uo m classes text t = (Ret x, t') /\
      copy_lacking w w' (class_table w' classes) h1 (u_heap t') (length (u_heap t)) v x.
Proof.
  intros w w' k po uo classes h ok v O1 O2 O3 O4 O5 O6 U1 U2 U3 U4 L V Fd Da Oa Rt. set (cl := class_table w' classes) in *.
  destruct (root_go w w' (set_sort true po) cl h ok L v V Rt) as (h1 & Rs & Sa).
  pose proof (root_lacking w w' cl h ok L h1 v Rs) as L1. destruct (root_ascends w w' cl h ok L h1 v Rs Da Oa) as (Da1 & Ia1).
  assert (Fd1 : forall l i, ok (VLoc l) -> hget h1 l = Some (OInst i) -> found w w' cl (i_cls i) /\ w_blank w' (i_cls i) = true).
  { intros l i V1 G. destruct (root_class h h1 v Rs l i G (ok_in w w' cl h ok L l V1)) as (i0 & G0 & <-). apply (Fd l i0); auto. }
  destruct (clean_written w k (po_fail_safe po) h1 ok (lacking_clean w w' k (po_fail_safe po) cl h1 ok L1) v V) as (j & tab & W).
  pose proof (LackProofs.all_goes w w' k (po_fail_safe po) cl h1 uo ok L1 U1 U2 U3 U4 _ _ _ _ W V) as J.
  pose proof (proj1 (written_sortable w w' k (po_fail_safe po) cl h1 ok L1 Fd1 Da1 Ia1) _ _ _ _ W V) as So.
  destruct (all_go w k (set_sort true po) h1 O1 O2 O3 O4 O5 O6) as (Ag & _).
  destruct (Ag _ _ _ _ W ltac:(constructor)) as (N & Go).
  destruct (C49_references w w' k (set_sort false po) uo classes h1 ok v O1 O2 O3 O4 O5 eq_refl O6 U1 U2 U3 U4 L1 V) as (text & n0 & m0 & T1 & T2).
  assert (text = dumps j) as ->.
  { destruct (encode_written w k (set_sort false po) h1 O1 O2 O3 O4 O5 eq_refl O6 v j tab W) as (N1 & E1).
    destruct (T1 (Nat.max N1 n0) (new_pickler h1) ltac:(lia) eq_refl) as (s1 & X1). destruct (E1 (Nat.max N1 n0) (new_pickler h1) ltac:(lia) eq_refl) as (s2 & X2 & _). congruence. }
  exists (dumps (jsort j)), h1, N, m0. split; auto. split.
  - intros n s Ln Es. destruct (Go n (set_heap h1 (p_reset_st s)) Ln) as (s1 & H1 & E1 & _); [split; [reflexivity|]; split; [cbn; lia|reflexivity]|].
    exists s1. split; auto. unfold encode_sorted, pickle, pflatten. change (po_sort (set_sort true po)) with true. cbv iota.
    rewrite (bind_eq _ _ s j s1); [reflexivity|]. rewrite (bind_eq _ _ s tt (p_reset_st s)) by reflexivity. rewrite (bind_eq _ _ _ _ _ (Sa (p_reset_st s) Es)). exact H1.
  - intros m t Lm. rewrite C56_decode by auto. apply T2; auto.
Qed.
Print Assumptions C56_graphs.

(** Plain data: decode gives the same tree with the keys of each dict in ascending order. *)
Theorem C56_plain_data :
  forall w w' k po uo classes h j v ls, tree h j v ls -> NoDup ls -> plain_keys (po_keys po) j = true -> tag_free j = true -> jwf j = true ->
  (uo_keys uo = true -> no_json_keys j = true) -> po_readonly po = false -> po_max_depth po = None ->
  exists text n0 m0,
    (forall n s, n0 <= n -> p_heap s = h -> exists s', encode_sorted w k (set_sort true po) n v s = (Ret text, s') /\ p_heap s' = h) /\
    forall m t, m0 <= m -> exists x ls' t', decode w' uo m classes text t = (Ret x, t') /\ tree (u_heap t') (jsort j) x ls' /\ NoDup ls'.
Proof.
  intros w w' k po uo classes h j v ls T ND K TF J NK Or MD.
  destruct (plain_pickle w k (set_sort true po) h Or j v ls T ND K) as (N & H); [cbn [po_max_depth set_sort]; rewrite MD; discriminate|].
  exists (dumps (jsort j)), N, (length (dumps (jsort j))). split.
  - intros n s L E. destruct (H n s L E) as (s' & H1 & H2). exists s'. split; auto. unfold encode_sorted. rewrite (bind_eq _ _ _ _ _ H1). reflexivity.
  - intros m t L. destruct (C07_plain_json w' uo m classes (dumps (jsort j)) (jsort j) t) as (x & ls' & t' & D & Tr & Nd & _); auto.
    + apply loads_dumps, jwf_jsort, J.
    + apply tag_free_jsort; auto.
    + intros U. apply no_json_keys_jsort; auto.
    + exists x, ls', t'. auto.
Qed.
Print Assumptions C56_plain_data.

(** A node whose attributes are not sorted, holding a dict with ascending keys and a shared list. *)
Definition H_sort : heap :=
  [ plain_inst cNode 1; ODict [(VStr (u "c"), VLoc 2); (VStr (u "b"), VLoc 3); (VStr (u "a"), VLoc 2)];
    OList [VLoc 0]; ODict [(VStr (u "x"), VLoc 4); (VStr (u "y"), VLoc 2); (VStr (u "z"), VLoc 4)]; OList [] ].
Definition ok_sort (v : val) : Prop := In v [VLoc 0; VLoc 2; VLoc 3; VLoc 4].
Lemma nodup_strs ks : nodupb ks = true -> NoDup (map VStr ks).
Proof. intros N. apply nodupb_NoDup in N. induction N as [|x l A N IH]; cbn [map]; constructor; auto. intros X. apply in_map_iff in X as (y & E & Hy). injection E as ->. auto. Qed.
Lemma H_sort_ok : lacking W0 W0 (class_table W0 None) H_sort ok_sort.
Proof.
  intros v V. unfold ok_sort in V. cbn [In] in V. repeat (destruct V as [<-|V]; [try exact Logic.I|]); [| | | |destruct V].
  - eexists. split; [reflexivity|]. split; [constructor; reflexivity|]. split; [vm_compute; reflexivity|]. exists 1. eexists. split; [reflexivity|]. split; [reflexivity|]. split.
    + split; [apply (nodup_strs [u "c"; u "b"; u "a"]); vm_compute; reflexivity|]. intros kv [<-|[<-|[<-|[]]]]; cbn [fst snd];
        (split; [unfold ok_sort; cbn [In]; tauto|]; split; [eexists; split; [reflexivity|vm_compute; reflexivity]|intros l i E G; injection E as <-; discriminate G]).
    + left. split; [constructor; vm_compute; reflexivity|]. intros a v X. cbn [In] in X.
      repeat (destruct X as [X|X]; [apply (f_equal fst) in X; apply (f_equal (fun v => match v with VStr s => s | _ => [] end)) in X; cbn [fst] in X; subst a; vm_compute; auto|]). destruct X.
  - eexists. split; [reflexivity|]. apply Forall_forall. intros x V. unfold ok_sort. cbn [In] in *. tauto.
  - eexists. split; [reflexivity|]. split; [apply (nodup_strs [u "x"; u "y"; u "z"]); vm_compute; reflexivity|]. intros kv [<-|[<-|[<-|[]]]]; cbn [fst snd];
        (split; [unfold ok_sort; cbn [In]; tauto|]; split; [eexists; split; [reflexivity|vm_compute; reflexivity]|intros l i E G; injection E as <-; discriminate G]).
  - eexists. split; [reflexivity|]. apply Forall_nil.
Qed.

Fixpoint ascending_b (ks : list pystr) : bool := match ks with [] => true | a :: r => forallb (str_leb a) r && ascending_b r end.
Lemma ascending_ok ks : ascending_b ks = true -> ascending ks.
Proof. unfold ascending. induction ks as [|a r IH]; cbn [ascending_b]; intros B; constructor; apply andb_true_iff in B as [B1 B2]; auto. apply Forall_forall. rewrite forallb_forall in B1. auto. Qed.
Definition encs (h : heap) (v : val) : res pystr := fst (encode_sorted W0 K0 (set_sort true PO) 20 v (new_pickler h)).
Lemma ascend_dec d ks : map fst d = map VStr ks -> ascending_b ks = true -> ascending_items d.
Proof. intros E B. exists ks. split; auto. apply ascending_ok. exact B. Qed.
Example C56_case :
  lacking W0 W0 (class_table W0 None) H_sort ok_sort /\ ok_sort (VLoc 0) /\
  (forall l i, ok_sort (VLoc l) -> hget H_sort l = Some (OInst i) -> found W0 W0 (class_table W0 None) (i_cls i) /\ w_blank W0 (i_cls i) = true) /\
  dicts_ascend H_sort ok_sort /\ others_ascend H_sort ok_sort (VLoc 0) /\
  (forall l i, VLoc 0 = VLoc l -> hget H_sort l = Some (OInst i) -> (c_slots (w_cls W0 (i_cls i)) = None \/ po_warn PO = false) /\
    c_setattr (w_cls W0 (i_cls i)) (u "__dict__") = SAOk /\ c_dict (w_cls W0 (i_cls i)) = true) /\
  show (encs H_sort (VLoc 0)) =
    Ret "{""a"": [{""py/id"": 0}], ""b"": {""x"": [], ""y"": {""py/id"": 1}, ""z"": {""py/id"": 3}}, ""c"": {""py/id"": 1}, ""py/object"": ""m.Node""}"%string.
Proof.
  split; [exact H_sort_ok|]. split; [left; reflexivity|].
  assert (X : forall l i, ok_sort (VLoc l) -> hget H_sort l = Some (OInst i) -> l = 0 /\ i_cls i = cNode).
  { intros l i V G. unfold ok_sort in V. cbn [In] in V. repeat (destruct V as [V|V]; [injection V as <-|]); try discriminate G; [|destruct V]. injection G as <-. auto. }
  split; [intros l i V G; destruct (X l i V G) as (_ & ->); split; [constructor; vm_compute; reflexivity|reflexivity]|]. split; [|split; [|split]].
  - intros l d V G. unfold ok_sort in V. cbn [In] in V. repeat (destruct V as [V|V]; [injection V as <-|]); try discriminate G; [|destruct V].
    injection G as <-. apply (ascend_dec _ [u "x"; u "y"; u "z"]); [reflexivity|vm_compute; reflexivity].
  - intros l i dl d V N G. destruct (X l i V G) as (-> & _). destruct N. reflexivity.
  - intros l i E G. injection E as <-. injection G as <-. split; [left; reflexivity|]. split; vm_compute; reflexivity.
  - vm_compute. reflexivity.
Qed.

(** The keys of a dict are sorted in the text after the numbers have been given out: the reference
    to the first list means another list.  d = {"b": x, "a": y, "c": x} *)
Definition H_sdict : heap := [ ODict [(VStr (u "b"), VLoc 1); (VStr (u "a"), VLoc 2); (VStr (u "c"), VLoc 1)]; OList [VInt 1]; OList [VInt 2] ].
Theorem C56_dict_refuted :
  exists h v text d a b, encs h v = Ret text /\ hget h 0 = Some (ODict d) /\ v = VLoc 0 /\ In (VStr (u "b"), VLoc 1) d /\ In (VStr (u "c"), VLoc 1) d /\ In (VStr (u "a"), VLoc 2) d /\
    hget h 1 = Some (OList [VInt 1]) /\
    fst (dec W0 UO 200 text) = Ret (VLoc 0) /\ hget (u_heap (snd (dec W0 UO 200 text))) 0 = Some (ODict [(VStr (u "a"), a); (VStr (u "b"), b); (VStr (u "c"), a)]) /\
    a <> b.
Proof.
  destruct (encs H_sdict (VLoc 0)) as [text| |] eqn:E; [|vm_compute in E; discriminate E|vm_compute in E; discriminate E].
  exists H_sdict, (VLoc 0), text. do 3 eexists. split; [exact E|]. split; [reflexivity|]. split; [reflexivity|]. split; [left; reflexivity|]. split; [right; right; left; reflexivity|].
  split; [right; left; reflexivity|]. split; [reflexivity|]. vm_compute in E. injection E as <-. split; [vm_compute; reflexivity|]. split; [vm_compute; reflexivity|]. discriminate.
Qed.
Print Assumptions C56_dict_refuted.

(** The same with the attributes of an object inside of another: only those of the object given to
    encode are sorted beforehand. *)
Definition H_sattr : heap := [ OList [VLoc 4]; OList [VInt 1]; OList [VInt 2];
  ODict [(VStr (u "b"), VLoc 1); (VStr (u "a"), VLoc 2); (VStr (u "c"), VLoc 1)]; plain_inst cNode 3 ].
Theorem C56_attribute_refuted :
  exists h v text l i dl d a b, encs h v = Ret text /\ hget h 3 = Some (ODict d) /\ hget h 4 = Some (plain_inst cNode 3) /\ v = VLoc 0 /\ hget h 0 = Some (OList [VLoc 4]) /\
    In (VStr (u "b"), VLoc 1) d /\ In (VStr (u "c"), VLoc 1) d /\ In (VStr (u "a"), VLoc 2) d /\
    fst (dec W0 UO 200 text) = Ret (VLoc 0) /\ hget (u_heap (snd (dec W0 UO 200 text))) 0 = Some (OList [VLoc l]) /\
    hget (u_heap (snd (dec W0 UO 200 text))) l = Some (OInst i) /\ i_dict i = Some dl /\
    hget (u_heap (snd (dec W0 UO 200 text))) dl = Some (ODict [(VStr (u "a"), a); (VStr (u "b"), b); (VStr (u "c"), a)]) /\
    a <> b.
Proof.
  destruct (encs H_sattr (VLoc 0)) as [text| |] eqn:E; [|vm_compute in E; discriminate E|vm_compute in E; discriminate E].
  exists H_sattr, (VLoc 0), text. do 6 eexists. split; [exact E|]. split; [reflexivity|]. split; [reflexivity|]. split; [reflexivity|]. split; [reflexivity|]. split; [left; reflexivity|]. split; [right; right; left; reflexivity|].
  split; [right; left; reflexivity|]. vm_compute in E. injection E as <-. split; [vm_compute; reflexivity|]. split; [vm_compute; reflexivity|]. split; [vm_compute; reflexivity|]. split; [vm_compute; reflexivity|]. split; [vm_compute; reflexivity|]. discriminate.
Qed.
Print Assumptions C56_attribute_refuted.

(** {"b": [1], "a": 2} *)
Definition H_splain : heap := [ ODict [(VStr (u "b"), VLoc 1); (VStr (u "a"), VInt 2)]; OList [VInt 1] ].
Definition J_splain : json := JObj [(u "b", JList [JInt 1]); (u "a", JInt 2)].
Example C56_plain_case : tree H_splain J_splain (VLoc 0) [0; 1] /\ NoDup [0; 1] /\ plain_keys false J_splain = true /\ tag_free J_splain = true /\ jwf J_splain = true /\
  jsort J_splain = JObj [(u "a", JInt 2); (u "b", JList [JInt 1])].
Proof.
  split.
  - eapply (tr_obj _ 0 _ _ [1]); [reflexivity|]. eapply (fs_cons _ _ _ _ [1] _ _ []).
    + eapply (tr_list _ 1 _ _ []); [reflexivity|]. eapply (trs_cons _ _ _ []); constructor.
    + eapply (fs_cons _ _ _ _ []); constructor.
  - split; [repeat constructor; simpl; intuition discriminate|]. vm_compute. auto.
Qed.
