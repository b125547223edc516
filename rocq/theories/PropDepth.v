(** C14: max_depth. *)
From Verif Require Import PyStr Tags Json JsonText B64 B85 Base Heap Registry Pickler PGen PTerm PStep SpecDepth DepthProofs Samples PropEncode.
Open Scope nat_scope.
Local Open Scope monad_scope.

(** Encoding with max_depth m ends, for every graph, and the document is nested at most
    B + K * m deep, where K (at least 2) is what one level adds and B (at least 2) what is
    written at the bound. *)
Theorem C14_max_depth :
  forall w k o h m B K N n v, depth_bounded w k o h m B K N -> m + N < n ->
  match encode w k o n v (new_pickler h) with
  | (Ret text, _) => exists j, text = dumps j /\ jdepth j <= B + K * m
  | (Exc _, _) => True
  | (OOF, _) => False
  end.
Proof.
  intros w k o h m B K N n v DB Hn. pose proof (pickle_depth w k o h m B K N DB n v (new_pickler h) eq_refl Hn) as X.
  unfold encode, bind. destruct (pickle w k o n true v (new_pickler h)) as [[j|e|] s]; auto. exists j. auto.
Qed.
Print Assumptions C14_max_depth.

(** With max_depth 3 no document is nested deeper than 8, and that is reached: a tuple of a
    tuple of a tuple of a bytearray. *)
Definition PO_d (m : Z) : popts :=
  {| po_unpicklable := true; po_make_refs := true; po_keys := false; po_max_depth := Some m;
     po_warn := false; po_max_iter := None; po_b85 := false; po_fail_safe := None; po_props := false;
     po_readonly := false; po_root := VNone; po_sort := false; po_ctx := None; po_numeric := false |}.
Definition H_deep : heap := OByteArray [] :: H_cycle.
Lemma deep_bounded : depth_bounded W0 K0 (PO_d 3) H_deep 3 2 2 0.
Proof.
  split; try reflexivity; try discriminate; try lia.
  - intros l i G. unfold H_deep, H_cycle in G. do 4 (destruct l as [|l]; [cbn in G; try discriminate G; inversion G; subst; reflexivity|]). destruct l; discriminate G.
  - intros []; exact Logic.I.
  - exact (fg_ret _ _ _ _ _ _ (finite_sample PO [] 1 eq_refl (le_n _) eq_refl)).
  - left. discriminate.
Qed.
Example C14_case : exists j, enc W0 K0 (PO_d 3) 9 H_deep (VTuple [VTuple [VTuple [VLoc 0]]]) = Ret (dumps j) /\ jdepth j = 8.
Proof.
  set (t := fun x => JObj [(TUPLE, JList [x])]). exists (t (t (t (JObj [(BYTEARRAY, JObj [(B64, JStr [])])])))). unfold t. clear t.
  split; [vm_compute; reflexivity|reflexivity].
Qed.

(** A list in a list in ... : location l holds a list nested l + 1 deep. *)
Definition nest (l : nat) : obj := OList (match l with 0 => [] | S p => [VLoc p] end).
Definition nested (q : nat) : heap := map nest (seq 0 q).
Lemma nested_get q x l : l < q -> hget (nested q ++ x) l = Some (nest l).
Proof.
  intros L. unfold hget. rewrite nth_error_app1; [|unfold nested; rewrite map_length, seq_length; auto].
  unfold nested. rewrite nth_error_map, nth_error_nth' with (d := 0) by (rewrite seq_length; auto).
  rewrite seq_nth by auto. reflexivity.
Qed.
Lemma nested_new q x : hget (nested q ++ [x]) q = Some x.
Proof. replace q with (length (nested q)) at 2 by (unfold nested; rewrite map_length, seq_length; auto). apply hget_app_new. Qed.

Section chain.
  Variables (w : world) (k : hooks) (m : Z).
  Notation o := (PO_d m).
  Lemma step_d n v : flatten w k o (S n) v = flatten_impl w k o n (flatten w k o n) v.
  Proof. reflexivity. Qed.
  (** one level that is not cut, the outermost or another *)
  Lemma level_any n v s r s1 : prim_json v = None -> (forall b, v <> VBytes b) ->
    (forall l b, v = VLoc l -> hget (p_heap s) l <> Some (OByteArray b)) ->
    (p_depth s + 1 <> m)%Z \/ is_enum w (p_heap s) v = true ->
    get_flattener w k o n (flatten w k o n) v (deeper s) = (Ret (Some r), s1) ->
    exists s', flatten w k o (S n) v s = (Ret r, s') /\ ((p_depth s1 <> 0)%Z -> s' = set_depth (p_depth s1 - 1)%Z s1).
  Proof.
    intros Hp Nb Nba Dm G.
    assert (L : exists s', (push;;; j <- flatten_obj w k o n (flatten w k o n) v;; pop j) s = (Ret r, s') /\
                           ((p_depth s1 <> 0)%Z -> s' = set_depth (p_depth s1 - 1)%Z s1)).
    { unfold push, bind, modify. fold (deeper s).
      assert (F : flatten_obj w k o n (flatten w k o n) v (deeper s) = (Ret r, s1)).
      { unfold flatten_obj, max_reached. unfold bind at 1 2, gets, ret at 1. cbn [po_max_depth PO_d].
        unfold catch, in_cycle, bind at 1, bind at 1, get, ret at 1. cbn [po_make_refs PO_d negb orb andb].
        rewrite orb_false_r, Hp, andb_true_r. change (p_heap (deeper s)) with (p_heap s).
        replace ((p_depth (deeper s) =? m)%Z && negb (is_enum w (p_heap s) v)) with false.
        2: { symmetry. destruct Dm as [Dm|Dm]; [|rewrite Dm; apply andb_false_r].
             replace (p_depth (deeper s) =? m)%Z with false by (symmetry; apply Z.eqb_neq; exact Dm). reflexivity. }
        unfold bind. rewrite G. reflexivity. }
      rewrite F. unfold pop, bind, modify, ret. cbn [set_depth p_depth].
      eexists. split; [reflexivity|]. intros D1.
      replace (p_depth s1 - 1 =? -1)%Z with false by (symmetry; apply Z.eqb_neq; lia). reflexivity. }
    cbn [flatten]. unfold flatten_step. cbn [po_unpicklable po_make_refs PO_d andb]. unfold flatten_impl, bind at 1, gets.
    destruct v; cbn [prim_json] in *; try discriminate; try exact L.
    destruct (hget (p_heap s) l) as [[]|] eqn:E; try exact L. destruct (Nba l b); auto.
  Qed.
  Lemma level n v s r s1 : prim_json v = None -> (forall b, v <> VBytes b) ->
    (forall l b, v = VLoc l -> hget (p_heap s) l <> Some (OByteArray b)) ->
    (p_depth s + 1 <> m)%Z -> (0 <= p_depth s1 - 1)%Z ->
    get_flattener w k o n (flatten w k o n) v (deeper s) = (Ret (Some r), s1) ->
    flatten w k o (S n) v s = (Ret r, set_depth (p_depth s1 - 1)%Z s1).
  Proof.
    intros Hp Nb Nba Dm D1 G. destruct (level_any n v s r s1 Hp Nb Nba (or_introl Dm) G) as (s' & E & S').
    rewrite E, S' by lia. reflexivity.
  Qed.
  Lemma inst_get n l i s r s1 : hget (p_heap s) l = Some (OInst i) -> ~ In (VLoc l) (p_objs s) ->
    flatten_obj_instance w k o n (flatten w k o n) l (numbered (VLoc l) s) = (Ret r, s1) ->
    get_flattener w k o n (flatten w k o n) (VLoc l) s = (Ret (Some r), s1).
  Proof.
    intros G N F. unfold get_flattener.
    assert (G1 : get_obj l s = (Ret (OInst i), s)) by (unfold get_obj, bind, gets; rewrite G; reflexivity).
    rewrite (bind_eq _ _ _ _ _ G1). cbv beta iota. unfold ref_obj_instance. cbn [po_unpicklable PO_d]. rewrite bind_assoc.
    rewrite (bind_eq _ _ _ _ _ (mkref_fresh o (VLoc l) s N)). cbv beta iota.
    cbn [flatten_object]. rewrite (bind_eq _ _ _ _ _ F). reflexivity.
  Qed.
  Lemma type_level n c s : (p_depth s + 1 <> m)%Z -> (0 <= p_depth s)%Z -> flatten w k o (S n) (VType c) s = (Ret (mktyperef w c), s).
  Proof.
    intros Dm D0. rewrite (level n (VType c) s (mktyperef w c) (deeper s)); auto; try discriminate.
    - f_equal. destruct s. unfold deeper, set_depth. cbn. f_equal. lia.
    - cbn. lia.
  Qed.
  Lemma none_level n s : flatten w k o (S n) VNone s = (Ret JNull, s).
  Proof. reflexivity. Qed.
  Lemma list_level n l xs s js s1 : hget (p_heap s) l = Some (OList xs) -> ~ In (VLoc l) (p_objs s) ->
    (p_depth s + 1 <> m)%Z -> (0 <= p_depth s1 - 1)%Z ->
    mapM (flatten w k o n) xs (numbered (VLoc l) (deeper s)) = (Ret js, s1) ->
    flatten w k o (S n) (VLoc l) s = (Ret (JList js), set_depth (p_depth s1 - 1)%Z s1).
  Proof.
    intros G N Dm D1 M. apply level; auto; [discriminate|intros l1 b E; inversion E; subst; congruence|].
    unfold get_flattener.
    assert (G1 : get_obj l (deeper s) = (Ret (OList xs), deeper s)).
    { unfold get_obj, bind, gets. cbn [deeper set_depth p_heap]. rewrite G. reflexivity. }
    rewrite (bind_eq _ _ _ _ _ G1). cbv beta iota. rewrite (bind_eq _ _ _ _ _ (mkref_fresh o (VLoc l) (deeper s) N)).
    cbv beta iota. unfold list_recurse. rewrite bind_assoc. rewrite (bind_eq _ _ _ _ _ M). reflexivity.
  Qed.
  Lemma chain l : forall n s, l < n -> (m <= p_depth s)%Z -> (0 <= p_depth s)%Z ->
    (forall i, i <= l -> hget (p_heap s) i = Some (nest i) /\ ~ In (VLoc i) (p_objs s)) ->
    exists j s', flatten w k o n (VLoc l) s = (Ret j, s') /\ jdepth j = S l /\ p_depth s' = p_depth s.
  Proof.
    induction l as [|l IH]; intros n s Ln Dm D0 H; (destruct n as [|n]; [lia|]).
    - exists (JList []). destruct (H 0 (le_n _)) as [G N].
      eexists. split; [eapply list_level; [exact G|exact N|lia| |reflexivity]; cbn; lia|]. split; [reflexivity|]. cbn. lia.
    - destruct (H (S l) (le_n _)) as [G N].
      destruct (IH n (numbered (VLoc (S l)) (deeper s))) as (j & s1 & E & J & D1); [lia|cbn; lia|cbn; lia| |].
      { intros i Hi. destruct (H i) as [Gi Ni]; [lia|]. split; [exact Gi|]. cbn. intros I. apply in_app_or in I.
        destruct I as [I|[I|[]]]; [auto|]. inversion I. lia. }
      exists (JList [j]). eexists. split; [eapply list_level; [exact G|exact N|lia| |]|].
      + rewrite D1. cbn. lia.
      + cbn [mapM]. unfold bind. rewrite E. reflexivity.
      + split; [cbn; lia|]. cbn [set_depth p_depth]. rewrite D1. cbn. lia.
  Qed.
End chain.

Definition with_enum (c : cinfo) : cinfo :=
  {| c_name := c_name c; c_qualname := c_qualname c; c_module := c_module c; c_types_name := c_types_name c;
     c_kind := c_kind c; c_dict := c_dict c; c_slots := c_slots c; c_exclude := c_exclude c; c_enum := true;
     c_isfun := c_isfun c; c_getstate := c_getstate c; c_setstate := c_setstate c; c_newargs := c_newargs c;
     c_newargs_ex := c_newargs_ex c; c_initargs := c_initargs c; c_reduce := true; c_fields := c_fields c;
     c_deffac := c_deffac c; c_hash := c_hash c; c_callable := c_callable c; c_intstr := c_intstr c;
     c_setattr := c_setattr c |}.
Definition cMember := 0.
Definition W_enum : world :=
  {| w_cls := fun n => if Nat.eqb n cMember then with_enum (cbase "Member") else sample_cls n;
     w_fun := w_fun W0; w_mod := w_mod W0; w_sub := w_sub W0; w_import := w_import W0; w_import_top := w_import_top W0;
     w_sysmod := w_sysmod W0; w_getattr := w_getattr W0; w_new := w_new W0; w_call := w_call W0;
     w_blank := w_blank W0; w_ext_callable := w_ext_callable W0;
     w_setstate := w_setstate W0; w_setter := w_setter W0; w_eval := w_eval W0;
     w_reg := w_reg W0; w_hflat := w_hflat W0; w_hrest := w_hrest W0;
     w_hctx_flat := w_hctx_flat W0; w_hctx_rest := w_hctx_rest W0; w_clone := w_clone W0; w_nonetype := w_nonetype W0 |}.
(** Enum members reduce to their class and value; the value here is a nested list. *)
Definition K_enum (value : val) : hooks :=
  {| k_reduce := fun _ => Ret (RTup [VType cMember; VTuple [value]]); k_getstate := k_getstate K0; k_newargs := k_newargs K0;
     k_newargs_ex := k_newargs_ex K0; k_initargs := k_initargs K0; k_iter := k_iter K0; k_attr := k_attr K0; k_dir := k_dir K0;
     k_props := k_props K0; k_eqdict := k_eqdict K0; k_members := k_members K0; k_repr := k_repr K0; k_str := k_str K0;
     k_call0 := k_call0 K0 |}.
(** An enum member is not cut at the bound, and nothing below it is. *)
Theorem C14_enum_refuted :
  forall f : Z -> nat, exists w k h v n m j,
    is_enum w h v = true /\ enc w k (PO_d m) n h v = Ret (dumps j) /\ f m < jdepth j.
Proof.
  intros f. set (q := f 0%Z).
  set (h := nested (S q) ++ [OInst (mkInst cMember None [] [] [] None CSrc [] 0)]).
  set (k := K_enum (VLoc q)).
  assert (Gi : hget h (S q) = Some (OInst (mkInst cMember None [] [] [] None CSrc [] 0))) by apply nested_new.
  set (s0 := p_reset_st (new_pickler h)).
  set (s1 := numbered (VLoc (S q)) (deeper s0)).
  destruct (chain W_enum k 0%Z q (S (S q)) (deeper s1)) as (j & s2 & E & J & D2); [lia|cbn; lia|cbn; lia| |].
  { intros i Hi. split; [apply nested_get; lia|]. cbn. intros [I|[]]. inversion I. lia. }
  assert (T : flatten W_enum k (PO_d 0) (S (S (S q))) (VTuple [VLoc q]) s1 = (Ret (JObj [(TUPLE, JList [j])]), set_depth (p_depth s2 - 1)%Z s2)).
  { apply level; [reflexivity|discriminate|discriminate|cbn; discriminate|rewrite D2; cbn; lia|].
    cbn [get_flattener]. unfold list_recurse. cbn [mapM]. rewrite !bind_assoc. rewrite (bind_eq _ _ _ _ _ E). reflexivity. }
  destruct (level_any W_enum k 0%Z (S (S (S q))) (VLoc (S q)) s0 
     (JObj [(REDUCE, JList [mktyperef W_enum cMember; JObj [(TUPLE, JList [j])]])]) (set_depth (p_depth s2 - 1)%Z s2))
     as (s3 & F & _); [reflexivity|discriminate| | | |].
  - intros l b El. inversion El; subst. change (hget h (S q) <> Some (OByteArray b)). rewrite Gi. discriminate.
  - right. unfold is_enum. change (p_heap s0) with h. rewrite Gi. reflexivity.
  - apply inst_get with (i := mkInst cMember None [] [] [] None CSrc [] 0); [exact Gi|intros []|]. fold s1.
    unfold flatten_obj_instance.
    assert (G2 : get_obj (S q) s1 = (Ret (OInst (mkInst cMember None [] [] [] None CSrc [] 0)), s1)).
    { unfold get_obj, bind, gets. change (p_heap s1) with h. rewrite Gi. reflexivity. }
    rewrite (bind_eq _ _ _ _ _ G2). cbv beta iota zeta.
    change (reg_lookup _ _ _ _) with (@None nat). cbv iota. cbn [po_props po_unpicklable PO_d].
    rewrite (bind_eq _ _ _ _ _ (eq_refl : ret [] s1 = (Ret _, s1))). cbv beta.
    assert (R : reduce_of W_enum k (S q) (mkInst cMember None [] [] [] None CSrc [] 0) s1 = (Ret (RTup [VType cMember; VTuple [VLoc q]]), s1)) by reflexivity.
    rewrite bind_assoc, (bind_eq _ _ _ _ _ R). cbv beta iota.
    unfold flatten_reduce_tuple. cbn [pad6 repeat length Nat.sub app]. cbn [is_newobj_fun].
    change (truthy_p W_enum VNone) with (ret (S := pst) false).
    rewrite bind_assoc, (bind_eq _ _ _ _ _ (eq_refl : ret false s1 = (Ret _, s1))). cbv beta. cbn [andb].
    rewrite bind_assoc. cbn [mapM]. unfold bind.
    rewrite type_level by (cbn; lia). rewrite T. rewrite !none_level. reflexivity.
  - exists W_enum, k, h, (VLoc (S q)), (S (S (S (S q)))), 0%Z. eexists. split; [unfold is_enum; rewrite Gi; reflexivity|]. split.
    + unfold enc, encode, pickle, pflatten, bind, p_reset, modify, ret. cbn [po_sort PO_d]. fold s0. rewrite F. reflexivity.
    + cbn [jdepth map snd list_max fold_right]. rewrite J. lia.
Qed.
Print Assumptions C14_enum_refuted.

(** An AttributeError of __repr__ at the bound is swallowed by an object with slots one level
    up; the depth counter is then one too high, and what follows is not cut. *)
Definition K_bad : hooks :=
  {| k_reduce := k_reduce K0; k_getstate := k_getstate K0; k_newargs := k_newargs K0;
     k_newargs_ex := k_newargs_ex K0; k_initargs := k_initargs K0; k_iter := k_iter K0; k_attr := k_attr K0; k_dir := k_dir K0;
     k_props := k_props K0; k_eqdict := k_eqdict K0; k_members := k_members K0; k_repr := fun _ => Exc EAttributeError; k_str := k_str K0;
     k_call0 := k_call0 K0 |}.
Theorem C14_repr_refuted :
  forall f : Z -> nat, exists w k h v n m j,
    (forall l i, hget h l = Some (OInst i) -> c_enum (w_cls w (i_cls i)) = false) /\
    enc w k (PO_d m) n h v = Ret (dumps j) /\ f m < jdepth j.
Proof.
  intros f. set (q := f 1%Z).
  set (i := mkInst cSlots None [(u "a", VLoc (S q)); (u "b", VLoc q)] [] [] None CSrc [] 0).
  set (h := nested (S q) ++ [OInst i]).
  assert (Gi : hget h (S q) = Some (OInst i)) by apply nested_new.
  set (s0 := p_reset_st (new_pickler h)).
  set (s1 := numbered (VLoc (S q)) (deeper s0)).
  destruct (chain W0 K_bad 1%Z q (S (S q)) (deeper s1)) as (j & s2 & E & J & D2); [lia|cbn; lia|cbn; lia| |].
  { intros x Hx. split; [apply nested_get; lia|]. cbn. intros [I|[]]. inversion I. lia. }
  assert (A : flatten W0 K_bad (PO_d 1) (S (S q)) (VLoc (S q)) s1 = (Exc EAttributeError, deeper s1)).
  { rewrite step_d. unfold flatten_impl, bind at 1, gets.
    cbn [prim_json]. change (p_heap s1) with h. rewrite Gi. unfold push, bind, modify. fold (deeper s1).
    assert (En : is_enum W0 (p_heap (deeper s1)) (VLoc (S q)) = false) by (unfold is_enum; change (p_heap (deeper s1)) with h; rewrite Gi; reflexivity).
    assert (F : flatten_obj W0 K_bad (PO_d 1) (S q) (flatten W0 K_bad (PO_d 1) (S q)) (VLoc (S q)) (deeper s1) = (Exc EAttributeError, deeper s1)).
    { unfold flatten_obj, max_reached. unfold bind at 1 2, gets, ret at 1. cbn [po_max_depth PO_d]. change (p_depth (deeper s1) =? 1)%Z with true.
      unfold catch, in_cycle, bind at 1, bind at 1, get, ret at 1. rewrite En. reflexivity. }
    rewrite F. reflexivity. }
  destruct (level_any W0 K_bad 1%Z (S (S q)) (VLoc (S q)) s0
     (JObj [(OBJECT, JStr (u "m.Slots")); (u "b", j)]) s2)
     as (s3 & F & _); [reflexivity|discriminate| | | |].
  - intros l b El. inversion El; subst. change (hget h (S q) <> Some (OByteArray b)). rewrite Gi. discriminate.
  - left. discriminate.
  - apply inst_get with (i := i); [exact Gi|intros []|]. fold s1.
    unfold flatten_obj_instance.
    assert (G2 : get_obj (S q) s1 = (Ret (OInst i), s1)).
    { unfold get_obj, bind, gets. change (p_heap s1) with h. rewrite Gi. reflexivity. }
    rewrite (bind_eq _ _ _ _ _ G2). cbv beta iota zeta.
    change (reg_lookup _ _ _ _) with (@None nat). cbv iota. cbn [po_props po_unpicklable PO_d].
    rewrite (bind_eq _ _ _ _ _ (eq_refl : ret [] s1 = (Ret _, s1))). cbv beta.
    assert (R : reduce_of W0 K_bad (S q) i s1 = (Ret RNone, s1)) by reflexivity.
    rewrite bind_assoc, (bind_eq _ _ _ _ _ R). cbv beta iota.
    rewrite (bind_eq _ _ _ _ _ (eq_refl : ret None s1 = (Ret _, s1))). cbv beta iota.
    revert E A. generalize (flatten W0 K_bad (PO_d 1) (S (S q))). intros rec E A.
    transitivity ((r <- flatten_obj_attrs W0 K_bad (PO_d 1) rec (S q) i [u "a"; u "b"] [] [(OBJECT, JStr (u "m.Slots"))] ;;
      (if snd r then ret (JObj (fst r)) else r2 <- flatten_obj_attrs W0 K_bad (PO_d 1) rec (S q) i [] [] (fst r) ;; ret (JObj (fst r2)))) s1); [reflexivity|].
    set (d0 := [(OBJECT, JStr (u "m.Slots"))] : jobj).
    set (at_ := fun (st : jobj * bool) a => (v <- p_getattr K_bad (S q) i (mangle (w_cls W0 (i_cls i)) a) ;;
                      d <- flatten_key_value_pair W0 K_bad (PO_d 1) rec (VStr a) v (fst st) ;; ret (d, true)) : MP (jobj * bool)).
    assert (Ca : catch (at_ (d0, false) (u "a")) is_AttributeError (fun _ => ret (d0, false)) s1 = (Ret (d0, false), deeper s1)).
    { unfold catch. replace (at_ (d0, false) (u "a") s1) with (@Exc (jobj * bool) EAttributeError, deeper s1); [reflexivity|].
      symmetry. transitivity ((d <- flatten_key_value_pair W0 K_bad (PO_d 1) rec (VStr (u "a")) (VLoc (S q)) d0 ;; ret (d, true)) s1); [reflexivity|].
      unfold bind at 1. unfold flatten_key_value_pair. unfold bind at 1, gets. change (p_heap s1) with h.
      assert (P : is_picklable W0 h (VStr (u "a")) (VLoc (S q)) = true) by (unfold is_picklable, is_function; rewrite Gi; reflexivity).
      rewrite P. cbn [negb]. rewrite (bind_eq _ _ _ _ _ (eq_refl : readonly_skip W0 K_bad (PO_d 1) (VStr (u "a")) (VLoc (S q)) s1 = (Ret false, s1))).
      unfold bind, lift. cbn [key_string]. rewrite A. reflexivity. }
    assert (Cb : catch (at_ (d0, false) (u "b")) is_AttributeError (fun _ => ret (d0, false)) (deeper s1) = (Ret (d0 ++ [(u "b", j)], true), s2)).
    { unfold catch. replace (at_ (d0, false) (u "b") (deeper s1)) with (Ret (d0 ++ [(u "b", j)], true), s2); [reflexivity|].
      symmetry. transitivity ((d <- flatten_key_value_pair W0 K_bad (PO_d 1) rec (VStr (u "b")) (VLoc q) d0 ;; ret (d, true)) (deeper s1)); [reflexivity|].
      unfold bind at 1. unfold flatten_key_value_pair. unfold bind at 1, gets. change (p_heap (deeper s1)) with h.
      assert (P : is_picklable W0 h (VStr (u "b")) (VLoc q) = true) by (unfold is_picklable, is_function, h; rewrite nested_get by lia; reflexivity).
      rewrite P. cbn [negb]. rewrite (bind_eq _ _ _ _ _ (eq_refl : readonly_skip W0 K_bad (PO_d 1) (VStr (u "b")) (VLoc q) (deeper s1) = (Ret false, deeper s1))).
      unfold bind, lift. cbn [key_string]. rewrite E. reflexivity. }
    transitivity ((r <- (b1 <- catch (at_ (d0, false) (u "a")) is_AttributeError (fun _ => ret (d0, false)) ;;
                         b2 <- catch (at_ b1 (u "b")) is_AttributeError (fun _ => ret b1) ;; ret b2) ;;
       (if snd r then ret (JObj (fst r)) else r2 <- flatten_obj_attrs W0 K_bad (PO_d 1) rec (S q) i [] [] (fst r) ;; ret (JObj (fst r2)))) s1); [reflexivity|].
    rewrite bind_assoc, (bind_eq _ _ _ _ _ Ca), bind_assoc, (bind_eq _ _ _ _ _ Cb). reflexivity.
  - exists W0, K_bad, h, (VLoc (S q)), (S (S (S q))), 1%Z. eexists. split; [|split].
    + intros l x Gl. destruct (Nat.eq_dec l (S q)) as [->|N]; [rewrite Gi in Gl; inversion Gl; subst x; reflexivity|].
      pose proof (hget_lt _ _ _ Gl) as Ll. unfold h in Ll. rewrite app_length in Ll. unfold nested in Ll. rewrite map_length, seq_length in Ll.
      cbn [length] in Ll. unfold h in Gl. rewrite nested_get in Gl by (unfold loc in *; lia). discriminate.
    + unfold enc, encode, pickle, pflatten, bind, p_reset, modify, ret. cbn [po_sort PO_d]. fold s0. rewrite F. reflexivity.
    + cbn [jdepth map snd list_max fold_right]. rewrite J. lia.
Qed.
Print Assumptions C14_repr_refuted.

(** Without references the encoder reuses the document of an object it has met before at
    whatever depth: [[], [[]], [[[]]], ...] whose parts share their contents. *)
Definition PO_m : popts :=
  {| po_unpicklable := true; po_make_refs := false; po_keys := false; po_max_depth := Some 2%Z;
     po_warn := false; po_max_iter := None; po_b85 := false; po_fail_safe := None; po_props := false;
     po_readonly := false; po_root := VNone; po_sort := false; po_ctx := None; po_numeric := false |}.
Lemma cache_level n l xs s js s1 : hget (p_heap s) l = Some (OList xs) -> ~ In (VLoc l) (p_objs s) ->
  cache_get (VLoc l) (p_cache s) = None -> (p_depth s + 1 <> 2)%Z ->
  mapM (flatten W0 K0 PO_m n) xs (numbered (VLoc l) (deeper s)) = (Ret js, s1) ->
  exists s', flatten W0 K0 PO_m (S n) (VLoc l) s = (Ret (JList js), s') /\
    ((p_depth s1 <> 0)%Z -> s' = set_cache ((VLoc l, JList js) :: p_cache s1) (set_depth (p_depth s1 - 1)%Z s1)).
Proof.
  intros G N C Dm M.
  assert (F : flatten_obj W0 K0 PO_m n (flatten W0 K0 PO_m n) (VLoc l) (deeper s) = (Ret (JList js), s1)).
  { unfold flatten_obj, max_reached. unfold bind at 1 2, gets, ret at 1. cbn [po_max_depth PO_m].
    replace (p_depth (deeper s) =? 2)%Z with false by (symmetry; apply Z.eqb_neq; exact Dm).
    unfold catch, in_cycle, bind at 1, bind at 1, get, ret at 1. change (p_objs (deeper s)) with (p_objs s).
    rewrite (index_of_none _ _ N). cbn [po_make_refs PO_m negb orb andb].
    unfold get_flattener.
    assert (G1 : get_obj l (deeper s) = (Ret (OList xs), deeper s)).
    { unfold get_obj, bind, gets. cbn [deeper set_depth p_heap]. rewrite G. reflexivity. }
    rewrite bind_assoc, (bind_eq _ _ _ _ _ G1). cbv beta iota. rewrite bind_assoc, (bind_eq _ _ _ _ _ (mkref_fresh PO_m (VLoc l) (deeper s) N)).
    cbv beta iota. unfold list_recurse. rewrite !bind_assoc. rewrite (bind_eq _ _ _ _ _ M). reflexivity. }
  assert (L : exists s', flatten_impl W0 K0 PO_m n (flatten W0 K0 PO_m n) (VLoc l) s = (Ret (JList js), s') /\
     ((p_depth s1 <> 0)%Z -> s' = set_depth (p_depth s1 - 1)%Z s1)).
  { unfold flatten_impl, bind at 1, gets. cbn [prim_json]. rewrite G. unfold push, bind, modify. fold (deeper s). rewrite F.
    unfold pop, bind, modify, ret. eexists. split; [reflexivity|]. intros D. cbn [set_depth p_depth].
    replace (p_depth s1 - 1 =? -1)%Z with false by (symmetry; apply Z.eqb_neq; lia). reflexivity. }
  destruct L as (s' & L & Ls). exists (set_cache ((VLoc l, JList js) :: p_cache s') s').
  split; [|intros D; rewrite (Ls D); reflexivity].
  change (flatten W0 K0 PO_m (S n) (VLoc l)) with (flatten_step W0 K0 PO_m n (flatten W0 K0 PO_m n) (VLoc l)).
  unfold flatten_step. cbn [po_unpicklable po_make_refs PO_m andb]. unfold bind at 1, gets. rewrite C.
  rewrite (bind_eq _ _ _ _ _ L). reflexivity.
Qed.
Lemma cache_run len : forall a s, (p_depth s = 0)%Z ->
  (forall i, i < a + S len -> hget (p_heap s) i = Some (nest i)) ->
  (forall i, a <= i < a + S len -> ~ In (VLoc i) (p_objs s) /\ cache_get (VLoc i) (p_cache s) = None) ->
  (a = 0 \/ exists j, cache_get (VLoc (a - 1)) (p_cache s) = Some j /\ jdepth j = a) ->
  exists js s', mapM (flatten W0 K0 PO_m 2) (map VLoc (seq a (S len))) s = (Ret js, s') /\
    exists j, In j js /\ jdepth j = a + S len.
Proof.
  induction len as [|len IH]; intros a s D Hh Hf Hc.
  all: assert (A : exists j s1, flatten W0 K0 PO_m 2 (VLoc a) s = (Ret j, s1) /\ jdepth j = S a /\
          s1 = set_cache ((VLoc a, j) :: p_cache s) (numbered (VLoc a) s)).
  1, 3: destruct (Hf a ltac:(lia)) as [Na Ca]; specialize (Hh a ltac:(lia)); destruct a as [|a];
    [ destruct (cache_level 1 0 [] s [] (numbered (VLoc 0) (deeper s)) Hh Na Ca ltac:(lia) eq_refl) as (s' & E & Es); exists (JList []), s';
      split; [exact E|]; split; [reflexivity|]; rewrite Es by (cbn; lia); destruct s; cbn in D; subst; reflexivity
    | destruct Hc as [Hc|(j & Cj & Jj)]; [discriminate|]; replace (S a - 1) with a in Cj by lia;
      assert (M : mapM (flatten W0 K0 PO_m 1) [VLoc a] (numbered (VLoc (S a)) (deeper s)) = (Ret [j], numbered (VLoc (S a)) (deeper s)));
      [ cbn [mapM]; unfold bind;
        replace (flatten W0 K0 PO_m 1 (VLoc a) (numbered (VLoc (S a)) (deeper s))) with (@Ret json j, numbered (VLoc (S a)) (deeper s)); [reflexivity|];
        symmetry; cbn [flatten]; unfold flatten_step; cbn [po_unpicklable po_make_refs PO_m andb]; unfold bind at 1, gets;
        change (p_cache (numbered (VLoc (S a)) (deeper s))) with (p_cache s); rewrite Cj; reflexivity
      | destruct (cache_level 1 (S a) [VLoc a] s [j] (numbered (VLoc (S a)) (deeper s)) Hh Na Ca ltac:(lia) M) as (s' & E & Es); exists (JList [j]), s';
        split; [exact E|]; split; [cbn; lia|]; rewrite Es by (cbn; lia); destruct s; cbn in D; subst; reflexivity ]].
  - destruct A as (j & s1 & E & J & _). exists [j], s1. cbn [seq map mapM]. unfold bind. rewrite E. split; [reflexivity|].
    exists j. split; [left; auto|lia].
  - destruct A as (j & s1 & E & J & Es).
    destruct (IH (S a) s1) as (js & s2 & M & j2 & I2 & J2); subst s1.
    + exact D.
    + intros i Hi. apply Hh. lia.
    + intros i Hi. destruct (Hf i ltac:(lia)) as [Ni Ci]. split.
      * cbn. intros I. apply in_app_or in I. destruct I as [I|[I|[]]]; [auto|]. inversion I. lia.
      * cbn [set_cache p_cache cache_get]. destruct (val_eqb_spec (VLoc i) (VLoc a)) as [Ei|_]; [inversion Ei; lia|exact Ci].
    + right. exists j. split; [|exact J]. cbn [set_cache p_cache cache_get]. replace (S a - 1) with a by lia. rewrite val_eqb_refl. reflexivity.
    + exists (j :: js). eexists. change (seq a (S (S len))) with (a :: seq (S a) (S len)). cbn [map mapM]. unfold bind. rewrite E.
      match type of M with mapM _ ?l _ = _ => set (xs := l) in * end. rewrite M. split; [reflexivity|]. exists j2. split; [right; auto|lia].
Qed.
Theorem C14_make_refs_refuted :
  forall f : Z -> nat, exists w k h v n j, po_max_depth PO_m = Some 2%Z /\
    enc w k PO_m n h v = Ret (dumps j) /\ f 2%Z < jdepth j.
Proof.
  intros f. set (q := f 2%Z). set (h := nested (S q) ++ [OList (map VLoc (seq 0 (S q)))]).
  set (s0 := p_reset_st (new_pickler h)).
  destruct (cache_run q 0 (numbered (VLoc (S q)) (deeper s0))) as (js & s1 & M & j & I & J).
  - reflexivity.
  - intros i Hi. apply nested_get. lia.
  - intros i Hi. split; [|reflexivity]. cbn. intros [E|[]]. inversion E. lia.
  - auto.
  - destruct (cache_level 2 (S q) (map VLoc (seq 0 (S q))) s0 js s1) as (s' & E & _); auto.
    + apply nested_new.
    + discriminate.
    + exists W0, K0, h, (VLoc (S q)), 3, (JList js). split; [reflexivity|]. split.
      * unfold enc, encode, pickle, pflatten. unfold bind at 1 2 3, p_reset, modify, ret at 1. cbn [po_sort PO_m]. fold s0. rewrite E. reflexivity.
      * assert (X : jdepth j < jdepth (JList js)); [|fold q; lia]. cbn [jdepth]. apply Nat.lt_succ_r. clear - I.
        induction js as [|x js IH]; [destruct I|]. cbn [map list_max fold_right]. fold (list_max (map jdepth js)).
        destruct I as [->|I]; [lia|]. specialize (IH I). lia.
Qed.
Print Assumptions C14_make_refs_refuted.
