(** C18, C32, C33, C41, C42, C43, C49: what holds, and concrete graphs for which more does not. *)
From Verif Require Import PyStr Tags Json JsonText JsonTextProofs Base Heap Registry LoadClass Pickler Unpickler SpecGraph PGen PTerm RTBase RTMain RTProps Samples PropEncode PropRoundtrip.
Open Scope nat_scope.

(** C32.  A factory that is not a class: the encoder numbers the items before the factory, the
    decoder the factory first.  A later reference to an item finds the factory's clone. *)
Definition K_fac : hooks :=
  {| k_reduce := k_reduce K0; k_getstate := k_getstate K0; k_newargs := k_newargs K0; k_newargs_ex := k_newargs_ex K0;
     k_initargs := k_initargs K0; k_iter := k_iter K0; k_attr := k_attr K0; k_dir := k_dir K0;
     k_props := k_props K0; k_eqdict := k_eqdict K0; k_members := k_members K0; k_repr := k_repr K0; k_str := k_str K0;
     k_call0 := fun _ => Ret (VInt 0) |}.
Definition H_fac : heap :=
  [ OList [VLoc 1; VLoc 2; VLoc 3; VLoc 2];
    OInst (mkInst cDD None [] [(VStr (u "k"), VLoc 2)] [] (Some (VFun 0)) CSrc [] 0); OList [VInt 1]; OList [VInt 2] ].
Theorem C32_function_factory_refuted :
  exists w k h l text v t i, enc w k PO 20 h (VLoc l) = Ret text /\ dec w UO 30 text = (Ret v, t) /\
    (exists d, before w k h (VLoc l) [PIdx 0] = Some (VLoc d) /\ exists j f, hget h d = Some (OInst j) /\ i_fac j = Some (VFun f)) /\
    before w k h (VLoc l) [PIdx 1; PIdx 0] = Some (VInt 1) /\
    (exists x, after w (u_heap t) v [PIdx 1] = Some (VLoc x) /\ hget (u_heap t) x = Some (OInst i)) /\ i_cls i = w_clone w.
Proof.
  exists W0, K_fac, H_fac, 0. eexists. eexists. eexists. eexists. split; [vm_compute; reflexivity|]. split; [vm_compute; reflexivity|].
  split; [eexists; split; [reflexivity|]; eexists; eexists; split; reflexivity|]. split; [reflexivity|].
  split; [eexists; split; vm_compute; reflexivity|]. reflexivity.
Qed.
Print Assumptions C32_function_factory_refuted.

(** C33.  An object encoded as null takes a number in the encoder only: the second list is
    found where the first was referenced. *)

Definition W_io : world := sample_world (reg_register sample_cls (mkReg [] []) cIO 0 false) (fun _ _ _ _ => FDone None) (fun _ _ _ => HDone (HVal VNone)).
Definition H_io : heap := [ OList [VLoc 1; VLoc 3; VLoc 4; VLoc 3]; plain_inst cIO 2; ODict []; OList [VInt 1]; OList [VInt 2] ].
Theorem C33_null_refuted :
  exists w k h l text v t, enc w k PO 20 h (VLoc l) = Ret text /\ dec w UO 30 text = (Ret v, t) /\
    after w (u_heap t) v [PIdx 0] = Some VNone /\
    before w k h (VLoc l) [PIdx 1] = before w k h (VLoc l) [PIdx 3] /\
    before w k h (VLoc l) [PIdx 3; PIdx 0] = Some (VInt 1) /\
    after w (u_heap t) v [PIdx 3; PIdx 0] = Some (VInt 2).
Proof.
  exists W_io, K0, H_io, 0. eexists. eexists. eexists. split; [vm_compute; reflexivity|]. split; [vm_compute; reflexivity|].
  vm_compute. auto.
Qed.
Print Assumptions C33_null_refuted.

(** C41.  No placeholder anywhere in the result for the graphs of C01. *)
Theorem C41_no_placeholder :
  forall w k po uo classes h dm N v, rt_case w k po uo classes h dm N v ->
  roundtrips w k po uo classes h v (fun h' b v' =>
    forall p x, encoded_path w k h v p -> after w h' v' p = Some x -> forall i, x <> VProxy i).
Proof.
  intros w k po uo classes h dm N v HC. eapply roundtrips_use; [exact HC|]. intros h' b v' CP p x EP A i ->.
  destruct (copy_path w k po h v h' b v' CP) as (R & RF & RJ & OM & PT). specialize (PT p EP). rewrite A in PT.
  destruct (before w k h v p); [|destruct PT]. inversion PT; subst; discriminate.
Qed.
Print Assumptions C41_no_placeholder.
(** False when the arguments of a constructor lead back to the object through a tuple. *)

Definition K_prox : hooks :=
  {| k_reduce := k_reduce K0; k_getstate := k_getstate K0;
     k_newargs := fun l => Ret (VTuple [VLoc 2]);
     k_newargs_ex := k_newargs_ex K0;
     k_initargs := k_initargs K0; k_iter := k_iter K0; k_attr := k_attr K0; k_dir := k_dir K0;
     k_props := k_props K0; k_eqdict := k_eqdict K0; k_members := k_members K0; k_repr := k_repr K0; k_str := k_str K0; k_call0 := k_call0 K0 |}.
Definition H_prox : heap := [ plain_inst cNewargs 1; ODict [(VStr (u "a"), VLoc 2)]; OList [VTuple [VLoc 0]] ].
Theorem C41_constructor_cycle_refuted :
  exists w k h l text v t, enc w k PO 20 h (VLoc l) = Ret text /\ dec w UO 30 text = (Ret v, t) /\
    before w k h (VLoc l) [PAttr (u "a"); PIdx 0; PIdx 0] = Some (VLoc l) /\
    exists i, after w (u_heap t) v [PAttr (u "a"); PIdx 0; PIdx 0] = Some (VProxy i).
Proof.
  exists W0, K_prox, H_prox, 0. eexists. eexists. eexists. split; [vm_compute; reflexivity|]. split; [vm_compute; reflexivity|].
  split; [reflexivity|]. eexists. vm_compute. reflexivity.
Qed.
Print Assumptions C41_constructor_cycle_refuted.
(** False with keys=True when a dict in the state of a [__reduce__] leads back to the object: the dict
    is restored in two phases and the first does not remember placeholders (unpickler.py:913-923).
    With keys=False the same graph comes back right. *)
Definition K_back : hooks :=
  {| k_reduce := fun _ => Ret (RTup [VType cNode; VTuple []; VLoc 2]); k_getstate := k_getstate K0;
     k_newargs := k_newargs K0; k_newargs_ex := k_newargs_ex K0;
     k_initargs := k_initargs K0; k_iter := k_iter K0; k_attr := k_attr K0; k_dir := k_dir K0;
     k_props := k_props K0; k_eqdict := k_eqdict K0; k_members := k_members K0; k_repr := k_repr K0; k_str := k_str K0; k_call0 := k_call0 K0 |}.
Definition H_back : heap := [ plain_inst cReduce 1; ODict []; ODict [(VStr (u "d"), VLoc 3)]; ODict [(VStr (u "s"), VLoc 0)] ].
Theorem C41_keys_refuted :
  exists w k h l text v t text2 v2 t2,
    enc w k PO_keys 20 h (VLoc l) = Ret text /\ dec w UO_keys 30 text = (Ret v, t) /\
    (exists i, after w (u_heap t) v [PAttr (u "d"); PKey (VStr (u "s"))] = Some (VProxy i)) /\
    enc w k PO 20 h (VLoc l) = Ret text2 /\ dec w UO 30 text2 = (Ret v2, t2) /\
    after w (u_heap t2) v2 [PAttr (u "d"); PKey (VStr (u "s"))] = Some v2.
Proof.
  exists W0, K_back, H_back, 0. eexists. eexists. eexists. eexists. eexists. eexists.
  split; [vm_compute; reflexivity|]. split; [vm_compute; reflexivity|].
  split; [eexists; vm_compute; reflexivity|]. split; [vm_compute; reflexivity|]. split; [vm_compute; reflexivity|].
  vm_compute. reflexivity.
Qed.
Print Assumptions C41_keys_refuted.

(** C42.  For the graphs of C01 the copy has exactly the attributes of the original that are
    not excluded, under their names. *)
Theorem C42_attribute_names :
  forall w k po uo classes h dm N v, rt_case w k po uo classes h dm N v ->
  roundtrips w k po uo classes h v (fun h' b v' => at_instance w k (po_keys po) h h' b v v' (fun l i i' =>
    ordinary w k l i -> no_state w k h (w_cls w (i_cls i)) l ->
    forall a, kept (w_cls w (i_cls i)) a = true -> ocopy w k (po_keys po) h h' b (inst_attr h i a) (inst_attr h' i' a))).
Proof.
  intros w k po uo classes h dm N v HC. eapply (roundtrips_instances w k po uo classes h dm N v HC (fun h' b l i i' => _)).
  intros h' b l i i' (_ & _ & F). cbv zeta. intros OR NS a KA. destruct (F OR) as (_ & _ & _ & _ & F5).
  destruct (F5 NS) as (X1 & _). apply X1; auto.
Qed.
Print Assumptions C42_attribute_names.
(** False for names beginning with two underscores. *)

Definition H_mang : heap := [ plain_inst cNode 1; ODict [(VStr (u "__x"), VInt 1)] ].
Theorem C42_underscores_refuted :
  exists w k h l text v t a, enc w k PO 20 h (VLoc l) = Ret text /\ dec w UO 30 text = (Ret v, t) /\
    before w k h (VLoc l) [PAttr a] = Some (VInt 1) /\
    after w (u_heap t) v [PAttr a] = None /\ after w (u_heap t) v [PAttr (u "_Node" ++ a)] = Some (VInt 1).
Proof.
  exists W0, K0, H_mang, 0. eexists. eexists. eexists. exists (u "__x"). split; [vm_compute; reflexivity|]. split; [vm_compute; reflexivity|].
  vm_compute. auto.
Qed.
Print Assumptions C42_underscores_refuted.

(** C43.  Sets and bytearrays come back with the same contents, and shared lists, dicts and
    instances stay shared (C02); shared sets and bytearrays do not. *)
Theorem C43_contents :
  forall w k po uo classes h dm N v, rt_case w k po uo classes h dm N v ->
  roundtrips w k po uo classes h v (fun h' b v' => forall p l, encoded_path w k h v p -> before w k h v p = Some (VLoc l) ->
    (forall xs, hget h l = Some (OSet xs) ->
       exists l' ys, after w h' v' p = Some (VLoc l') /\ hget h' l' = Some (OSet ys) /\ Forall2 (is_copy w k (po_keys po) h h' b) xs ys) /\
    (forall x, hget h l = Some (OByteArray x) ->
       exists l', after w h' v' p = Some (VLoc l') /\ hget h' l' = Some (OByteArray x))).
Proof.
  intros w k po uo classes h dm N v HC. eapply roundtrips_use; [exact HC|]. intros h' b v' CP p l EP B.
  destruct (copy_path w k po h v h' b v' CP) as (R & RF & RJ & OM & PT). specialize (PT p EP). rewrite B in PT.
  destruct (after w h' v' p) as [x'|]; [|destruct PT]. cbn in PT.
  assert (NR : forall o, hget h l = Some o -> match o with OSet _ | OByteArray _ => True | _ => False end -> forall l', ~ R l l').
  { intros o G K l' Rl. destruct (OM l l' Rl) as [? ? G2|? ? G2|? ? G2]; rewrite G in G2; injection G2 as ->; exact K. }
  split.
  - intros xs G. inversion PT as [? A|? ? ?|? l' ? ys G2 L G3 F|? ? ? G2|? l' Rl]; subst; try discriminate.
    + rewrite G in G2. injection G2 as <-. exists l', ys. split; auto. split; auto.
      eapply Forall2_impl; [|exact F]. intros a c M. exists R. auto.
    + congruence.
    + destruct (NR _ G Logic.I _ Rl).
  - intros x G. inversion PT as [? A|? ? ?|? l' ? ys G2 L G3 F|? l' ? G2 L G3|? l' Rl]; subst; try discriminate.
    + congruence.
    + rewrite G in G2. injection G2 as <-. exists l'. auto.
    + destruct (NR _ G Logic.I _ Rl).
Qed.
Print Assumptions C43_contents.
Definition H_set : heap := [ OList [VLoc 1; VLoc 1; VLoc 2; VLoc 2]; OSet [VInt 1]; OByteArray [Ascii.zero] ].
Theorem C43_identity_refuted :
  exists w k h l text v t, enc w k PO 20 h (VLoc l) = Ret text /\ dec w UO 30 text = (Ret v, t) /\
    before w k h (VLoc l) [PIdx 0] = before w k h (VLoc l) [PIdx 1] /\ after w (u_heap t) v [PIdx 0] <> after w (u_heap t) v [PIdx 1] /\
    before w k h (VLoc l) [PIdx 2] = before w k h (VLoc l) [PIdx 3] /\ after w (u_heap t) v [PIdx 2] <> after w (u_heap t) v [PIdx 3].
Proof.
  exists W0, K0, H_set, 0. eexists. eexists. eexists. split; [vm_compute; reflexivity|]. split; [vm_compute; reflexivity|].
  split; [reflexivity|]. split; [vm_compute; discriminate|]. split; [reflexivity|]. vm_compute. discriminate.
Qed.
Print Assumptions C43_identity_refuted.

(** C49.  The decoding process lacks one class; on_missing='ignore'.  The dict of the
    document that stands for the object takes its number, but the list inside it takes none, so a
    later reference finds another list. *)

Definition W_miss : world :=
  {| w_cls := w_cls W0; w_fun := w_fun W0; w_mod := w_mod W0; w_sub := w_sub W0; w_import := w_import W0; w_import_top := w_import_top W0; w_sysmod := w_sysmod W0;
     w_getattr := fun m s => if seqb s (u "Node") then Exc EAttributeError else w_getattr W0 m s;
     w_new := w_new W0; w_call := w_call W0; w_blank := w_blank W0; w_ext_callable := w_ext_callable W0; w_setstate := w_setstate W0; w_setter := w_setter W0;
     w_eval := w_eval W0; w_reg := w_reg W0; w_hflat := w_hflat W0; w_hrest := w_hrest W0; w_hctx_flat := w_hctx_flat W0; w_hctx_rest := w_hctx_rest W0;
     w_clone := w_clone W0; w_nonetype := w_nonetype W0 |}.
Definition H_miss : heap := [ OList [VLoc 1; VLoc 3; VLoc 4; VLoc 3]; plain_inst cNode 2; ODict [(VStr (u "a"), VLoc 5)]; OList [VInt 1]; OList [VInt 2]; OList [] ].
Theorem C49_missing_class_refuted :
  exists w w' k h l text v t, enc w k PO 20 h (VLoc l) = Ret text /\ dec w' UO 30 text = (Ret v, t) /\
    (forall m s, w_getattr w' m s = w_getattr w m s \/ s = u "Node") /\
    before w k h (VLoc l) [PIdx 1] = before w k h (VLoc l) [PIdx 3] /\
    before w k h (VLoc l) [PIdx 3; PIdx 0] = Some (VInt 1) /\
    after w' (u_heap t) v [PIdx 1; PIdx 0] = Some (VInt 1) /\
    after w' (u_heap t) v [PIdx 3; PIdx 0] = Some (VInt 2).
Proof.
  exists W0, W_miss, K0, H_miss, 0. eexists. eexists. eexists. split; [vm_compute; reflexivity|]. split; [vm_compute; reflexivity|].
  split; [intros m s; cbn [w_getattr W_miss]; destruct (seqb s (u "Node")) eqn:E; [right; apply seqb_eq; exact E|left; reflexivity]|].
  vm_compute. auto.
Qed.
Print Assumptions C49_missing_class_refuted.

(** The class is there but makes no instance (__new__, a call and the blank instance all fail,
    unpickler.py:818-857): the object takes two numbers, so a reference to the next list finds the
    dict that stands for the object, and a reference to the object is None. *)
Definition W_noinst : world :=
  {| w_cls := w_cls W0; w_fun := w_fun W0; w_mod := w_mod W0; w_sub := w_sub W0; w_import := w_import W0; w_import_top := w_import_top W0; w_sysmod := w_sysmod W0;
     w_getattr := w_getattr W0;
     w_new := fun h c a kw => if Nat.eqb c cNode then CRaise ETypeError else w_new W0 h c a kw;
     w_call := fun h f a => match f with VType 0 => CRaise ETypeError | _ => w_call W0 h f a end;
     w_blank := fun c => negb (Nat.eqb c cNode); w_ext_callable := w_ext_callable W0; w_setstate := w_setstate W0; w_setter := w_setter W0;
     w_eval := w_eval W0; w_reg := w_reg W0; w_hflat := w_hflat W0; w_hrest := w_hrest W0; w_hctx_flat := w_hctx_flat W0; w_hctx_rest := w_hctx_rest W0;
     w_clone := w_clone W0; w_nonetype := w_nonetype W0 |}.
Definition H_noinst : heap := [ OList [VLoc 1; VLoc 3; VLoc 4; VLoc 3; VLoc 4; VLoc 1]; plain_inst cNode 2; ODict []; OList [VInt 1]; OList [VInt 2] ].
Theorem C49_no_instance_refuted :
  exists w w' k h l text v t, enc w k PO 20 h (VLoc l) = Ret text /\ dec w' UO 30 text = (Ret v, t) /\
    before w k h (VLoc l) [PIdx 1] = before w k h (VLoc l) [PIdx 3] /\
    before w k h (VLoc l) [PIdx 2] = before w k h (VLoc l) [PIdx 4] /\
    before w k h (VLoc l) [PIdx 0] = before w k h (VLoc l) [PIdx 5] /\
    after w' (u_heap t) v [PIdx 1; PIdx 0] = Some (VInt 1) /\
    after w' (u_heap t) v [PIdx 3] = after w' (u_heap t) v [PIdx 0] /\
    after w' (u_heap t) v [PIdx 4] = after w' (u_heap t) v [PIdx 1] /\
    after w' (u_heap t) v [PIdx 5] = Some VNone.
Proof.
  exists W0, W_noinst, K0, H_noinst, 0. eexists. eexists. eexists. split; [vm_compute; reflexivity|]. split; [vm_compute; reflexivity|].
  repeat (split; [vm_compute; reflexivity|]). vm_compute. reflexivity.
Qed.
Print Assumptions C49_no_instance_refuted.

(** C18 is false for the names of the bytes tags, which are not escaped, and for escaped keys
    before others, whose values are numbered in another order by the decoder. *)

Definition H_b64 : heap := [ ODict [(VStr B64, VStr (u "AA=="))] ].
Definition H_esc : heap := [ ODict [(VStr (u "py/object"), VLoc 1); (VStr (u "a"), VLoc 2); (VStr (u "b"), VLoc 1)]; OList [VInt 1]; OList [VInt 2] ].
Theorem C18_bytes_tag_refuted :
  exists w k h l text v t, enc w k PO_keys 20 h (VLoc l) = Ret text /\ dec w UO_keys 30 text = (Ret v, t) /\
    hget h l = Some (ODict [(VStr B64, VStr (u "AA=="))]) /\ v = VBytes [Ascii.zero].
Proof.
  exists W0, K0, H_b64, 0. eexists. eexists. eexists. split; [vm_compute; reflexivity|]. split; [vm_compute; reflexivity|].
  vm_compute. auto.
Qed.
Print Assumptions C18_bytes_tag_refuted.
Theorem C18_order_refuted :
  exists w k h l text v t, enc w k PO_keys 20 h (VLoc l) = Ret text /\ dec w UO_keys 30 text = (Ret v, t) /\
    before w k h (VLoc l) [PKey (VStr (u "b"))] = before w k h (VLoc l) [PKey (VStr (u "py/object"))] /\
    before w k h (VLoc l) [PKey (VStr (u "b")); PIdx 0] = Some (VInt 1) /\
    after w (u_heap t) v [PKey (VStr (u "b")); PIdx 0] = Some (VInt 2).
Proof.
  exists W0, K0, H_esc, 0. eexists. eexists. eexists. split; [vm_compute; reflexivity|]. split; [vm_compute; reflexivity|].
  vm_compute. auto.
Qed.
Print Assumptions C18_order_refuted.
