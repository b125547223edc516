(** C70: objects whose [__reduce__] gives arguments and a state that lead back to them. *)
From Verif Require Import PyStr Tags Json JsonText JsonTextProofs Base Heap Registry LoadClass Pickler Unpickler SpecGraph SpecPlain SpecRefs SpecHoles SpecLack SpecBack RTMain RTProps BackTrip Samples PropLimits.
From Coq Require Import List Lia. Import ListNotations.
Open Scope nat_scope.

(** C70.  All references to the object, in its own state and elsewhere, lead to the copy; no
    placeholder is left. *)
Theorem C70_back :
  forall w k po uo classes h v, rt_options po uo -> po_keys po = false -> back_graph w k (class_table w classes) h v ->
  roundtrips w k po uo classes h v (fun h' b v' => is_copy w k false h h' b v v').
Proof. exact back_roundtrip. Qed.
Print Assumptions C70_back.

(** An object gives a list that contains it as an argument, and a dict as its state in which it
    is found directly, in the list, and as an attribute of another object. *)
Definition K_lead : hooks :=
  {| k_reduce := fun _ => Ret (RTup [VType cReduce; VTuple [VLoc 3; VInt 5]; VLoc 2]); k_getstate := k_getstate K0;
     k_newargs := k_newargs K0; k_newargs_ex := k_newargs_ex K0; k_initargs := k_initargs K0; k_iter := k_iter K0;
     k_attr := k_attr K0; k_dir := k_dir K0; k_props := k_props K0; k_eqdict := k_eqdict K0; k_members := k_members K0;
     k_repr := k_repr K0; k_str := k_str K0; k_call0 := k_call0 K0 |}.
Definition H_lead : heap :=
  [ plain_inst cReduce 1; ODict []; ODict [(VStr (u "me"), VLoc 0); (VStr (u "node"), VLoc 4); (VStr (u "l"), VLoc 3)];
    OList [VLoc 0; VLoc 4]; plain_inst cNode 5; ODict [(VStr (u "owner"), VLoc 0)]; OList [VLoc 4; VLoc 0; VLoc 0] ].
Definition all_lead : list val := [VLoc 6; VLoc 4; VLoc 0; VType cReduce; VTuple [VLoc 3; VInt 5]; VLoc 2; VLoc 3; VInt 5].
Ltac inside := match goal with H : In _ _ |- _ => cbn in H; repeat destruct H as [H|H]; try (destruct H; fail) end.
Lemma lead_all x : leads W0 K_lead H_lead (VLoc 6) x -> In x all_lead.
Proof.
  intros L. remember (VLoc 6) as v eqn:Ev. induction L as [v|v y z L IH P]; subst; [cbn; tauto|]. specialize (IH eq_refl).
  cbn in IH. repeat destruct IH as [IH|IH]; try (destruct IH; fail); subst y;
    inversion P; subst; try discriminate;
    repeat match goal with H : hget H_lead _ = Some _ |- _ => vm_compute in H; injection H as <- | H : i_dict _ = Some _ |- _ => vm_compute in H; injection H as <-
      | H : k_reduce K_lead _ = _ |- _ => injection H as <- | H : c_reduce _ = _ |- _ => vm_compute in H; try discriminate H; clear H end;
    try (match goal with H : In _ _ |- _ => cbn in H; repeat destruct H as [H|H]; try (destruct H; fail); try (apply (f_equal snd) in H; cbn in H); subst end; cbn; tauto).
Qed.
Lemma lead_state i : hget H_lead 0 = Some (OInst i) -> with_state W0 K_lead H_lead 0 i cReduce [VLoc 3; VInt 5] (VLoc 2).
Proof.
  intros E. vm_compute in E. injection E as <-. split; [|split; [reflexivity|]].
  - constructor; try reflexivity; try (constructor; fail).
    + exists [VType cReduce; VTuple [VLoc 3; VInt 5]; VLoc 2]. split; [reflexivity|]. split; [discriminate|reflexivity].
    + apply mk_call; [left; exists cReduce; split; [reflexivity|vm_compute; discriminate]|reflexivity].
    + eapply su_dict; try reflexivity; [discriminate|left; reflexivity].
  - right. eexists. eexists. split; [reflexivity|]. split; [reflexivity|]. split; [discriminate|reflexivity].
Qed.
Example C70_case : back_graph W0 K_lead (class_table W0 None) H_lead (VLoc 6).
Proof.
  split.
  - intros x L. apply lead_all in L. cbn in L. repeat destruct L as [<-|L]; try (destruct L; fail); try exact Logic.I.
    + change (plain_class W0 cNode /\ found W0 W0 [] cNode /\ str_ok (cname W0 cNode) = true /\ @nil (pystr * val) = [] /\
        exists dl d, Some 5 = Some dl /\ hget H_lead dl = Some (ODict d) /\ string_keys d /\ settable W0 K_lead H_lead (VLoc 4) cNode d).
      split; [constructor; reflexivity|]. split; [constructor; reflexivity|]. split; [reflexivity|]. split; [reflexivity|].
      eexists. eexists. split; [reflexivity|]. split; [reflexivity|]. split.
      * split; [repeat constructor; intros []|]. intros q x [E|[]]. apply (f_equal fst) in E. cbn [fst] in E. subst q. exists (u "owner"). split; reflexivity.
      * intros a x [E|[]]. apply (f_equal fst) in E. cbn [fst] in E. injection E as <-. split; [reflexivity|]. split; [reflexivity|left; reflexivity].
    + exists cReduce, [VLoc 3; VInt 5], (VLoc 2). apply lead_state. reflexivity.
    + split; reflexivity.
    + intros x [<-|[<-|[]]] z E B; [|discriminate]. injection E as <-. destruct B as (i & E & _). discriminate.
    + change (string_keys [(VStr (u "me"), VLoc 0); (VStr (u "node"), VLoc 4); (VStr (u "l"), VLoc 3)]). split.
      * repeat constructor; cbn; intros X; repeat destruct X as [X|X]; try discriminate X; destruct X.
      * intros q x I. repeat destruct I as [E|I]; try (destruct I; fail); apply (f_equal fst) in E; cbn [fst] in E; subst q; eexists; split; reflexivity.
  - intros l sd Ll (i & t & args & G & (Rd & _)).
    assert (El : l = 0). { pose proof (rd_has _ _ _ _ _ _ _ _ _ _ _ _ _ Rd) as X. apply lead_all in Ll. cbn in Ll. repeat destruct Ll as [Ll|Ll]; try discriminate Ll; try (destruct Ll; fail); injection Ll as <-; try reflexivity; vm_compute in G; try discriminate G. injection G as <-. vm_compute in X. discriminate X. }
    subst l. assert (Es : sd = 2). { destruct (rd_val _ _ _ _ _ _ _ _ _ _ _ _ _ Rd) as (rl & E & _ & X). injection E as <-. cbn in X. injection X as _ _ <-. reflexivity. }
    subst sd. split; [discriminate|]. intros z Lz P. apply lead_all in Lz. cbn in Lz.
    repeat destruct Lz as [<-|Lz]; try (destruct Lz; fail); try reflexivity; exfalso;
      inversion P; subst; try discriminate;
      repeat match goal with H : hget H_lead _ = Some _ |- _ => vm_compute in H; injection H as <- | H : i_dict _ = Some _ |- _ => vm_compute in H; injection H as <-
        | H : k_reduce K_lead _ = _ |- _ => injection H as <- | H : c_reduce _ = _ |- _ => vm_compute in H; try discriminate H; clear H end;
      match goal with H : In _ _ |- _ => cbn in H; repeat destruct H as [H|H]; try (destruct H; fail); try (apply (f_equal snd) in H; cbn in H); discriminate H end.
Qed.
(** So the list has the node, and twice the same object, which is its own attribute, the
    attribute of the node, and in the list that its constructor was given. *)
Example C70_case_paths : exists text v t x, enc W0 K_lead PO 30 H_lead (VLoc 6) = Ret text /\ dec W0 UO 60 text = (Ret v, t) /\
  after W0 (u_heap t) v [PIdx 1] = Some (VLoc x) /\ after W0 (u_heap t) v [PIdx 2] = Some (VLoc x) /\
  after W0 (u_heap t) v [PIdx 0; PAttr (u "owner")] = Some (VLoc x) /\ after W0 (u_heap t) v [PIdx 1; PAttr (u "me")] = Some (VLoc x) /\
  after W0 (u_heap t) v [PIdx 1; PAttr (u "l"); PIdx 0] = Some (VLoc x).
Proof. do 4 eexists. split; [vm_compute; reflexivity|]. split; [vm_compute; reflexivity|]. vm_compute. auto 10. Qed.

(** False if the dict that is the state is reached before the object: it is still empty when the
    object is restored, and an empty state is not used (unpickler.py:554). *)
Definition K_first : hooks :=
  {| k_reduce := fun _ => Ret (RTup [VType cReduce; VTuple []; VLoc 1]); k_getstate := k_getstate K0;
     k_newargs := k_newargs K0; k_newargs_ex := k_newargs_ex K0; k_initargs := k_initargs K0; k_iter := k_iter K0;
     k_attr := k_attr K0; k_dir := k_dir K0; k_props := k_props K0; k_eqdict := k_eqdict K0; k_members := k_members K0;
     k_repr := k_repr K0; k_str := k_str K0; k_call0 := k_call0 K0 |}.
Definition H_first : heap := [ plain_inst cReduce 1; ODict [(VStr (u "me"), VLoc 0)] ].
Theorem C70_state_first_refuted :
  exists w k h l i d text v t text2 v2 t2 x, hget h l = Some (OInst i) /\ i_dict i = Some d /\ inst_attr h i (u "me") = Some (VLoc l) /\
    enc w k PO 20 h (VLoc d) = Ret text /\ dec w UO 30 text = (Ret v, t) /\
    after w (u_heap t) v [PKey (VStr (u "me"))] = Some (VLoc x) /\ after w (u_heap t) v [PKey (VStr (u "me")); PAttr (u "me")] = None /\
    enc w k PO 20 h (VLoc l) = Ret text2 /\ dec w UO 30 text2 = (Ret v2, t2) /\ after w (u_heap t2) v2 [PAttr (u "me")] = Some v2.
Proof.
  exists W0, K_first, H_first, 0. do 9 eexists. split; [reflexivity|]. split; [reflexivity|]. split; [reflexivity|].
  split; [vm_compute; reflexivity|]. split; [vm_compute; reflexivity|]. split; [vm_compute; reflexivity|]. split; [vm_compute; reflexivity|].
  split; [vm_compute; reflexivity|]. split; [vm_compute; reflexivity|]. vm_compute. reflexivity.
Qed.
Print Assumptions C70_state_first_refuted.

(** False if a frozen dataclass in the state leads back to the object: the placeholder is
    replaced with setattr, which raises (unpickler.py:193-195, 369-373). *)
Definition with_setattr (f : pystr -> sattr) (c : cinfo) : cinfo :=
  {| c_name := c_name c; c_qualname := c_qualname c; c_module := c_module c; c_types_name := c_types_name c;
     c_kind := c_kind c; c_dict := c_dict c; c_slots := c_slots c; c_exclude := c_exclude c; c_enum := c_enum c;
     c_isfun := c_isfun c; c_getstate := c_getstate c; c_setstate := c_setstate c; c_newargs := c_newargs c;
     c_newargs_ex := c_newargs_ex c; c_initargs := c_initargs c; c_reduce := c_reduce c; c_fields := c_fields c;
     c_deffac := c_deffac c; c_hash := c_hash c; c_callable := c_callable c; c_intstr := c_intstr c;
     c_setattr := f |}.
Definition W_frozen : world :=
  {| w_cls := fun n => if Nat.eqb n cOther then with_setattr (fun _ => SARaise EFrozen) (sample_cls n) else sample_cls n;
     w_fun := w_fun W0; w_mod := w_mod W0; w_sub := w_sub W0; w_import := w_import W0; w_import_top := w_import_top W0;
     w_sysmod := w_sysmod W0; w_getattr := w_getattr W0; w_new := w_new W0; w_call := w_call W0;
     w_blank := w_blank W0; w_ext_callable := w_ext_callable W0; w_setstate := w_setstate W0; w_setter := w_setter W0; w_eval := w_eval W0;
     w_reg := w_reg W0; w_hflat := w_hflat W0; w_hrest := w_hrest W0; w_hctx_flat := w_hctx_flat W0; w_hctx_rest := w_hctx_rest W0;
     w_clone := w_clone W0; w_nonetype := w_nonetype W0 |}.
Definition H_frozen : heap := [ plain_inst cReduce 1; ODict [(VStr (u "part"), VLoc 2)]; plain_inst cOther 3; ODict [(VStr (u "owner"), VLoc 0)] ].
Theorem C70_frozen_refuted :
  exists w k h l p text e t text2 v2 t2, before w k h (VLoc p) [PAttr (u "owner")] = Some (VLoc l) /\
    enc w k PO 20 h (VLoc l) = Ret text /\ dec w UO 30 text = (Exc e, t) /\ e = EFrozen /\
    enc w k PO 20 h (VLoc p) = Ret text2 /\ dec w UO 30 text2 = (Ret v2, t2).
Proof.
  exists W_frozen, K_first, H_frozen, 0, 2. do 6 eexists.
  split; [vm_compute; reflexivity|]. split; [vm_compute; reflexivity|]. split; [vm_compute; reflexivity|]. split; [reflexivity|].
  split; [vm_compute; reflexivity|]. vm_compute. reflexivity.
Qed.
Print Assumptions C70_frozen_refuted.
