(** C29, C31, C34, C35, C36, C42: graphs outside those of C01 for which the properties fail. *)
From Verif Require Import PyStr Tags Json JsonText Base Heap Registry LoadClass Pickler Unpickler SpecGraph RTProps Samples PropRoundtrip.
From Coq Require Import List. Import ListNotations.
Open Scope nat_scope.

(** The sample world with another class table. *)
Definition world_of (cs : list cinfo) (new : heap -> nat -> list val -> list (pystr * val) -> cres) : world :=
  {| w_cls := fun n => nth n cs (cbase "Missing"); w_fun := w_fun W0; w_mod := w_mod W0; w_sub := w_sub W0;
     w_import := w_import W0; w_import_top := w_import_top W0; w_sysmod := w_sysmod W0;
     w_getattr := fun m s => match m with VMod 0 => find_class s cs 0 | _ => Exc EAttributeError end;
     w_new := new; w_call := w_call W0; w_blank := w_blank W0; w_ext_callable := w_ext_callable W0;
     w_setstate := w_setstate W0; w_setter := w_setter W0; w_eval := w_eval W0; w_reg := w_reg W0;
     w_hflat := w_hflat W0; w_hrest := w_hrest W0; w_hctx_flat := w_hctx_flat W0; w_hctx_rest := w_hctx_rest W0;
     w_clone := 99; w_nonetype := 98 |}.
Definition with_inst (c : nat) (d : option loc) (sl : list (pystr * val)) (its : list (val * val)) (es : list val) : obj :=
  OInst (mkInst c d sl its es None CSrc [] 0).

(** C35.  A class that declares [__slots__] and whose instances also have a [__dict__] (because a
    base class has no [__slots__]): only the [__dict__] is written. *)
Definition W_both : world := world_of [with_kind KPlain true (Some [u "a"]) true (cbase "Both")] (w_new W0).
Definition H_both : heap := [ with_inst 0 (Some 1) [(u "a", VInt 1)] [] []; ODict [(VStr (u "b"), VInt 2)] ].
Theorem C35_dict_and_slots_refuted :
  exists w k h l text v t, enc w k PO 20 h (VLoc l) = Ret text /\ dec w UO 30 text = (Ret v, t) /\
    before w k h (VLoc l) [PAttr (u "a")] = Some (VInt 1) /\ after w (u_heap t) v [PAttr (u "a")] = None /\
    after w (u_heap t) v [PAttr (u "b")] = Some (VInt 2).
Proof.
  exists W_both, K0, H_both, 0. eexists. eexists. eexists. split; [vm_compute; reflexivity|]. split; [vm_compute; reflexivity|].
  vm_compute. auto.
Qed.
Print Assumptions C35_dict_and_slots_refuted.

(** C35.  A private slot is read and written under the name it has in the class of the object: one that
    is declared by a base class is lost, and so is one whose name both begins and ends with two
    underscores. *)
Definition W_priv : world :=
  world_of [with_kind KPlain false (Some [u "x"; u "__p"; u "__q__"]) true (cbase "Sub")] (w_new W0).
Definition H_priv : heap := [ with_inst 0 None [(u "x", VInt 1); (u "_Base__p", VInt 2); (u "__q__", VInt 3)] [] [] ].
Theorem C35_private_refuted :
  exists w k h l text v t, enc w k PO 20 h (VLoc l) = Ret text /\ dec w UO 30 text = (Ret v, t) /\
    before w k h (VLoc l) [PAttr (u "_Base__p")] = Some (VInt 2) /\ after w (u_heap t) v [PAttr (u "_Base__p")] = None /\
    before w k h (VLoc l) [PAttr (u "__q__")] = Some (VInt 3) /\ after w (u_heap t) v [PAttr (u "__q__")] = None /\
    after w (u_heap t) v [PAttr (u "x")] = Some (VInt 1).
Proof.
  exists W_priv, K0, H_priv, 0. eexists. eexists. eexists. split; [vm_compute; reflexivity|]. split; [vm_compute; reflexivity|].
  vm_compute. auto 10.
Qed.
Print Assumptions C35_private_refuted.

(** C36.  In subclasses of list and set the excluded attribute is written; in subclasses of dict
    an item is lost whose key is an excluded name. *)
Definition W_exl : world :=
  world_of [with_exclude [u "secret"] (with_kind KList true None false (cbase "ExList"));
            with_exclude [u "secret"] (with_kind KDict true None false (cbase "ExDict"))] (w_new W0).
Definition H_exl : heap := [ with_inst 0 (Some 1) [] [] [VInt 7]; ODict [(VStr (u "secret"), VInt 1)] ].
Theorem C36_list_subclass_refuted :
  exists w k h l i text v t, enc w k PO 20 h (VLoc l) = Ret text /\ dec w UO 30 text = (Ret v, t) /\
    hget h l = Some (OInst i) /\ In (u "secret") (c_exclude (w_cls w (i_cls i))) /\
    after w (u_heap t) v [PAttr (u "secret")] = Some (VInt 1).
Proof.
  exists W_exl, K0, H_exl, 0. eexists. eexists. eexists. eexists. split; [vm_compute; reflexivity|]. split; [vm_compute; reflexivity|].
  split; [reflexivity|]. split; [left; reflexivity|]. vm_compute. auto.
Qed.
Print Assumptions C36_list_subclass_refuted.
Definition H_exd : heap := [ with_inst 1 (Some 1) [] [(VStr (u "secret"), VInt 1); (VStr (u "x"), VInt 2)] []; ODict [] ].
Theorem C36_dict_item_refuted :
  exists w k h l i text v t, enc w k PO 20 h (VLoc l) = Ret text /\ dec w UO 30 text = (Ret v, t) /\
    hget h l = Some (OInst i) /\ inst_attr h i (u "secret") = None /\
    before w k h (VLoc l) [PKey (VStr (u "secret"))] = Some (VInt 1) /\
    after w (u_heap t) v [PKey (VStr (u "secret"))] = None /\ after w (u_heap t) v [PKey (VStr (u "x"))] = Some (VInt 2).
Proof.
  exists W_exl, K0, H_exd, 0. eexists. eexists. eexists. eexists. split; [vm_compute; reflexivity|]. split; [vm_compute; reflexivity|].
  vm_compute. auto.
Qed.
Print Assumptions C36_dict_item_refuted.

(** C36.  A [__getstate__] that returns a pair of dicts (for [__dict__] and for the slots, as
    [object.__getstate__] does for classes with [__slots__]): excluded names in it are written. *)
Definition W_exp : world :=
  world_of [with_exclude [u "secret"] (with_protocol true false false false false false false
              (with_kind KPlain true (Some [u "a"; u "secret"]) true (cbase "ExPair")))] (w_new W0).
Definition K_exp : hooks :=
  {| k_reduce := k_reduce K0; k_getstate := fun _ => Ret (VTuple [VNone; VLoc 1]); k_newargs := k_newargs K0; k_newargs_ex := k_newargs_ex K0;
     k_initargs := k_initargs K0; k_iter := k_iter K0; k_attr := k_attr K0; k_dir := k_dir K0;
     k_props := k_props K0; k_eqdict := k_eqdict K0; k_members := k_members K0; k_repr := k_repr K0; k_str := k_str K0;
     k_call0 := k_call0 K0 |}.
Definition H_exp : heap := [ with_inst 0 None [(u "a", VInt 1); (u "secret", VInt 2)] [] []; ODict [(VStr (u "a"), VInt 1); (VStr (u "secret"), VInt 2)] ].
Theorem C36_pair_state_refuted :
  exists w k h l i text v t, enc w k PO 20 h (VLoc l) = Ret text /\ dec w UO 30 text = (Ret v, t) /\
    hget h l = Some (OInst i) /\ In (u "secret") (c_exclude (w_cls w (i_cls i))) /\
    after w (u_heap t) v [PAttr (u "secret")] = Some (VInt 2).
Proof.
  exists W_exp, K_exp, H_exp, 0. eexists. eexists. eexists. eexists. split; [vm_compute; reflexivity|]. split; [vm_compute; reflexivity|].
  split; [reflexivity|]. split; [left; reflexivity|]. vm_compute. auto.
Qed.
Print Assumptions C36_pair_state_refuted.

(** C34.  A dict subclass whose items equal its attributes loses the attributes. *)
Definition K_eqd : hooks :=
  {| k_reduce := k_reduce K0; k_getstate := k_getstate K0; k_newargs := k_newargs K0; k_newargs_ex := k_newargs_ex K0;
     k_initargs := k_initargs K0; k_iter := k_iter K0; k_attr := k_attr K0; k_dir := k_dir K0;
     k_props := k_props K0; k_eqdict := fun _ => true; k_members := k_members K0; k_repr := k_repr K0; k_str := k_str K0;
     k_call0 := k_call0 K0 |}.
Definition H_eqd : heap := [ with_inst cDict (Some 1) [] [(VStr (u "a"), VInt 1)] []; ODict [(VStr (u "a"), VInt 1)] ].
Theorem C34_equal_items_refuted :
  exists w k h l i d text v t, enc w k PO 20 h (VLoc l) = Ret text /\ dec w UO 30 text = (Ret v, t) /\
    hget h l = Some (OInst i) /\ i_dict i = Some d /\ hget h d = Some (ODict (i_items i)) /\
    before w k h (VLoc l) [PAttr (u "a")] = Some (VInt 1) /\ after w (u_heap t) v [PAttr (u "a")] = None.
Proof.
  exists W0, K_eqd, H_eqd, 0. eexists. eexists. eexists. eexists. eexists. split; [vm_compute; reflexivity|]. split; [vm_compute; reflexivity|].
  vm_compute. auto 10.
Qed.
Print Assumptions C34_equal_items_refuted.

(** C31.  With [__getnewargs__] and [__getinitargs__] both arguments are written and numbered, but
    the second are not read: a later reference finds another list. *)
Definition W_two : world := world_of [with_protocol false false true false true false false (cbase "Two")] (w_new W0).
Definition K_two : hooks :=
  {| k_reduce := k_reduce K0; k_getstate := k_getstate K0; k_newargs := fun _ => Ret (VTuple [VInt 1]); k_newargs_ex := k_newargs_ex K0;
     k_initargs := fun _ => Ret (VTuple [VLoc 2]); k_iter := k_iter K0; k_attr := k_attr K0; k_dir := k_dir K0;
     k_props := k_props K0; k_eqdict := k_eqdict K0; k_members := k_members K0; k_repr := k_repr K0; k_str := k_str K0;
     k_call0 := k_call0 K0 |}.
Definition H_two : heap := [ OList [VLoc 1; VLoc 4; VLoc 5; VLoc 4]; with_inst 0 (Some 3) [] [] []; OList []; ODict []; OList [VInt 1]; OList [VInt 2] ].
Theorem C31_two_methods_refuted :
  exists w k h l text v t, enc w k PO 20 h (VLoc l) = Ret text /\ dec w UO 30 text = (Ret v, t) /\
    before w k h (VLoc l) [PIdx 1] = before w k h (VLoc l) [PIdx 3] /\
    before w k h (VLoc l) [PIdx 3; PIdx 0] = Some (VInt 1) /\
    after w (u_heap t) v [PIdx 3; PIdx 0] = Some (VInt 2).
Proof.
  exists W_two, K_two, H_two, 0. eexists. eexists. eexists. split; [vm_compute; reflexivity|]. split; [vm_compute; reflexivity|].
  vm_compute. auto.
Qed.
Print Assumptions C31_two_methods_refuted.

(** C42.  An attribute called default_factory of an instance that is no dict is taken for the
    factory of a defaultdict: None (any false value) is lost, and so is any other value if
    [__new__] takes no argument. *)
Definition H_dfn : heap := [ plain_inst cNode 1; ODict [(VStr (u "default_factory"), VNone); (VStr (u "b"), VInt 2)] ].
Definition W_df : world := world_of [cbase "Config"] (fun _ c args _ => match args with [] => CInst c | _ => CRaise ETypeError end).
Definition H_df : heap := [ plain_inst 0 1; ODict [(VStr (u "default_factory"), VInt 1); (VStr (u "b"), VInt 2)] ].
Theorem C42_default_factory_refuted :
  exists w k h l text v t, enc w k PO 20 h (VLoc l) = Ret text /\ dec w UO 30 text = (Ret v, t) /\
    before w k h (VLoc l) [PAttr (u "default_factory")] = Some VNone /\
    after w (u_heap t) v [PAttr (u "default_factory")] = None /\ after w (u_heap t) v [PAttr (u "b")] = Some (VInt 2).
Proof.
  exists W0, K0, H_dfn, 0. eexists. eexists. eexists. split; [vm_compute; reflexivity|]. split; [vm_compute; reflexivity|].
  vm_compute. auto.
Qed.
Print Assumptions C42_default_factory_refuted.
Theorem C42_default_factory_value_refuted :
  exists w k h l text v t, enc w k PO 20 h (VLoc l) = Ret text /\ dec w UO 30 text = (Ret v, t) /\
    before w k h (VLoc l) [PAttr (u "default_factory")] = Some (VInt 1) /\
    after w (u_heap t) v [PAttr (u "default_factory")] = None /\ after w (u_heap t) v [PAttr (u "b")] = Some (VInt 2).
Proof.
  exists W_df, K0, H_df, 0. eexists. eexists. eexists. split; [vm_compute; reflexivity|]. split; [vm_compute; reflexivity|].
  vm_compute. auto.
Qed.
Print Assumptions C42_default_factory_value_refuted.

(** C29.  A class with [__getstate__] but no [__setstate__]: a state that is no dict and no pair
    ending in a dict is returned in place of the object. *)
Definition K_gs : hooks :=
  {| k_reduce := k_reduce K0; k_getstate := fun _ => Ret (VLoc 2); k_newargs := k_newargs K0; k_newargs_ex := k_newargs_ex K0;
     k_initargs := k_initargs K0; k_iter := k_iter K0; k_attr := k_attr K0; k_dir := k_dir K0;
     k_props := k_props K0; k_eqdict := k_eqdict K0; k_members := k_members K0; k_repr := k_repr K0; k_str := k_str K0;
     k_call0 := k_call0 K0 |}.
Definition H_gs : heap := [ plain_inst cPlainNoState 1; ODict [(VStr (u "a"), VInt 1)]; OList [VInt 5] ].
Theorem C29_list_state_refuted :
  exists w k h l i text v t x, enc w k PO 20 h (VLoc l) = Ret text /\ dec w UO 30 text = (Ret v, t) /\
    hget h l = Some (OInst i) /\ v = VLoc x /\ hget (u_heap t) x = Some (OList [VInt 5]).
Proof.
  exists W0, K_gs, H_gs, 0. eexists. eexists. eexists. eexists. eexists. split; [vm_compute; reflexivity|]. split; [vm_compute; reflexivity|].
  split; [reflexivity|]. split; [reflexivity|]. vm_compute. reflexivity.
Qed.
Print Assumptions C29_list_state_refuted.
