(** C29: a graph with states as pickle gives them for classes with [__slots__]. *)
From Verif Require Import PyStr Tags Json JsonText Base Heap Registry LoadClass Pickler Unpickler SpecGraph PGen PTerm RTBase RTOrder RTKinds RTMain RTProps Samples PropEncode PropRoundtrip.
Open Scope nat_scope.

(** [[p, q, xs, p]]; the state of p is [({'x': xs}, {'a': xs, 'b': 2})], the state of q is [(None, {'a': 1})]. *)
Definition K_pair : hooks :=
  {| k_reduce := k_reduce K0;
     k_getstate := fun l => if l =? 1 then Ret (VTuple [VLoc 2; VLoc 3]) else if l =? 4 then Ret (VTuple [VNone; VLoc 5]) else Ret VNone;
     k_newargs := k_newargs K0; k_newargs_ex := k_newargs_ex K0; k_initargs := k_initargs K0; k_iter := k_iter K0; k_attr := k_attr K0; k_dir := k_dir K0;
     k_props := k_props K0; k_eqdict := k_eqdict K0; k_members := k_members K0; k_repr := k_repr K0; k_str := k_str K0; k_call0 := k_call0 K0 |}.
Definition H_pair : heap :=
  [ OList [VLoc 1; VLoc 4; VLoc 6; VLoc 1];
    OInst (mkInst cPair (Some 7) [(u "a", VLoc 6); (u "b", VInt 2)] [] [] None CSrc [] 0);
    ODict [(VStr (u "x"), VLoc 6)]; ODict [(VStr (u "a"), VLoc 6); (VStr (u "b"), VInt 2)];
    OInst (mkInst cPair (Some 8) [(u "a", VInt 1)] [] [] None CSrc [] 0);
    ODict [(VStr (u "a"), VInt 1)];
    OList [VInt 3]; ODict [(VStr (u "x"), VLoc 6)]; ODict [] ].
Definition parts_pair : list val :=
  [VTuple [VLoc 2; VLoc 3]; VTuple [VNone; VLoc 5]; VNone; VLoc 2; VLoc 3; VLoc 5; VLoc 6; VInt 1; VInt 2; VInt 3; VStr (u "x"); VStr (u "a"); VStr (u "b")].
Definition all_pair : list val := [VLoc 0; VLoc 1; VLoc 4] ++ parts_pair.
Lemma closed_parts : closed W0 K_pair false [] H_pair parts_pair.
Proof.
  intros x I. unfold parts_pair in I. cbn [In] in I. repeat (destruct I as [<-|I]; [try exact Logic.I; try incl_tac|]); [..|destruct I].
  - eexists. split; [eapply sh_dict; [reflexivity|dok|ook]|incl_tac].
  - eexists. split; [eapply sh_dict; [reflexivity|dok|ook]|incl_tac].
  - eexists. split; [eapply sh_dict; [reflexivity|dok|ook]|incl_tac].
  - eexists. split; [eapply sh_list; reflexivity|incl_tac].
Qed.
Lemma shape_p : shape W0 K_pair false [] H_pair 1 [VTuple [VLoc 2; VLoc 3]].
Proof.
  eapply (sh_pstate W0 K_pair false [] H_pair 1) with (cs := []) (args := []) (kw := []); try reflexivity; [cok|left; reflexivity| |apply ct_none; reflexivity|].
  - split; [reflexivity|]. split; [reflexivity|]. split; [reflexivity|]. left. reflexivity.
  - split; [reflexivity|]. split; [reflexivity|]. exists [(VStr (u "x"), VLoc 6)]. split; [right; exists 2; split; reflexivity|]. split; reflexivity.
Qed.
Lemma shape_q : shape W0 K_pair false [] H_pair 4 [VTuple [VNone; VLoc 5]].
Proof.
  eapply (sh_pstate W0 K_pair false [] H_pair 4) with (cs := []) (args := []) (kw := []); try reflexivity; [cok|left; reflexivity| |apply ct_none; reflexivity|].
  - split; [reflexivity|]. split; [reflexivity|]. split; [reflexivity|]. left. reflexivity.
  - split; [reflexivity|]. split; [reflexivity|]. exists []. split; [left; split; reflexivity|]. split; reflexivity.
Qed.
Lemma closed_pair : closed W0 K_pair false [] H_pair all_pair.
Proof.
  intros x I. unfold all_pair in I. apply in_app_or in I as [I|I].
  - cbn [In] in I. repeat (destruct I as [<-|I]); [..|destruct I].
    + eexists. split; [eapply sh_list; reflexivity|incl_tac].
    + eexists. split; [exact shape_p|incl_tac].
    + eexists. split; [exact shape_q|incl_tac].
  - pose proof (closed_parts x I) as C. destruct x; auto.
    + intros y J. apply in_or_app. right. apply C. exact J.
    + destruct C as (cs & S & C). exists cs. split; auto. intros y J. apply in_or_app. right. apply C. exact J.
Qed.
Lemma early_pair l x : In (VLoc l) all_pair -> early W0 K_pair H_pair l x -> In x parts_pair /\ (l = 1 \/ l = 4).
Proof.
  intros I E. unfold all_pair, parts_pair in I. cbn [In app] in I.
  repeat (destruct I as [I|I]; [try discriminate I; injection I as <-|]); [..|destruct I];
    inversion E as [l0 i cs args kw x0 G OR C Ix El Ex|l0 i st G OR OS S El Ex|l0 i hd pre vs x0 G HA Ix El Ex|l0 i f args mkrec st li xs di d x0 G RD Ix El Ex]; subst;
    try (destruct HA as (_ & HA & _); vm_compute in HA; discriminate HA);
    try (destruct RD as [_ RD _ (rl & RV & _) _ _ _ _ _]; cbn in RV; discriminate RV);
    try (destruct OS as (O1 & O2 & O3 & _)); cbn in G; try discriminate G; injection G as <-.
  all: try (destruct C as [E1 E2 E3|a E1 E2 E3 E4|a kd d kw E1 E2 E3|a E1 E2 E3 E4]; try (vm_compute in E1; discriminate E1); try (vm_compute in E2; discriminate E2); try (vm_compute in E3; discriminate E3); try (destruct Ix; fail)).
  - cbn in O2. injection O2 as <-. split; [left; reflexivity|auto].
  - cbn in O2. injection O2 as <-. split; [right; left; reflexivity|auto].
Qed.
Lemma supported_pair : supported W0 K_pair false [] H_pair (VLoc 0).
Proof.
  apply (closed_supported W0 K_pair false [] H_pair all_pair); [exact closed_pair|left; reflexivity|].
  intros x I. destruct x; try exact Logic.I;
    try (unfold all_pair, parts_pair in I; cbn [In app] in I; repeat (destruct I as [I|I]; [try discriminate I; injection I as <-; vm_compute; auto|]); destruct I; fail).
  split.
  - pose proof (closed_pair _ I) as (cs & S & _). eauto.
  - intros x E R. destruct (early_pair l x I E) as [P L].
    pose proof (closed_reach _ _ _ _ _ _ _ _ closed_parts P R) as X. unfold parts_pair in X. cbn [In] in X.
    destruct L as [-> | ->]; repeat (destruct X as [X|X]; [discriminate X|]); exact X.
Qed.
Lemma finite_pair : finite_graph W0 K_pair PO H_pair 2 0.
Proof.
  destruct (finite_sample PO H_pair 2 eq_refl ltac:(lia) ltac:(vm_compute; reflexivity)) as [F1 F2 F3 F4 F5 F6 F7 F8 F9 F10 F11 F12 F13 F14 F15].
  constructor; auto.
  - intros l x E. cbn in E. destruct (l =? 1); [injection E as <-; split; vm_compute; auto|]. destruct (l =? 4); injection E as <-; split; vm_compute; auto.
  - destruct F12 as (R1 & R2 & R3 & R4 & R5 & R6 & R7 & R8 & R9 & R10 & R11). repeat split; auto.
    intros l. cbn. destruct (l =? 1); [discriminate|]. destruct (l =? 4); discriminate.
Qed.
Example C29_pair_case : rt_case W0 K_pair PO UO None H_pair 2 0 (VLoc 0) /\
  own_state W0 K_pair H_pair (w_cls W0 cPair) 1 (VTuple [VLoc 2; VLoc 3]) /\ own_state W0 K_pair H_pair (w_cls W0 cPair) 4 (VTuple [VNone; VLoc 5]) /\
  c_setstate (w_cls W0 cPair) = false /\ state_dict H_pair (VLoc 2) [(VStr (u "x"), VLoc 6)] /\ state_dict H_pair VNone [].
Proof.
  split.
  { split; [repeat split|]. split; [exact supported_pair|]. split; [exact finite_pair|]. split; vm_compute; auto. }
  split; [repeat split; left; reflexivity|]. split; [repeat split; left; reflexivity|]. split; [reflexivity|].
  split; [right; exists 2; split; reflexivity|left; split; reflexivity].
Qed.
