(** C30, C31, C45: graphs with objects that take part by [__reduce__], by constructor
    arguments (namedtuples) and by handlers, and constructor arguments that fail. *)
From Verif Require Import PyStr Tags Json JsonText JsonTextProofs Base Heap Registry LoadClass Pickler Unpickler SpecGraph PGen PTerm RTBase RTMain RTProps Samples PropEncode PropRoundtrip.
Open Scope nat_scope.

(** A handler that encodes the list at 7, and makes an instance from what it gets back. *)
Definition hf_pr (hd : nat) (ctx : option val) (l : loc) (data : jobj) : fscript :=
  FFlatten false (VLoc 7) (fun j => FDone (Some (JObj (data ++ [(u "v", j)])))).
Definition hr_pr (hd : nat) (ctx : option val) (data : jobj) : hscript :=
  match jget (u "v") data with
  | Some j => HRestore j (fun v => HDone (HInst cHandled [VStr (u "made"); v]))
  | None => HRaise EKeyError
  end.
Definition W_pr : world := sample_world (reg_register sample_cls (mkReg [] []) cHandled 0 false) hf_pr hr_pr.
Definition K_pr : hooks :=
  {| k_reduce := fun l =>
       if l =? 2 then Ret (RTup [VType cReduce; VTuple [VLoc 7; VInt 5]; VLoc 8])
       else if l =? 5 then Ret (RTup [VFun 2; VTuple [VType cRedList]; VNone; VTuple [VLoc 7; VLoc 2]])
       else if l =? 6 then Ret (RTup [VFun 2; VTuple [VType cRedDict]; VNone; VNone; VTuple [VTuple [VInt 1; VLoc 7]]])
       else Ret RNone;
     k_getstate := k_getstate K0;
     k_newargs := fun l => if l =? 1 then Ret (VTuple [VLoc 7; VInt 3]) else Ret (VTuple []);
     k_newargs_ex := k_newargs_ex K0; k_initargs := k_initargs K0; k_iter := k_iter K0; k_attr := k_attr K0; k_dir := k_dir K0;
     k_props := k_props K0; k_eqdict := k_eqdict K0; k_members := k_members K0; k_repr := k_repr K0; k_str := k_str K0; k_call0 := k_call0 K0 |}.
Definition H_pr : heap :=
  [ OList [VLoc 1; VLoc 2; VLoc 4; VLoc 5; VLoc 6; VLoc 7; VLoc 1; VLoc 2; VLoc 4];
    OInst (mkInst cNT None [] [] [VLoc 7; VInt 3] None CSrc [] 0);
    plain_inst cReduce 3; ODict [];
    plain_inst cHandled 9;
    OInst (mkInst cRedList (Some 10) [] [] [VLoc 7; VLoc 2] None CSrc [] 0);
    OInst (mkInst cRedDict (Some 11) [] [(VInt 1, VLoc 7)] [] None CSrc [] 0);
    OList [VInt 1];
    ODict [(VStr (u "z"), VLoc 7)];
    ODict []; ODict []; ODict [] ].
Definition all_pr : list val := map VLoc [0; 1; 2; 4; 5; 6; 7; 8] ++
  [VTuple [VLoc 7; VInt 3]; VTuple [VLoc 7; VInt 5]; VTuple [VType cRedList]; VTuple [VLoc 7; VLoc 2]; VTuple [VType cRedDict];
   VTuple [VTuple [VInt 1; VLoc 7]]; VTuple [VInt 1; VLoc 7]; VType cReduce; VType cRedList; VType cRedDict; VStr NEWOBJ; VNone;
   VInt 1; VInt 3; VInt 5; VStr (u "z")].
Lemma reduced_2 : exists i, hget H_pr 2 = Some (OInst i) /\
  reduced W_pr K_pr H_pr 2 i (VType cReduce) [VLoc 7; VInt 5] (CCall (VType cReduce)) (VLoc 8) VNone [] VNone [].
Proof.
  eexists. split; [reflexivity|]. constructor; try reflexivity; try (constructor; fail).
  - exists [VType cReduce; VTuple [VLoc 7; VInt 5]; VLoc 8]. split; [reflexivity|]. split; [discriminate|reflexivity].
  - apply mk_call; [left; exists cReduce; split; [reflexivity|vm_compute; discriminate]|reflexivity].
  - eapply su_dict; try reflexivity; [discriminate|left; reflexivity].
Qed.
Lemma reduced_5 : exists i, hget H_pr 5 = Some (OInst i) /\
  reduced W_pr K_pr H_pr 5 i (VFun 2) [VType cRedList] (fun a => CNew (tl a) []) VNone (VTuple [VLoc 7; VLoc 2]) [VLoc 7; VLoc 2] VNone [].
Proof.
  eexists. split; [reflexivity|]. constructor; try reflexivity; try (constructor; fail).
  - exists [VFun 2; VTuple [VType cRedList]; VNone; VTuple [VLoc 7; VLoc 2]]. split; [reflexivity|]. split; [discriminate|reflexivity].
  - apply mk_newobj; reflexivity.
  - apply su_none; [reflexivity|]. intros l i E. discriminate E.
  - apply li_some. left. reflexivity.
Qed.
Lemma reduced_6 : exists i, hget H_pr 6 = Some (OInst i) /\
  reduced W_pr K_pr H_pr 6 i (VFun 2) [VType cRedDict] (fun a => CNew (tl a) []) VNone VNone [] (VTuple [VTuple [VInt 1; VLoc 7]]) [(VInt 1, VLoc 7)].
Proof.
  eexists. split; [reflexivity|]. constructor; try reflexivity; try (constructor; fail).
  - exists [VFun 2; VTuple [VType cRedDict]; VNone; VNone; VTuple [VTuple [VInt 1; VLoc 7]]]. split; [reflexivity|]. split; [discriminate|reflexivity].
  - apply mk_newobj; reflexivity.
  - apply su_none; [reflexivity|]. intros l i E. discriminate E.
  - apply (di_some _ _ _ [(VInt 1, VLoc 7)]); reflexivity.
Qed.
Lemma handled_4 : exists i, hget H_pr 4 = Some (OInst i) /\ handled W_pr 4 i 0 [VStr (u "made")] [VLoc 7].
Proof.
  eexists. split; [reflexivity|]. split; [reflexivity|]. split; [reflexivity|]. split; [reflexivity|]. split; [reflexivity|].
  exists (fun js => [(u "v", nth 0 js JNull)]). split.
  - intros ctx. apply af_val; [discriminate|]. intros j. apply (af_done _ _ (fun js => JObj [(OBJECT, JStr _); (u "v", j)])).
  - intros js L J. destruct js as [|j [|j2 js]]; try discriminate L. cbn [forallb] in J. apply andb_true_iff in J. destruct J as [J _].
    split; [|split].
    + cbn [jwf forallb map fst snd nth]. rewrite J. vm_compute. reflexivity.
    + intros a [<-|[]] I. cbn [In] in I. repeat (destruct I as [I|I]; [vm_compute in I; discriminate I|]). exact I.
    + intros ctx. apply ar_val; [discriminate|]. intros v' _. apply (ar_done _ _ (fun vs => VStr (u "made") :: v' :: vs)).
Qed.
Lemma class_ok_Wpr c n kws : str_ok (importable_name (w_cls W_pr c)) = true ->
  loadclass W_pr [] (JStr (importable_name (w_cls W_pr c))) = Ret (VType c) -> c_isfun (w_cls W_pr c) = false ->
  reg_lookup (w_sub W_pr) (w_reg W_pr) c (importable_name (w_cls W_pr c)) = None -> class_ok W_pr [] c n kws.
Proof. intros A B C D. split; [exact A|]. split; [exact B|]. split; [exact D|]. split; [exact C|]. reflexivity. Qed.
Lemma shapes_pr : forall l, In (VLoc l) all_pr -> exists cs, shape W_pr K_pr false [] H_pr l cs /\ incl cs all_pr.
Proof.
  intros l I. unfold all_pr in I. rewrite in_app_iff in I. destruct I as [I|I].
  2: { exfalso. cbn [In] in I. repeat (destruct I as [I|I]; [discriminate|]). exact I. }
  apply in_map_iff in I. destruct I as (x & E & I). injection E as ->.
  repeat (destruct I as [<-|I]); [..|destruct I].
  - eexists. split; [eapply sh_list; reflexivity|incl_tac].
  - eexists. split; [eapply (sh_tuple W_pr K_pr false [] H_pr 1) with (kw := []); try reflexivity; [|left; reflexivity|left; reflexivity|apply ct_newargs; reflexivity|discriminate|]|incl_tac].
    + apply class_ok_Wpr; vm_compute; reflexivity.
    + intros x [<-|[<-|[]]]; (split; [eexists; split; [|apply wi_refl]; cbn; auto|]); intros m X; inversion X; subst; discriminate.
  - destruct reduced_2 as (i & G & RD). eexists. split; [eapply sh_reduce; eauto|incl_tac].
  - destruct handled_4 as (i & G & HA). eexists. split; [eapply sh_handled; eauto|incl_tac].
    cbn in G. injection G as <-. vm_compute. reflexivity.
  - destruct reduced_5 as (i & G & RD). eexists. split; [eapply sh_reduce; eauto|incl_tac].
  - destruct reduced_6 as (i & G & RD). eexists. split; [eapply sh_reduce; eauto|incl_tac].
  - eexists. split; [eapply sh_list; reflexivity|incl_tac].
  - eexists. split; [eapply sh_dict; [reflexivity|dok|ook]|incl_tac].
Qed.
Lemma closed_pr : closed W_pr K_pr false [] H_pr all_pr.
Proof.
  intros x I. destruct x; auto; [|apply shapes_pr; auto].
  apply in_app_or in I. destruct I as [I|I]; [apply in_map_iff in I; destruct I as (? & ? & _); discriminate|].
  cbn [In] in I. repeat (destruct I as [I|I]; [try discriminate I; injection I as <-; incl_tac|]). destruct I.
Qed.
(** What the list, the instance at 2 and the dict are made of, and nothing else. *)
Definition low_pr : list val := [VLoc 7; VLoc 8; VInt 1; VInt 3; VInt 5; VStr (u "z"); VNone; VStr NEWOBJ; VType cReduce; VType cRedList; VType cRedDict;
  VTuple [VLoc 7; VInt 3]; VTuple [VLoc 7; VInt 5]; VTuple [VType cRedList]; VTuple [VType cRedDict]; VTuple [VTuple [VInt 1; VLoc 7]]; VTuple [VInt 1; VLoc 7]].
Lemma closed_low : closed W_pr K_pr false [] H_pr low_pr.
Proof.
  intros x I. cbn [In low_pr] in I. repeat (destruct I as [<-|I]; [try exact Logic.I; try incl_tac|]); [| |destruct I].
  - eexists. split; [eapply sh_list; reflexivity|incl_tac].
  - eexists. split; [eapply sh_dict; [reflexivity|dok|ook]|incl_tac].
Qed.
Lemma closed_mid : closed W_pr K_pr false [] H_pr (VLoc 2 :: VTuple [VLoc 7; VLoc 2] :: low_pr).
Proof.
  intros x [<-|[<-|I]].
  - destruct reduced_2 as (i & G & RD). eexists. split; [eapply sh_reduce; eauto|incl_tac].
  - incl_tac.
  - pose proof (closed_low x I) as X. destruct x; auto; [intros y Iy; right; right; apply X; exact Iy|].
    destruct X as (cs & S1 & S2). exists cs. split; auto. intros y Iy. right. right. apply S2. exact Iy.
Qed.
Lemma early_pr l x : In (VLoc l) all_pr -> early W_pr K_pr H_pr l x ->
  In x low_pr /\ In l [1; 2; 4; 5; 6] \/ In x (VLoc 2 :: VTuple [VLoc 7; VLoc 2] :: low_pr) /\ l = 5.
Proof.
  intros I E. unfold all_pr in I. rewrite in_app_iff in I. destruct I as [I|I].
  2: { exfalso. cbn [In] in I. repeat (destruct I as [I|I]; [discriminate|]). exact I. }
  apply in_map_iff in I. destruct I as (y & Ey & I). injection Ey as ->.
  assert (RE : forall i f args mkrec st li xs di d, hget H_pr l = Some (OInst i) -> reduced W_pr K_pr H_pr l i f args mkrec st li xs di d ->
    exists rl, k_reduce K_pr l = Ret (RTup rl) /\ rl ++ repeat VNone (6 - length rl) = [f; VTuple args; st; li; di; VNone]).
  { intros i f args mkrec st li xs di d _ RD. destruct (rd_val _ _ _ _ _ _ _ _ _ _ _ _ _ RD) as (rl & R1 & _ & R2). eauto. }
  inversion E as [l0 i cs args kw x0 G OR C Ix El Ex|l0 i st G OR OS S El Ex|l0 i hd pre vs x0 G HA Ix El Ex|l0 i f args mkrec st li xs di d x0 G RD Ix El Ex]; subst.
  - repeat (destruct I as [<-|I]); [..|destruct I]; cbn in G; try discriminate G; injection G as <-; cbn [i_cls] in C;
    destruct C as [E1 E2 E3|a E1 E2 E3 E4|a kd d kw E1 E2 E3|a E1 E2 E3 E4]; try (vm_compute in E1; discriminate E1); try (vm_compute in E2; discriminate E2); try (vm_compute in E3; discriminate E3); try (destruct Ix; fail).
    cbn in E4. injection E4 as <-. destruct Ix as [<-|[]]. left. split; cbn; auto 20.
  - destruct OS as (O1 & _). repeat (destruct I as [<-|I]); [..|destruct I]; cbn in G; try discriminate G; injection G as <-; vm_compute in O1; discriminate O1.
  - destruct HA as (_ & HR & HA). repeat (destruct I as [<-|I]); [..|destruct I]; cbn in G; try discriminate G; injection G as <-; try (vm_compute in HR; discriminate HR).
    destruct HA as (_ & _ & mk & HF & _). specialize (HF None).
    inversion HF as [m2|v vs2 m2 kk N2 HF2|]; subst. specialize (HF2 JNull). inversion HF2; subst. destruct Ix as [<-|[]]. left. split; cbn; auto 10.
  - destruct (RE _ _ _ _ _ _ _ _ _ G RD) as (rl & R1 & R2). clear RE RD.
    repeat (destruct I as [<-|I]); [..|destruct I]; cbn in G; try discriminate G; cbn in R1; try discriminate R1; injection R1 as <-; cbn in R2; injection R2 as <- <- <- <- <-;
      [left|right|left]; (split; [|cbn; auto 10]); cbn [In fun_doc W_pr sample_world w_fun] in Ix;
      repeat (destruct Ix as [<-|Ix]; [vm_compute; auto 25|]); destruct Ix.
Qed.
Lemma supported_pr : supported W_pr K_pr false [] H_pr (VLoc 0).
Proof.
  apply (closed_supported W_pr K_pr false [] H_pr all_pr); [exact closed_pr|left; reflexivity|].
  intros x I. destruct x; try exact Logic.I;
    try (apply in_app_or in I; destruct I as [I|I]; [apply in_map_iff in I; destruct I as (? & ? & _); discriminate|];
         cbn [In] in I; repeat (destruct I as [I|I]; [try discriminate I; injection I as <-; vm_compute; auto|]); destruct I).
  split.
  - destruct (shapes_pr l I) as (cs & S & _). eauto.
  - intros x E R. destruct (early_pr l x I E) as [[Ix Il]|[Ix ->]].
    + pose proof (closed_reach _ _ _ _ _ _ _ _ closed_low Ix R) as X. cbn [In low_pr] in X.
      repeat (destruct X as [X|X]; [try discriminate X; injection X as <-; cbn in Il; repeat (destruct Il as [Il|Il]; [discriminate Il|]); exact Il|]). exact X.
    + pose proof (closed_reach _ _ _ _ _ _ _ _ closed_mid Ix R) as X. cbn [In low_pr] in X.
      repeat (destruct X as [X|X]; [discriminate X|]). exact X.
Qed.
Lemma finite_pr : finite_graph W_pr K_pr PO H_pr 3 0.
Proof.
  destruct (finite_sample PO H_pr 3 eq_refl ltac:(lia) ltac:(vm_compute; reflexivity)) as [F1 F2 F3 F4 F5 F6 F7 F8 F9 F10 F11 F12 F13 F14 F15].
  constructor; auto.
  - intros l x E. cbn in E. destruct (l =? 1); injection E as <-; split; vm_compute; auto.
  - intros l x E. cbn in E. destruct (l =? 2); [|destruct (l =? 5); [|destruct (l =? 6)]]; try discriminate E; injection E as <-;
      repeat (apply Forall_cons; [split; vm_compute; auto|]); constructor.
  - destruct F12 as (R1 & R2 & R3 & R4 & R5 & R6 & R7 & R8 & R9 & R10 & R11). repeat split; auto.
    all: intros l; cbn; try (destruct (l =? 1); discriminate).
    destruct (l =? 2); [discriminate|]. destruct (l =? 5); [discriminate|]. destruct (l =? 6); discriminate.
  - intros hd ctx l ob. cbn. split; [auto|]. split; [split; vm_compute; auto|auto].
Qed.
Example C30_case : rt_case W_pr K_pr PO UO None H_pr 3 0 (VLoc 0) /\
  before W_pr K_pr H_pr (VLoc 0) [PIdx 1] = Some (VLoc 2) /\ before W_pr K_pr H_pr (VLoc 0) [PIdx 2] = Some (VLoc 4) /\
  show (enc W_pr K_pr PO 20 H_pr (VLoc 0)) =
  Ret "[{""py/object"": ""m.Point"", ""py/newargs"": {""py/tuple"": [[1], 3]}, ""py/seq"": [{""py/id"": 2}, 3]}, {""py/reduce"": [{""py/type"": ""m.Red""}, {""py/tuple"": [{""py/id"": 2}, 5]}, {""z"": {""py/id"": 2}}]}, {""py/object"": ""m.Handled"", ""v"": {""py/id"": 2}}, {""py/reduce"": [""py/newobj"", {""py/tuple"": [{""py/type"": ""m.RedList""}]}, null, {""py/tuple"": [{""py/id"": 2}, {""py/id"": 3}]}]}, {""py/reduce"": [""py/newobj"", {""py/tuple"": [{""py/type"": ""m.RedDict""}]}, null, null, {""py/tuple"": [{""py/tuple"": [1, {""py/id"": 2}]}]}]}, {""py/id"": 2}, {""py/id"": 1}, {""py/id"": 3}, {""py/id"": 5}]"%string.
Proof.
  split; [split; [repeat split|]; split; [exact supported_pr|]; split; [exact finite_pr|]; split; vm_compute; auto|].
  split; [reflexivity|]. split; [reflexivity|]. vm_compute. reflexivity.
Qed.

(** C31 is false for [__getnewargs_ex__] giving no keyword arguments, or together with
    [__getinitargs__]: the empty dict has a reference number in the document and none in
    the decoder, so later references go wrong. *)
Definition K_ex : hooks :=
  {| k_reduce := k_reduce K0; k_getstate := k_getstate K0; k_newargs := k_newargs K0;
     k_newargs_ex := fun _ => Ret [VTuple [VInt 1]; VLoc 3];
     k_initargs := k_initargs K0; k_iter := k_iter K0; k_attr := k_attr K0; k_dir := k_dir K0;
     k_props := k_props K0; k_eqdict := k_eqdict K0; k_members := k_members K0; k_repr := k_repr K0; k_str := k_str K0; k_call0 := k_call0 K0 |}.
Definition H_ex : heap :=
  [ OList [VLoc 1; VLoc 4; VLoc 5; VLoc 4]; plain_inst cNewEx 2; ODict []; ODict []; OList [VInt 1]; OList [VInt 2] ].
Theorem C31_empty_keywords_refuted :
  exists w k h l text v t, enc w k PO 20 h (VLoc l) = Ret text /\ dec w UO 30 text = (Ret v, t) /\
    before w k h (VLoc l) [PIdx 1] = before w k h (VLoc l) [PIdx 3] /\
    before w k h (VLoc l) [PIdx 1; PIdx 0] = Some (VInt 1) /\
    after w (u_heap t) v [PIdx 3] = after w (u_heap t) v [PIdx 2] /\
    after w (u_heap t) v [PIdx 3; PIdx 0] = Some (VInt 2).
Proof.
  exists W0, K_ex, H_ex, 0. eexists. eexists. eexists. split; [vm_compute; reflexivity|]. split; [vm_compute; reflexivity|].
  vm_compute. auto.
Qed.
Print Assumptions C31_empty_keywords_refuted.
Example C31_case : exists cs args kw i, hget H_pr 1 = Some (OInst i) /\ ctor K_pr H_pr (w_cls W_pr (i_cls i)) 1 cs args kw /\
  c_kind (w_cls W_pr (i_cls i)) = KTuple /\ i_elems i = args /\ ordinary W_pr K_pr 1 i.
Proof.
  eexists. eexists. eexists. eexists. split; [reflexivity|]. split; [apply ct_newargs; reflexivity|]. split; [reflexivity|].
  split; [reflexivity|]. split; [reflexivity|left; reflexivity].
Qed.
