(** C58: documents without references. *)
From Verif Require Import PyStr Tags Json JsonText JsonTextProofs Base Heap Registry LoadClass Pickler Unpickler SpecJson SpecDepth SpecGraph SpecPlain SpecRefs SpecFail SpecHoles SpecLack SpecUnfold.
From Verif Require Import RTBase Samples PropEncode PropLimits HolesProofs CleanProofs LackProofs PropLack UnfoldProofs UnfoldDecode.
From Coq Require Import List Lia. Import ListNotations.
Open Scope nat_scope.

(** With make_refs=False (and with unpicklable=False) a graph without cycles is written with every object in
    full wherever it occurs. *)
Theorem C58_document :
  forall w k po h ok v,
  po_make_refs po = false \/ po_unpicklable po = false -> po_max_depth po = None -> po_props po = false ->
  po_readonly po = false -> po_sort po = false -> po_keys po = false ->
  clean w k None h ok -> (forall l j, ok (VLoc l) -> ~ hole w k None h l j) -> acyclic h ok -> ok v ->
  exists j n0, spelled w (po_unpicklable po) h v j /\
    forall n s, n0 <= n -> p_heap s = h -> exists s', encode w k po n v s = (Ret (dumps j), s').
Proof.
  intros w k po h ok v O1 O3 O4 O5 O6 O7 Cl NH Ac V.
  destruct (acyclic_spelled w k (po_unpicklable po) h ok Cl NH Ac v V) as (j & Sp).
  destruct (encode_spelled w k po h ltac:(destruct O1 as [-> | ->]; [apply Bool.andb_false_r|reflexivity]) O3 O4 O5 O7 O6 v j Sp) as (N & E).
  exists j, N. split; auto. intros n s Ln Es. destruct (E n s Ln Es) as (s' & X & _). eauto.
Qed.
Print Assumptions C58_document.

Lemma lacking_no_hole w w' k cl h ok : lacking w w' cl h ok -> forall l j, ok (VLoc l) -> ~ hole w k None h l j.
Proof.
  intros L l j O Ho. destruct (L _ O) as (ob & G & C).
  destruct Ho as [i e f j G2 _ _ [=] _|i hd G2 X _|i e G2 _ _ _ _ _ X _ _|c args [(i & G2 & _ & X) _ _]]; rewrite G in G2; injection G2 as ->;
    destruct C as ([A1 A2 A3 A4 A5 A6 A7 A8 A9] & _); congruence.
Qed.

(** With make_refs=False decode gives the data of the graph: one new object for each occurrence of an object, no two
    of them the same. *)
Theorem C58_decode :
  forall w w' k po uo classes h ok v,
  po_unpicklable po = true -> po_make_refs po = false -> po_max_depth po = None -> po_props po = false ->
  po_readonly po = false -> po_sort po = false -> po_keys po = false ->
  uo_keys uo = false -> uo_v1 uo = false -> uo_missing uo <> MError -> (forall f n, uo_missing uo = MCall f -> f n = None) ->
  lacking w w' (class_table w' classes) h ok ->
  (forall l i, ok (VLoc l) -> hget h l = Some (OInst i) -> found w w' (class_table w' classes) (i_cls i)) ->
  acyclic h ok -> ok v ->
  exists text n0 m0,
    (forall n s, n0 <= n -> p_heap s = h -> exists s', encode w k po n v s = (Ret text, s')) /\
    forall m t, m0 <= m -> exists x t' ls, decode w' uo m classes text t = (Ret x, t') /\
      unfolded h (u_heap t') v x ls /\ NoDup ls /\ (forall l, In l ls -> length (u_heap t) <= l).
Proof.
  intros w w' k po uo classes h ok v O1 O2 O3 O4 O5 O6 Ok U1 U2 U3 U4 L Fd Ac V. set (cl := class_table w' classes) in *.
  destruct (C58_document w k po h ok v (or_introl O2) O3 O4 O5 O6 Ok (lacking_clean w w' k None cl h ok L) (lacking_no_hole w w' k cl h ok L) Ac V) as (j & n0 & Sp & E).
  rewrite O1 in Sp. destruct (proj1 (all_make w k None h) _ _ Sp []) as (hu & vu & e & _ & _ & ND & H).
  destruct (H hu (grows_refl hu)) as (U & _ & _ & W). specialize (W [] ltac:(intros l [])). cbn [app] in W.
  assert (Lu : lacking w w' cl hu (ok_u h hu ok)) by (apply lacking_unfolded; auto).
  assert (Vu : ok_u h hu ok vu) by (exists v, e; auto).
  destruct (C49_references w w' k PO uo classes hu (ok_u h hu ok) vu eq_refl eq_refl eq_refl eq_refl eq_refl eq_refl eq_refl U1 U2 U3 U4 Lu Vu) as (text & n1 & m0 & T1 & T2).
  destruct (encode_written w k PO hu eq_refl eq_refl eq_refl eq_refl eq_refl eq_refl eq_refl vu j e W) as (N2 & E2).
  assert (text = dumps j) as ->.
  { destruct (T1 (Nat.max N2 n1) (new_pickler hu) ltac:(lia) eq_refl) as (s1 & X1). destruct (E2 (Nat.max N2 n1) (new_pickler hu) ltac:(lia) eq_refl) as (s2 & X2 & _). congruence. }
  exists (dumps j), n0, m0. split; [exact E|]. intros m t Lm. destruct (T2 m t Lm) as (x & t' & D & R & _ & Ri & Rs & M). fold cl in Rs.
  destruct (proj1 (copy_unfolded w w' cl h hu (u_heap t') (length (u_heap t)) R Rs ok L Fd) _ _ _ U V x M) as (ls & U' & F).
  destruct (copies_distinct w w' cl hu (u_heap t') (length (u_heap t)) R Rs Ri e ls F ND) as (N1 & N2'). exists x, t', ls. auto.
Qed.
Print Assumptions C58_decode.

(** Where the document has no reference anyway, make_refs=False changes nothing. *)
Lemma no_refs w k h : (forall l j, ~ hole w k None h l j) ->
  (forall tab v j tab', written w k None h tab v j tab' -> (forall z, ~ occurs false z j) -> spelled w true h v j) /\
  (forall tab vs js tab', writtens w k None h tab vs js tab' -> (forall j z, In j js -> ~ occurs false z j) -> spelleds w true h vs js) /\
  (forall tab d ob tab', fields_written w k None h tab d ob tab' -> (forall a j z, In (a, j) ob -> ~ occurs false z j) -> spelled_fields w true h d ob).
Proof.
  intros NH. apply written_mutind; try (intros; constructor; fail).
  - intros tab vs js tab' _ IH N. apply (sp_tuple w true h). apply IH. intros j z I Oc. apply (N z). eapply oc_value; [left; reflexivity|]. eapply oc_list; eauto.
  - intros tab l vs js tab' G _ IH N. apply (sp_set w true h l vs js G). apply IH. intros j z I Oc. apply (N z). eapply oc_value; [left; reflexivity|]. eapply oc_list; eauto.
  - intros tab l i ob G _ _ _ _ N. destruct (N (Z.of_nat i)). constructor.
  - intros tab l vs js tab' _ G _ IH N. apply (sp_list w true h l vs js G). apply IH. intros j z I Oc. apply (N z). eapply oc_list; eauto.
  - intros tab l d ob tab' _ G _ IH N. apply (sp_dict w true h l d ob G). apply IH. intros a j z I Oc. apply (N z). eapply oc_value; eauto.
  - intros tab l i dl d ob tab' _ G P Gi Gd _ IH N. apply (sp_inst w true h l i dl d ob G P Gi Gd). apply IH. intros a j z I Oc. apply (N z). eapply oc_value; [right; eauto|auto].
  - intros tab l j _ Ho. destruct (NH _ _ Ho).
  - intros tab v j tab1 vs js tab2 _ IH1 _ IH2 N. constructor; [apply IH1; intros z; apply N; left; reflexivity|apply IH2; intros; apply N; right; auto].
  - intros tab a v j tab1 d ob tab2 A1 A2 A3 A4 _ IH1 _ IH2 N. constructor; auto; [apply IH1; intros z; eapply N; left; reflexivity|apply IH2; intros a0 j0 z I; eapply N; right; eauto].
Qed.
Theorem C58_same_text :
  forall w k po po' h v j tab,
  po_unpicklable po = true -> po_make_refs po = true -> po_unpicklable po' = true -> po_make_refs po' = false ->
  (forall p, In p [po; po'] -> po_max_depth p = None /\ po_props p = false /\ po_readonly p = false /\ po_sort p = false /\ po_keys p = false /\ po_fail_safe p = None) ->
  (forall l j, ~ hole w k None h l j) ->
  written w k None h [] v j tab -> (forall z, ~ occurs false z j) ->
  exists n0, forall n s, n0 <= n -> p_heap s = h ->
    fst (encode w k po n v s) = Ret (dumps j) /\ fst (encode w k po' n v s) = Ret (dumps j).
Proof.
  intros w k po po' h v j tab O1 O2 O1' O2' O NH W N.
  destruct (O po (or_introl eq_refl)) as (A1 & A2 & A3 & A4 & A5 & A6). destruct (O po' (or_intror (or_introl eq_refl))) as (B1 & B2 & B3 & B4 & B5 & B6).
  rewrite <- A6 in W. destruct (encode_written w k po h O1 O2 A1 A2 A3 A4 A5 v j tab W) as (N1 & E1). rewrite A6 in W.
  pose proof (proj1 (no_refs w k h NH) _ _ _ _ W N) as Sp. rewrite <- O1' in Sp.
  destruct (encode_spelled w k po' h ltac:(rewrite O2'; apply Bool.andb_false_r) B1 B2 B3 B5 B4 v j Sp) as (N2 & E2).
  exists (Nat.max N1 N2). intros n s Ln Es. destruct (E1 n s ltac:(lia) Es) as (s1 & -> & _). destruct (E2 n s ltac:(lia) Es) as (s2 & -> & _). auto.
Qed.
Print Assumptions C58_same_text.

(** x = [a, a, n, (n, {1, "s"})], n.p = a *)
Definition H_un : heap :=
  [ OList [VLoc 1; VLoc 1; VLoc 2; VTuple [VLoc 2; VLoc 4]]; OList [VInt 1];
    plain_inst cOther 3; ODict [(VStr (u "p"), VLoc 1)]; OSet [VInt 1; VStr (u "s")] ].
Definition ok_un (v : val) : Prop := In v [VLoc 0; VLoc 1; VLoc 2; VLoc 4; VTuple [VLoc 2; VLoc 4]; VInt 1; VStr (u "s")].
Definition rank_un (v : val) : nat :=
  match v with VLoc 0 => 4 | VTuple _ => 3 | VLoc 2 => 2 | VLoc 1 | VLoc 4 => 1 | _ => 0 end.
Definition PO_bare : popts :=
  {| po_unpicklable := false; po_make_refs := true; po_keys := false; po_max_depth := None;
     po_warn := false; po_max_iter := None; po_b85 := false; po_fail_safe := None; po_props := false;
     po_readonly := false; po_root := VNone; po_sort := false; po_ctx := None; po_numeric := false |}.
Example C58_case :
  lacking W0 W0 (class_table W0 None) H_un ok_un /\
  (forall l i, ok_un (VLoc l) -> hget H_un l = Some (OInst i) -> found W0 W0 [] (i_cls i)) /\
  acyclic H_un ok_un /\ ok_un (VLoc 0) /\
  show (enc W0 K0 PO_norefs 20 H_un (VLoc 0)) =
    Ret "[[1], [1], {""py/object"": ""m.Other"", ""p"": [1]}, {""py/tuple"": [{""py/object"": ""m.Other"", ""p"": [1]}, {""py/set"": [1, ""s""]}]}]"%string /\
  show (enc W0 K0 PO_bare 20 H_un (VLoc 0)) = Ret "[[1], [1], {""p"": [1]}, [{""p"": [1]}, [1, ""s""]]]"%string.
Proof.
  assert (F : found W0 W0 [] cOther) by (constructor; vm_compute; reflexivity).
  split; [|split; [|split; [|split; [left; reflexivity|split; vm_compute; reflexivity]]]].
  - intros v V. unfold ok_un in V. cbn [In] in V. repeat (destruct V as [<-|V]; [try exact Logic.I|]); [| | | | |vm_compute; reflexivity|destruct V].
    + eexists. split; [reflexivity|]. apply Forall_forall. intros x V. unfold ok_un. cbn [In] in *. tauto.
    + eexists. split; [reflexivity|]. apply Forall_forall. intros x V. unfold ok_un. cbn [In] in *. tauto.
    + eexists. split; [reflexivity|]. split; [constructor; reflexivity|]. split; [vm_compute; reflexivity|]. exists 3. eexists. split; [reflexivity|]. split; [reflexivity|]. split.
      * split; [repeat constructor; intros []|]. intros kv [<-|[]]. cbn [fst snd].
        split; [unfold ok_un; cbn [In]; tauto|]. split; [eexists; split; [reflexivity|vm_compute; reflexivity]|]. intros l i [= <-] [=].
      * left. split; [exact F|]. intros a v [X|[]]. apply (f_equal fst) in X; apply (f_equal (fun v => match v with VStr s => s | _ => [] end)) in X; cbn [fst] in X; subst a; vm_compute; auto.
    + eexists. split; [reflexivity|]. split; [|split; vm_compute; reflexivity]. apply Forall_forall. intros x V. unfold ok_un. cbn [In] in *. tauto.
    + apply Forall_forall. intros x V. unfold ok_un. cbn [In] in *. tauto.
  - intros l i V G. unfold ok_un in V. cbn [In] in V. repeat (destruct V as [E|V]; [try discriminate E; injection E as <-; cbn in G; try discriminate G|]); [|destruct V].
    apply (f_equal (fun o => match o with Some (OInst i) => i_cls i | _ => 0 end)) in G. rewrite <- G. exact F.
  - exists rank_un. intros x y V Hh. unfold ok_un in V. cbn [In] in V.
    repeat (destruct V as [<-|V]; [inversion Hh as [vs v I|l vs v G I|l vs v G I|l d q v G I|l i dl d q v G Gi Gd I]; subst;
      try discriminate G; try (vm_compute in G; injection G as <-; cbn [In] in I)|]); [..|destruct V].
    all: try (cbn [In] in I); try (injection Gi as <-; injection Gd as <-; cbn [In] in I).
    all: repeat (destruct I as [I|I]; [try (apply (f_equal snd) in I; cbn [snd] in I); subst y; cbn; lia|]); destruct I.
Qed.
(** Without acyclicity the claim is false: in a list that contains itself the inner occurrence is written as its repr. *)
Theorem C58_cycle_refuted :
  exists w k po uo h ok v text x t',
    po_make_refs po = false /\ po_unpicklable po = true /\ lacking w w (class_table w None) h ok /\ ok v /\
    fst (encode w k po 20 v (new_pickler h)) = Ret text /\ decode w uo 20 None text (new_unpickler []) = (Ret x, t') /\
    forall ls, ~ unfolded h (u_heap t') v x ls.
Proof.
  exists W0, K0, PO_norefs, UO, H_self, (fun v => v = VLoc 0), (VLoc 0). do 3 eexists. split; [reflexivity|]. split; [reflexivity|]. split; [|split; [reflexivity|]].
  - intros v ->. eexists. split; [reflexivity|]. constructor; auto.
  - split; [vm_compute; reflexivity|]. split; [vm_compute; reflexivity|]. intros ls U. cbn [u_heap] in U.
    inversion U as [| | | | | | |l l' vs vs' ls0 G G2 Us|l l' vs vs' ls0 G G2 Us|l l' d d' ls0 G G2 Us|l l' i i' dl dl' d d' ls0 G G2]; subst; try discriminate G.
    injection G as <-. injection G2 as <-. inversion Us as [|v v' l1 q q' l2 U1 _]; subst. inversion U1.
Qed.
Print Assumptions C58_cycle_refuted.
