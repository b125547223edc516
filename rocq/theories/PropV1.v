(** C68: documents of version 1, read with v1_decode=True. *)
From Verif Require Import PyStr Tags Json JsonText JsonTextProofs Base Heap Registry LoadClass Pickler Unpickler SpecGraph SpecPlain SpecHoles SpecLack SpecV1.
From Verif Require Import PlainProofs RTProps LackProofs V1Proofs PropLack Samples.
From Coq Require Import List Lia. Import ListNotations.
Open Scope nat_scope.

(** C68.  j1 is the version 1 form of the document j: dicts take no number in it.  Reading j1 with
    v1_decode=True has the same result as reading j without: the same value, the same heap, the same
    sequence of imports and calls, whatever was in the process before. *)
Theorem C68_old :
  forall w uo classes j j1 K, uo_keys uo = false -> old_form w (class_table w classes) [] j j1 K ->
  exists m0, forall m t, m0 <= m ->
    decode w (with_v1 true uo) m classes (dumps j1) t = decode w (with_v1 false uo) m classes (dumps j) t /\
    exists x, fst (decode w (with_v1 false uo) m classes (dumps j) t) = Ret x.
Proof.
  intros w uo classes j j1 K Uk F. set (cl := class_table w classes) in *. destruct (proj1 (all_go w cl uo Uk) _ _ _ _ F) as (J & J1 & N & H).
  exists N. intros m t L. set (t0 := mkUst (u_heap t) [] [] (u_prox t) [] cl (u_log t)).
  assert (S0 : sr cl [] t0 t0). { constructor; auto; try (intros x n []); intros x []. }
  destruct (H m L t0 t0 S0) as (v & s1 & s2 & R1 & R2 & _ & S & _).
  assert (X : forall b i s, jwf i = true -> restore w (with_v1 b uo) m i t0 = (Ret v, s) -> u_swaps s = [] ->
    decode w (with_v1 b uo) m classes (dumps i) t = (Ret v, mkUst (u_heap s) [] [] (u_prox s) [] [] (u_log s))).
  { intros b i s Wi Rs Sw. unfold decode. rewrite loads_dumps by exact Wi. rewrite (bind_eq _ _ t v (us_swaps [] s)); [reflexivity|].
    unfold unpickle. rewrite (bind_eq _ _ t tt (mkUst (u_heap t) [] [] (u_prox t) [] [] (u_log t))) by reflexivity.
    rewrite (bind_eq _ _ _ tt t0) by (unfold t0, cl, class_table; destruct classes; reflexivity).
    rewrite (bind_eq _ _ _ _ _ Rs). rewrite (bind_eq _ _ s tt (us_swaps [] s)); [reflexivity|].
    unfold swap_proxies. rewrite (bind_eq _ _ s [] s); [reflexivity|]. unfold gets. rewrite Sw. reflexivity. }
  rewrite (X true j1 s1 J1 R1 (sr_sw1 _ _ _ _ S)), (X false j s2 J R2 (sr_sw2 _ _ _ _ S)).
  rewrite (sr_heap _ _ _ _ S), (sr_prox _ _ _ _ S), (sr_log _ _ _ _ S). split; auto. exists v. reflexivity.
Qed.
Print Assumptions C68_old.

(** For a graph: if the text that encode makes has a version 1 form (no dict is referred to), decoding the
    form with v1_decode=True gives a copy of the graph. *)
Theorem C68_graph :
  forall w k po uo classes h ok v,
  po_unpicklable po = true -> po_make_refs po = true -> po_max_depth po = None -> po_props po = false ->
  po_readonly po = false -> po_sort po = false -> po_keys po = false ->
  uo_keys uo = false -> uo_missing uo <> MError -> (forall f n, uo_missing uo = MCall f -> f n = None) ->
  lacking w w (class_table w classes) h ok -> ok v ->
  exists text n0,
    (forall n s, n0 <= n -> p_heap s = h -> exists s', encode w k po n v s = (Ret text, s')) /\
    forall j j1 K, text = dumps j -> old_form w (class_table w classes) [] j j1 K ->
      exists m0, forall m t, m0 <= m -> exists x t', decode w (with_v1 true uo) m classes (dumps j1) t = (Ret x, t') /\
        copy_lacking w w (class_table w classes) h (u_heap t') (length (u_heap t)) v x.
Proof.
  intros w k po uo classes h ok v O1 O2 O3 O4 O5 O6 Ok U1 U3 U4 L V.
  destruct (C49_references w w k po (with_v1 false uo) classes h ok v O1 O2 O3 O4 O5 O6 Ok U1 eq_refl U3 U4 L V) as (text & n0 & m1 & E & D).
  exists text, n0. split; auto. intros j j1 K -> F. destruct (C68_old w uo classes j j1 K U1 F) as (m2 & H). exists (Nat.max m1 m2). intros m t Lm.
  destruct (H m t ltac:(lia)) as (-> & _). apply D. lia.
Qed.
Print Assumptions C68_graph.

(** x = [d, l, n, l, n], d = {"k": l2}, n.p = l *)
Definition H_old : heap :=
  [ OList [VLoc 1; VLoc 2; VLoc 3; VLoc 2; VLoc 3]; ODict [(VStr (u "k"), VTuple [VInt 7; VStr (u "s")])];
    OList [VInt 1]; plain_inst cOther 4; ODict [(VStr (u "p"), VLoc 2); (VStr (u "q"), VLoc 5)]; OSet [VInt 1] ].
Definition ref (n : nat) : json := JObj [(u "py/id", JInt (Z.of_nat n))].
Definition doc_with (l n l' : json) : json :=
  JList [ JObj [(u "k", JObj [(u "py/tuple", JList [JInt 7; JStr (u "s")])])]; JList [JInt 1];
          JObj [(u "py/object", JStr (u "m.Other")); (u "p", l'); (u "q", JObj [(u "py/set", JList [JInt 1])])]; l; n ].
Definition old_text : pystr := dumps (doc_with (ref 1) (ref 2) (ref 1)).
Definition new_text : pystr := dumps (doc_with (ref 2) (ref 3) (ref 2)).
Definition ok_old (v : val) : Prop :=
  In v [VLoc 0; VLoc 1; VLoc 2; VLoc 3; VLoc 5; VTuple [VInt 7; VStr (u "s")]; VInt 1; VInt 7; VStr (u "s")].
Lemma old_graph : lacking W0 W0 (class_table W0 None) H_old ok_old.
Proof.
  assert (F : found W0 W0 [] cOther) by (constructor; vm_compute; reflexivity).
  intros v V. unfold ok_old in V. cbn [In] in V. repeat (destruct V as [<-|V]; [try exact Logic.I|]); [..|destruct V].
  - eexists. split; [reflexivity|]. apply Forall_forall. intros x V. unfold ok_old. cbn [In] in *. tauto.
  - eexists. split; [reflexivity|]. split; [repeat constructor; intros []|]. intros kv [<-|[]]. cbn [fst snd].
    split; [unfold ok_old; cbn [In]; tauto|]. split; [eexists; split; [reflexivity|vm_compute; reflexivity]|]. intros l i [=].
  - eexists. split; [reflexivity|]. apply Forall_forall. intros x V. unfold ok_old. cbn [In] in *. tauto.
  - eexists. split; [reflexivity|]. split; [constructor; reflexivity|]. split; [vm_compute; reflexivity|]. exists 4. eexists. split; [reflexivity|]. split; [reflexivity|]. split.
    + split.
      * cbn [map fst]. constructor; [intros [X|[]]; apply (f_equal (fun v => match v with VStr s => s | _ => [] end)) in X; vm_compute in X; discriminate X|].
        constructor; [intros []|constructor].
      * intros kv [<-|[<-|[]]]; cbn [fst snd].
        all: (split; [unfold ok_old; cbn [In]; tauto|]; split; [eexists; split; [reflexivity|vm_compute; reflexivity]|]; intros l i [= <-] [=]).
    + left. split; [exact F|]. intros a v [X|[X|[]]]; apply (f_equal fst) in X; apply (f_equal (fun v => match v with VStr s => s | _ => [] end)) in X; cbn [fst] in X; subst a; vm_compute; auto.
  - eexists. split; [reflexivity|]. split; [|split; vm_compute; reflexivity]. apply Forall_forall. intros x V. unfold ok_old. cbn [In] in *. tauto.
  - apply Forall_forall. intros x V. unfold ok_old. cbn [In] in *. tauto.
  - vm_compute. reflexivity.
Qed.
Example C68_case :
  lacking W0 W0 (class_table W0 None) H_old ok_old /\ ok_old (VLoc 0) /\
  enc W0 K0 PO 20 H_old (VLoc 0) = Ret new_text /\
  old_form W0 (class_table W0 None) [] (doc_with (ref 2) (ref 3) (ref 2)) (doc_with (ref 1) (ref 2) (ref 1)) [false; true; false; false] /\
  show (Ret old_text) =
    Ret "[{""k"": {""py/tuple"": [7, ""s""]}}, [1], {""py/object"": ""m.Other"", ""p"": {""py/id"": 1}, ""q"": {""py/set"": [1]}}, {""py/id"": 1}, {""py/id"": 2}]"%string.
Proof.
  assert (F : found W0 W0 [] cOther) by (constructor; vm_compute; reflexivity).
  split; [apply old_graph|]. split; [left; reflexivity|]. split; [vm_compute; reflexivity|]. split; [|vm_compute; reflexivity].
  apply of_list. cbn [app]. eapply os_cons.
  { apply of_dict; [repeat constructor; intros []|intros a [<-|[]]; vm_compute; reflexivity|]. cbn [app]. eapply od_cons; [|apply od_nil].
    eapply of_value. vm_compute. reflexivity. }
  eapply os_cons. { apply of_list. cbn [app]. eapply os_cons; [eapply of_value; reflexivity|apply os_nil]. }
  eapply os_cons.
  { apply (of_inst W0 [] _ cOther); [vm_compute; reflexivity|exact F| | |].
    - cbn [map fst]. constructor; [intros [X|[]]; vm_compute in X; discriminate X|]. constructor; [intros []|constructor].
    - intros a [<-|[<-|[]]]; vm_compute; auto.
    - cbn [app]. eapply od_cons; [apply (of_ref W0 [] [false; true; false; false] 2); reflexivity|].
      eapply od_cons; [|apply od_nil]. apply of_set. constructor; [eexists; reflexivity|constructor]. }
  eapply os_cons; [apply (of_ref W0 [] [false; true; false; false] 2); reflexivity|].
  eapply os_cons; [apply (of_ref W0 [] [false; true; false; false] 3); reflexivity|]. apply os_nil.
Qed.

(** The flag has to fit the document: the text that encode makes, read with v1_decode=True, and the version 1 text read
    without it, are decoded without an error to a graph with other references. *)
Theorem C68_current_refuted :
  exists w k po uo h ok v text x t',
    lacking w w (class_table w None) h ok /\ ok v /\ enc w k po 20 h v = Ret text /\
    decode w (with_v1 true uo) 20 None text (new_unpickler []) = (Ret x, t') /\
    ~ copy_lacking w w (class_table w None) h (u_heap t') 0 v x.
Proof.
  exists W0, K0, PO, UO, H_old, ok_old, (VLoc 0), new_text. do 2 eexists. split; [apply old_graph|]. split; [left; reflexivity|]. split; [vm_compute; reflexivity|].
  split; [vm_compute; reflexivity|]. cbn [u_heap]. intros (R & F & _ & S & M).
  inversion M as [| |l l' vs vs' G|l l' vs G|l l' r]; subst; [discriminate|discriminate G|discriminate G|].
  destruct (S _ _ r) as (_ & X). vm_compute in X.
  repeat match goal with H : Forall2 _ (_ :: _) (_ :: _) |- _ => inversion H; clear H; subst end.
  repeat match goal with H : vmatch _ _ _ _ (VLoc _) (VLoc _) |- _ => inversion H; clear H; subst; try discriminate end.
  match goal with A : R 2 2, B : R 2 4 |- _ => discriminate (F _ _ _ A B) end.
Qed.
Print Assumptions C68_current_refuted.
