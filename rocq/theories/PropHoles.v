(** C21, C33: graphs in which objects are replaced by fail_safe or by null. *)
From Verif Require Import PyStr Tags Json JsonText JsonTextProofs Base Heap Registry LoadClass Pickler Unpickler SpecGraph SpecPlain SpecRefs SpecFail SpecHoles PTerm RTBase RTMain RTProps Samples PropEncode PropRoundtrip PropLimits PropOptions PropFail HolesProofs FillProofs CleanProofs.
From Coq Require Import List. Import ListNotations.
Open Scope nat_scope.

(** encode gives a text, and decode of that text is a copy of the graph (h', v'). *)
Definition decodes_as (w : world) (k : hooks) (po : popts) (uo : uopts) (classes : option carg) (h : heap) (v : val) (h' : heap) (v' : val) : Prop :=
  exists text n0 m0,
    (forall n s, n0 <= n -> p_heap s = h -> exists s', encode w k po n v s = (Ret text, s') /\ p_heap s' = h) /\
    forall m t, m0 <= m -> exists x t', decode w uo m classes text t = (Ret x, t') /\
      is_copy w k (po_keys po) h' (u_heap t') (length (u_heap t)) v' x.

Lemma holes_decode w k po uo classes h dm N v j tab bad :
  po_keys po = false -> written w k (po_fail_safe po) h [] v j tab -> replacements w k (po_fail_safe po) h bad ->
  refs_before bad tab j -> rt_case w k po uo classes (fill_heap bad h) dm N (fill bad v) ->
  decodes_as w k po uo classes h v (fill_heap bad h) (fill bad v).
Proof.
  intros Ok W R B C. pose proof C as ((O1 & O2 & O3 & O4 & O5 & O6 & O7 & O8) & _).
  destruct (encode_written w k po h O1 O2 O3 O4 O5 O6 Ok v j tab W) as (N1 & E1).
  pose proof (proj1 (fill_written w k (po_fail_safe po) h bad R) _ _ _ _ W B) as W2. cbn [filter] in W2.
  destruct (encode_written w k po (fill_heap bad h) O1 O2 O3 O4 O5 O6 Ok _ j _ W2) as (N2 & E2).
  destruct (C01_roundtrip w k po uo classes (fill_heap bad h) dm N (fill bad v) C) as (text & n0 & m0 & E & D).
  assert (T : text = dumps j).
  { destruct (E (Nat.max n0 N2) (new_pickler (fill_heap bad h))) as (s1 & F1 & _); [lia|reflexivity|].
    destruct (E2 (Nat.max n0 N2) (new_pickler (fill_heap bad h))) as (s2 & F2 & _); [lia|reflexivity|]. congruence. }
  subst text. exists (dumps j), N1, m0. split; [exact E1|]. intros m t L. destruct (D m t L) as (x & t' & D1 & D2 & _). eauto.
Qed.

(** C21, C33.  Every graph of lists, dicts with string keys, tuples, sets, classes, plain instances
    and objects that are replaced has a document in which the replacements stand in their
    places; encode writes it.  If no reference in it is to an object numbered after a replaced one,
    decode gives a copy of the graph that has the replacements instead of the objects. *)
Theorem C21_earlier_references :
  forall w k po h ok v, po_unpicklable po = true -> po_make_refs po = true -> po_max_depth po = None -> po_props po = false ->
  po_readonly po = false -> po_sort po = false -> po_keys po = false ->
  clean w k (po_fail_safe po) h ok -> ok v ->
  exists j tab, written w k (po_fail_safe po) h [] v j tab /\
    (exists n0, forall n s, n0 <= n -> p_heap s = h -> exists s', encode w k po n v s = (Ret (dumps j), s')) /\
    forall uo classes dm N bad, replacements w k (po_fail_safe po) h bad -> refs_before bad tab j ->
      rt_case w k po uo classes (fill_heap bad h) dm N (fill bad v) ->
      decodes_as w k po uo classes h v (fill_heap bad h) (fill bad v).
Proof.
  intros w k po h ok v O1 O2 O3 O4 O5 O6 Ok C V. destruct (clean_written w k (po_fail_safe po) h ok C v V) as (j & tab & W).
  exists j, tab. split; auto. split.
  - destruct (encode_written w k po h O1 O2 O3 O4 O5 O6 Ok v j tab W) as (N1 & E1). exists N1. intros n s L E.
    destruct (E1 n s L E) as (s' & E2 & _). eauto.
  - intros uo classes dm N bad R B RT. eapply holes_decode; eauto.
Qed.
Print Assumptions C21_earlier_references.

(** C33.  Without fail_safe: an object is null if its handler gives None or if it cannot be
    pickled.  References to objects numbered before the first of them are right. *)
Theorem C33_earlier_references :
  forall w k po uo classes h dm N v j tab bad, po_keys po = false -> po_fail_safe po = None ->
  written w k None h [] v j tab -> replacements w k None h bad -> refs_before bad tab j ->
  rt_case w k po uo classes (fill_heap bad h) dm N (fill bad v) ->
  (forall l a, bad l = Some a -> a = VNone) /\ decodes_as w k po uo classes h v (fill_heap bad h) (fill bad v).
Proof.
  intros w k po uo classes h dm N v j tab bad Ok Of W R B C. split.
  - intros l a E. destruct (proj2 R l a E) as (j0 & Ho). destruct (proj1 R l j0 Ho) as (a0 & E0 & Sj). rewrite E in E0. injection E0 as <-.
    destruct Ho; try discriminate; inversion Sj; reflexivity.
  - eapply holes_decode; rewrite ?Of; eauto.
Qed.
Print Assumptions C33_earlier_references.

(** [[1], Node(a: the outer list, b: [1] again), the replaced object, [1] again] *)
Definition K_hole (b : bool) : hooks := K_some (fun l => if Nat.eqb l 1 then Some (if b then ERuntimeError else ETypeError) else None).
Definition H_hole : heap := [ OList [VLoc 3; VLoc 4; VLoc 1; VLoc 3]; plain_inst cState 2; ODict []; OList [VInt 1]; plain_inst cNode 5;
  ODict [(VStr (u "a"), VLoc 0); (VStr (u "b"), VLoc 3)] ].
Definition PO_hole (b : bool) : popts := if b then PO_safe else PO.
Definition A_hole (b : bool) : val := if b then VStr (u "failed") else VNone.
Definition bad_hole (b : bool) (l : loc) : option val := if Nat.eqb l 1 then Some (A_hole b) else None.
Definition J_hole (b : bool) : json :=
  JList [JList [JInt 1]; JObj [(OBJECT, JStr (u "m.Node")); (u "a", JObj [(ID, JInt 0)]); (u "b", JObj [(ID, JInt 1)])];
         if b then JStr (u "failed") else JNull; JObj [(ID, JInt 1)]].
Lemma node_plain : plain_class W0 cNode.
Proof. constructor; reflexivity. Qed.
Lemma hole_hole b : hole W0 (K_hole b) (po_fail_safe (PO_hole b)) H_hole 1 (if b then JStr (u "failed") else JNull).
Proof.
  destruct b.
  - eapply ho_fails with (e := ERuntimeError) (f := fs_null); try reflexivity. apply ra_getstate; reflexivity.
  - eapply ho_unpicklable with (e := ETypeError); reflexivity.
Qed.
Lemma replacements_hole b : replacements W0 (K_hole b) (po_fail_safe (PO_hole b)) H_hole (bad_hole b).
Proof.
  split.
  - intros l j Ho. destruct (hole_inst _ _ _ _ _ _ Ho) as (i & G & NP). destruct l as [|[|[|[|[|[|l]]]]]]; try discriminate G.
    + exists (A_hole b). split; [reflexivity|]. destruct b; destruct Ho as [i0 e f j0 G0 R X F E|i0 hd G0 L _|i0 e G0 L _ _ _ _ A K T|c args [(i0 & G0 & L & A) _ _]].
      * injection F as <-. injection E as <-. apply sj_str.
      * injection G0 as <-. discriminate L.
      * injection G0 as <-. injection K as <-. discriminate T.
      * injection G0 as <-. discriminate A.
      * discriminate F.
      * injection G0 as <-. discriminate L.
      * apply sj_none.
      * injection G0 as <-. discriminate A.
    + injection G as <-. destruct (NP node_plain).
    + destruct l; discriminate G.
  - intros l a E. unfold bad_hole in E. destruct (Nat.eqb_spec l 1) as [->|]; [|discriminate]. eexists. apply hole_hole.
Qed.
Lemma written_hole b : written W0 (K_hole b) (po_fail_safe (PO_hole b)) H_hole [] (VLoc 0) (J_hole b) [0; 3; 4; 1].
Proof.
  assert (NI : forall (l : loc) tab, existsb (Nat.eqb l) tab = false -> ~ In l tab).
  { intros l tab E I. rewrite <- not_true_iff_false in E. apply E. apply existsb_exists. exists l. split; auto. apply Nat.eqb_refl. }
  eapply wr_list; [apply NI; reflexivity|reflexivity|]. eapply ws_cons.
  { eapply wr_list; [apply NI; reflexivity|reflexivity|]. eapply ws_cons; [apply wr_int|apply ws_nil]. }
  eapply ws_cons.
  { eapply (wr_inst W0 (K_hole b) (po_fail_safe (PO_hole b)) H_hole [0; 3] 4) with (i := mkInst cNode (Some 5) [] [] [] None CSrc [] 0);
      [apply NI; reflexivity|reflexivity|exact node_plain|reflexivity|reflexivity|].
    eapply fw_cons; [reflexivity|intros [X|[]]; discriminate X|discriminate|intros l i [= <-] [=]| |].
    { eapply (wr_ref _ _ _ _ [0; 3; 4] 0 0); [reflexivity|discriminate|discriminate|discriminate|reflexivity]. }
    eapply fw_cons; [reflexivity|intros []|discriminate|intros l i [= <-] [=]| |].
    { eapply (wr_ref _ _ _ _ [0; 3; 4] 3 1); [reflexivity|discriminate|discriminate|discriminate|reflexivity]. }
    apply fw_nil. }
  eapply ws_cons; [eapply wr_hole; [apply NI; reflexivity|apply hole_hole]|].
  eapply ws_cons; [|apply ws_nil].
  eapply (wr_ref _ _ _ _ [0; 3; 4; 1] 3 1); [reflexivity|discriminate|discriminate|discriminate|reflexivity].
Qed.
Lemma early_hole b l x : early W0 (K_hole b) (fill_heap (bad_hole b) H_hole) l x -> l = 1.
Proof.
  intros E. assert (G : exists i, hget (fill_heap (bad_hole b) H_hole) l = Some (OInst i)) by (destruct E; eauto). destruct G as (i & G).
  destruct l as [|[|[|[|[|[|l]]]]]]; try discriminate G; auto; [|destruct l; discriminate G].
  exfalso. inversion E as [l0 i0 cs args kw x0 G0 OR C Ix El Ex|l0 i0 st G0 OR OS St El Ex|l0 i0 hd pre vs x0 G0 HA Ix El Ex|l0 i0 f args mkrec st li xs di d x0 G0 RD Ix El Ex]; subst;
    injection G0 as <-.
  - destruct C as [E1 E2 E3|a E1 E2 E3 E4|a kd d kw E1 E2 E3|a E1 E2 E3 E4]; try discriminate. destruct Ix.
  - destruct OS as (O1 & _). discriminate O1.
  - destruct HA as (_ & HA & _). discriminate HA.
  - destruct RD as [_ RD _ (rl & RV & _) _ _ _ _ _]. discriminate RV.
Qed.
Lemma supported_hole b : supported W0 (K_hole b) false [] (fill_heap (bad_hole b) H_hole) (VLoc 0).
Proof.
  apply (closed_supported W0 (K_hole b) false [] (fill_heap (bad_hole b) H_hole) [VLoc 0; VLoc 3; VLoc 4; A_hole b; VInt 1; VStr (u "a"); VStr (u "b")]).
  - intros x I. cbn [In] in I. repeat (destruct I as [<-|I]; [try exact Logic.I; try (destruct b; exact Logic.I)|]); [| | |destruct I].
    + eexists. split; [eapply sh_list; reflexivity|destruct b; incl_tac].
    + eexists. split; [eapply sh_list; reflexivity|destruct b; incl_tac].
    + eexists. split; [eapply (sh_plain W0 (K_hole b) false [] (fill_heap (bad_hole b) H_hole) 4) with (args := []) (kw := []);
        try reflexivity; [cok|left; reflexivity|left; reflexivity|apply ct_none; reflexivity]|destruct b; incl_tac].
  - left. reflexivity.
  - intros x I. cbn [In] in I. repeat (destruct I as [<-|I]; [try exact Logic.I; try (destruct b; vm_compute; auto; fail)|]); [| | |destruct I].
    + split; [eexists; eapply sh_list; reflexivity|]. intros x E. apply early_hole in E. discriminate E.
    + split; [eexists; eapply sh_list; reflexivity|]. intros x E. apply early_hole in E. discriminate E.
    + split; [|intros x E; apply early_hole in E; discriminate E].
      eexists. eapply (sh_plain W0 (K_hole b) false [] (fill_heap (bad_hole b) H_hole) 4) with (args := []) (kw := []);
        try reflexivity; [cok|left; reflexivity|left; reflexivity|apply ct_none; reflexivity].
Qed.
Lemma finite_hole b : finite_graph W0 (K_hole b) (PO_hole b) (fill_heap (bad_hole b) H_hole) 2 0.
Proof.
  destruct (finite_sample PO (fill_heap (bad_hole b) H_hole) 2 eq_refl ltac:(lia) ltac:(destruct b; vm_compute; reflexivity)) as [F1 F2 F3 F4 F5 F6 F7 F8 F9 F10 F11 F12 F13 F14 F15].
  constructor; auto.
  - intros l x E. cbn in E. destruct (l =? 1); [discriminate|]. injection E as <-. split; vm_compute; auto.
  - destruct F12 as (R1 & R2 & R3 & R4 & R5 & R6 & R7 & R8 & R9 & R10 & R11). repeat split; auto.
    intros l. cbn. destruct (l =? 1); discriminate.
  - destruct b; exact F13.
  - intros f e E. destruct b; [|discriminate E]. injection E as <-. discriminate.
Qed.
Lemma case_hole b : rt_case W0 (K_hole b) (PO_hole b) UO None (fill_heap (bad_hole b) H_hole) 2 0 (fill (bad_hole b) (VLoc 0)).
Proof.
  split; [destruct b; repeat split|]. split; [destruct b; [exact (supported_hole true)|exact (supported_hole false)]|]. split; [exact (finite_hole b)|].
  split; vm_compute; auto.
Qed.
Fixpoint refs_list (j : json) : list Z :=
  match j with
  | JList js => flat_map refs_list js
  | JObj d => (fix go d := match d with [] => [] | (a, j) :: d => (match j with JInt z => [z] | _ => refs_list j end) ++ go d end) d
  | _ => []
  end.
Lemma refs_list_sound z j : occurs false z j -> In z (refs_list j).
Proof.
  induction 1 as [|j js I _ IH|a j d I O IH|text jq j d K]; [left; reflexivity| | |discriminate].
  - cbn [refs_list]. apply in_flat_map. eauto.
  - cbn [refs_list]. induction d as [|[a0 j0] d IHd]; [destruct I|]. apply in_or_app. destruct I as [[= -> ->]|I]; [left|right; auto].
    destruct j; try exact IH. inversion O.
Qed.
Lemma before_hole b : refs_before (bad_hole b) [0; 3; 4; 1] (J_hole b).
Proof.
  intros z i l O N B. apply refs_list_sound in O. assert (i = 3).
  { destruct i as [|[|[|[|i]]]]; cbn in N; try (injection N as <-; destruct B; reflexivity); auto. destruct i; discriminate N. }
  subst i. destruct b; vm_compute in O; repeat (destruct O as [<-|O]; [reflexivity|]); destruct O.
Qed.
Example C21_case :
  written W0 (K_hole true) (Some fs_null) H_hole [] (VLoc 0) (J_hole true) [0; 3; 4; 1] /\
  replacements W0 (K_hole true) (Some fs_null) H_hole (bad_hole true) /\ refs_before (bad_hole true) [0; 3; 4; 1] (J_hole true) /\
  rt_case W0 (K_hole true) PO_safe UO None (fill_heap (bad_hole true) H_hole) 2 0 (fill (bad_hole true) (VLoc 0)) /\
  show (enc W0 (K_hole true) PO_safe 12 H_hole (VLoc 0)) =
    Ret "[[1], {""py/object"": ""m.Node"", ""a"": {""py/id"": 0}, ""b"": {""py/id"": 1}}, ""failed"", {""py/id"": 1}]"%string.
Proof.
  split; [exact (written_hole true)|]. split; [exact (replacements_hole true)|]. split; [exact (before_hole true)|]. split; [exact (case_hole true)|].
  vm_compute. reflexivity.
Qed.
Example C33_case :
  written W0 (K_hole false) None H_hole [] (VLoc 0) (J_hole false) [0; 3; 4; 1] /\
  replacements W0 (K_hole false) None H_hole (bad_hole false) /\ refs_before (bad_hole false) [0; 3; 4; 1] (J_hole false) /\
  rt_case W0 (K_hole false) PO UO None (fill_heap (bad_hole false) H_hole) 2 0 (fill (bad_hole false) (VLoc 0)).
Proof.
  split; [exact (written_hole false)|]. split; [exact (replacements_hole false)|]. split; [exact (before_hole false)|]. exact (case_hole false).
Qed.
(** A set of values as the theorem asks for. *)
Example C21_clean : clean W0 (K_hole true) (Some fs_null) H_hole (fun v => In v [VLoc 0; VLoc 3; VLoc 4; VLoc 1; VInt 1]).
Proof.
  intros v I. cbn [In] in I. repeat (destruct I as [<-|I]; [try exact Logic.I|]); [| | | |destruct I].
  - right. eexists. split; [reflexivity|]. apply Forall_forall. intros x I. cbn [In] in *. tauto.
  - right. eexists. split; [reflexivity|]. apply Forall_forall. intros x I. cbn [In] in *. tauto.
  - right. eexists. split; [reflexivity|]. split; [exact node_plain|]. exists 5. eexists. split; [reflexivity|]. split; [reflexivity|]. split.
    + repeat constructor; cbn [In map fst]; intros X; repeat (destruct X as [X|X]; [discriminate X|]); exact X.
    + intros kv [<-|[<-|[]]]; cbn [fst snd].
      * split; [left; reflexivity|]. split; [eexists; split; reflexivity|]. split; [discriminate|]. intros l i [= <-] [=].
      * split; [right; left; reflexivity|]. split; [eexists; split; reflexivity|]. split; [discriminate|]. intros l i [= <-] [=].
  - left. eexists. exact (hole_hole true).
Qed.
