(** C11: in the text, a reference is to an object that stands before it. *)
From Verif Require Import PyStr Tags Json JsonText JsonTextProofs Base Heap Registry LoadClass Pickler Unpickler SpecGraph SpecRefs PTerm PSame RTBase RTWalk RTCont RTMain RTProps Samples PropEncode PropRoundtrip.
From Coq Require Import List.
Import ListNotations.
Open Scope nat_scope.
Local Open Scope list_scope.

Lemma references_total w k po uo classes h dm N v : rt_case w k po uo classes h dm N v -> unhandled w h ->
  exists text n0 j tr, (forall n s, n0 <= n -> p_heap s = h -> exists s', encode w k po n v s = (Ret text, s')) /\
    loads text = Some j /\ events (po_keys po) j tr /\ (forall z, occurs (po_keys po) z j -> In (Ref z) tr) /\ backward tr.
Proof.
  intros HC NU. pose proof HC as ((O1 & O2 & O3 & O4 & O5 & O6 & O7 & O8) & SU & _ & _).
  destruct (roundtrips_copy w k po uo classes h dm N v HC) as (text & n0 & m0 & E & _).
  destruct (E n0 (new_pickler h) (le_n _) eq_refl) as (s' & E0 & _).
  pose proof (references w k po uo classes h O1 O2 O3 O4 O5 O6 O7 O8 n0 v (new_pickler h) eq_refl SU NU) as R.
  rewrite E0 in R. destruct R as (j & tr & R1 & R2 & R3 & R4). exists text, n0, j, tr. repeat split; auto; try (apply R4 with (pre := pre) (post := post); auto).
  intros n s L Hs. destruct (E n s L Hs) as (s2 & E2 & _). eauto.
Qed.

(** C11.  Every reference in the text of a supported graph without custom handlers is at least 0 and
    less than the number of numbered objects that stand before it. *)
Theorem C11_references :
  forall w k po uo classes h dm N v, rt_case w k po uo classes h dm N v ->
  (forall l i, hget h l = Some (OInst i) -> no_handler w (i_cls i)) ->
  exists text n0 j tr,
    (forall n s, n0 <= n -> p_heap s = h -> exists s', encode w k po n v s = (Ret text, s')) /\
    loads text = Some j /\ events (po_keys po) j tr /\
    (forall z, occurs (po_keys po) z j -> In (Ref z) tr) /\
    (forall pre z post, tr = pre ++ Ref z :: post -> (0 <= z < Z.of_nat (objects pre))%Z).
Proof. exact references_total. Qed.
Print Assumptions C11_references.
(** Reading a document gives one sequence only. *)
Theorem C11_reading :
  forall keys j tr tr', events keys j tr -> events keys j tr' -> tr = tr'.
Proof. exact events_det. Qed.
Print Assumptions C11_reading.
(** A cyclic graph with every kind of object, and one with tuples and types as keys. *)
Fixpoint refs_in (j : json) : list Z :=
  match j with
  | JList js => flat_map refs_in js
  | JObj d => match d with [(a, JInt z)] => if seqb a ID then [z] else [] | _ => flat_map (fun kv => refs_in (snd kv)) d end
  | _ => []
  end.
Definition refs_of (r : res pystr) : option (list Z) := match r with Ret t => option_map refs_in (loads t) | _ => None end.
Example C11_case : rt_case W0 K_rt PO UO None H_rt 2 0 (VLoc 0) /\
  (forall l i, hget H_rt l = Some (OInst i) -> no_handler W0 (i_cls i)) /\
  refs_of (enc W0 K_rt PO 40 H_rt (VLoc 0)) = Some [0; 0; 1; 1; 1; 0; 3; 0; 1; 6; 0; 8; 1; 10]%Z.
Proof.
  split; [exact C01_case|]. split; [intros l i _; reflexivity|]. vm_compute. reflexivity.
Qed.
Example C11_case_keys : rt_case W0 K0 PO_keys UO_keys None H_keys 2 0 (VLoc 0) /\
  (forall l i, hget H_keys l = Some (OInst i) -> no_handler W0 (i_cls i)) /\
  refs_of (enc W0 K0 PO_keys 20 H_keys (VLoc 0)) = Some [0; 1; 1]%Z.
Proof.
  split; [exact (proj1 C16_case)|]. split; [intros l i _; reflexivity|]. vm_compute. reflexivity.
Qed.
