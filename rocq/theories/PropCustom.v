(** C65: custom handlers that pass the parts of their objects to the pickler and unpickler. *)
From Verif Require Import PyStr Tags Json JsonText Base Heap Registry LoadClass Pickler Unpickler SpecGraph PGen PTerm RTBase RTMain RTProps Samples PropEncode PropRoundtrip PropProtocols.
From Coq Require Import List ZArith Lia.
Import ListNotations.
Open Scope nat_scope.

Definition part_after (w : world) (h : heap) (v : val) (p : list pos) (hd n : nat) (x : loc) : Prop :=
  exists l i parts, after w h v p = Some (VLoc l) /\ hget h l = Some (OInst i) /\ i_rec i = CHandler hd parts /\ nth_error parts n = Some (VLoc x).

Lemma part_copied w k po h h' b v v' (R : loc -> loc -> Prop) p l i hd pre vs n x :
  (forall l l', R l l' -> omatch w k (po_keys po) h h' b b R l l') ->
  (forall p, encoded_path w k h v p -> omatch_opt h h' b R (before w k h v p) (after w h' v' p)) ->
  encoded_path w k h v p -> before w k h v p = Some (VLoc l) -> hget h l = Some (OInst i) ->
  handled w l i hd pre vs -> nth_error vs n = Some (VLoc x) -> is_object h x = true ->
  exists x', R x x' /\ part_after w h' v' p hd (length pre + n) x'.
Proof.
  intros OM PT EP B G HA NE IO. specialize (PT p EP). rewrite B in PT.
  destruct (after w h' v' p) as [y|] eqn:A; [|destruct PT].
  destruct (object_copy h h' b R l y) as (l' & -> & Rl); [unfold is_object; rewrite G; reflexivity|exact PT|].
  destruct (OM l l' Rl) as [xs ys G1 _ _ _|d0 d' G0 L G' F|i0 i' G0 L G' EC IM]; try congruence.
  rewrite G in G0. injection G0 as <-.
  destruct IM as [? ? ? OR|? ? ? OR|? ? ? ? ? OR|? ? ? ? ? OR|? ? ? ? ? ? ? OR|hd2 pre2 vs2 vs' HA2 RE F|? ? ? ? ? ? ? ? ? RD];
    try (destruct (handled_ordinary w k _ _ _ _ _ HA OR)); try (destruct (handled_reduced w k h _ _ _ _ _ _ _ _ _ _ _ _ _ HA RD)).
  destruct (handled_det w _ _ _ _ _ _ _ _ HA HA2) as (<- & <- & <-).
  assert (Y : exists y, nth_error vs' n = Some y /\ vmatch h h' b R (VLoc x) y).
  { clear - F NE. revert n NE. induction F as [|a a' r r' M F IH]; intros [|n] NE; try discriminate; cbn in NE |- *; eauto. injection NE as ->. eauto. }
  destruct Y as (y & NY & MY). destruct (object_copy h h' b R x y IO MY) as (x' & -> & Rx).
  exists x'. split; [exact Rx|]. exists l', i', (pre ++ vs'). split; [exact A|]. split; [exact G'|]. split; [exact RE|].
  rewrite nth_error_app2 by lia. replace (length pre + n - length pre) with n by lia. exact NY.
Qed.

(** Parts that are one object for two handlers (or twice for one) are one object for the handlers
    of the copies, parts that are not are not. *)
Theorem C65_parts_of_two :
  forall w k po uo classes h dm N v, rt_case w k po uo classes h dm N v ->
  roundtrips w k po uo classes h v (fun h' b v' =>
    forall p l i hd pre vs n x q l2 i2 hd2 pre2 vs2 m y,
    encoded_path w k h v p -> before w k h v p = Some (VLoc l) -> hget h l = Some (OInst i) -> handled w l i hd pre vs ->
    nth_error vs n = Some (VLoc x) -> is_object h x = true ->
    encoded_path w k h v q -> before w k h v q = Some (VLoc l2) -> hget h l2 = Some (OInst i2) -> handled w l2 i2 hd2 pre2 vs2 ->
    nth_error vs2 m = Some (VLoc y) -> is_object h y = true ->
    exists x' y', part_after w h' v' p hd (length pre + n) x' /\ part_after w h' v' q hd2 (length pre2 + m) y' /\ (x = y <-> x' = y')).
Proof.
  intros w k po uo classes h dm N v HC. eapply roundtrips_use; [exact HC|]. intros h' b v' CP.
  destruct (copy_path w k po h v h' b v' CP) as (R & RF & RJ & OM & PT).
  intros p l i hd pre vs n x q l2 i2 hd2 pre2 vs2 m y EP B G HA NE IO EQ B2 G2 HA2 NE2 IO2.
  destruct (part_copied w k po h h' b v v' R p l i hd pre vs n x) as (x' & Rx & Px); auto.
  destruct (part_copied w k po h h' b v v' R q l2 i2 hd2 pre2 vs2 m y) as (y' & Ry & Py); auto.
  exists x', y'. split; [exact Px|]. split; [exact Py|]. split; intros E; subst; eauto.
Qed.
Print Assumptions C65_parts_of_two.
(** And so for a part and an object elsewhere in the graph, before or after it. *)
Theorem C65_part_elsewhere :
  forall w k po uo classes h dm N v, rt_case w k po uo classes h dm N v ->
  roundtrips w k po uo classes h v (fun h' b v' =>
    forall p l i hd pre vs n x q y,
    encoded_path w k h v p -> before w k h v p = Some (VLoc l) -> hget h l = Some (OInst i) -> handled w l i hd pre vs ->
    nth_error vs n = Some (VLoc x) -> is_object h x = true ->
    encoded_path w k h v q -> before w k h v q = Some (VLoc y) -> is_object h y = true ->
    exists x' y', part_after w h' v' p hd (length pre + n) x' /\ after w h' v' q = Some (VLoc y') /\ (x = y <-> x' = y')).
Proof.
  intros w k po uo classes h dm N v HC. eapply roundtrips_use; [exact HC|]. intros h' b v' CP.
  destruct (copy_path w k po h v h' b v' CP) as (R & RF & RJ & OM & PT).
  intros p l i hd pre vs n x q y EP B G HA NE IO EQ B2 IO2.
  destruct (part_copied w k po h h' b v v' R p l i hd pre vs n x) as (x' & Rx & Px); auto.
  pose proof (PT q EQ) as Y. rewrite B2 in Y. destruct (after w h' v' q) as [z|] eqn:A; [|destruct Y].
  destruct (object_copy h h' b R y z IO2 Y) as (y' & -> & Ry).
  exists x', y'. split; [exact Px|]. split; [reflexivity|]. split; intros E; subst; eauto.
Qed.
Print Assumptions C65_part_elsewhere.
(** C30_case has such a graph: the list at 7 is a part of the handled object at 4, and is in the root. *)
Example C65_case :
  rt_case W_pr K_pr PO UO None H_pr 3 0 (VLoc 0) /\
  (exists i, hget H_pr 4 = Some (OInst i) /\ handled W_pr 4 i 0 [VStr (u "made")] [VLoc 7]) /\
  before W_pr K_pr H_pr (VLoc 0) [PIdx 2] = Some (VLoc 4) /\ before W_pr K_pr H_pr (VLoc 0) [PIdx 5] = Some (VLoc 7).
Proof. split; [exact (proj1 C30_case)|]. split; [exact handled_4|]. split; reflexivity. Qed.

(** ** Handlers that do it otherwise *)
(** Handlers of one class; [flat] gets the document begun by the pickler. *)
Definition W_cu (flat : jobj -> fscript) (rest : jobj -> hscript) : world :=
  sample_world (reg_register sample_cls (mkReg [] []) cHandled 0 false) (fun _ _ _ data => flat data) (fun _ _ data => rest data).
Definition field (a : pystr) (data : jobj) : json := match jget a data with Some j => j | None => JNull end.
(** [obj, [2], [2] again]; obj has the parts [0] and [2]. *)
Definition H_cu : heap := [ OList [VLoc 1; VLoc 3; VLoc 3]; plain_inst cHandled 4; OList [VInt 0]; OList [VInt 2]; ODict [] ].
Definition both (reset : bool) (data : jobj) : fscript :=
  FFlatten reset (VLoc 2) (fun a => FFlatten false (VLoc 3) (fun b => FDone (Some (JObj (data ++ [(u "a", a); (u "b", b)]))))).
Definition one (reset : bool) (data : jobj) : fscript :=
  FFlatten reset (VLoc 2) (fun a => FDone (Some (JObj (data ++ [(u "a", a)])))).
(** Restoring in another order: the second part is wrong everywhere else. *)
Theorem C65_order_refuted :
  exists w h l text v t, enc w K0 PO 20 h (VLoc l) = Ret text /\ dec w UO 30 text = (Ret v, t) /\
    before w K0 h (VLoc l) [PIdx 1; PIdx 0] = Some (VInt 2) /\ after w (u_heap t) v [PIdx 1; PIdx 0] = Some (VInt 0) /\
    (forall ctx data, w_hflat w 0 ctx 1 data = both false data) /\
    (forall ctx data, w_hrest w 0 ctx data = HRestore (field (u "b") data) (fun b => HRestore (field (u "a") data) (fun a => HDone (HInst cHandled [a; b])))).
Proof.
  exists (W_cu (both false) (fun data => HRestore (field (u "b") data) (fun b => HRestore (field (u "a") data) (fun a => HDone (HInst cHandled [a; b]))))), H_cu, 0.
  eexists. eexists. eexists. split; [vm_compute; reflexivity|]. split; [vm_compute; reflexivity|]. split; [reflexivity|]. split; [vm_compute; reflexivity|]. split; reflexivity.
Qed.
Print Assumptions C65_order_refuted.
(** Calling [self.context.flatten(part)] without [reset=False]: the third element is the root itself. *)
Theorem C65_reset_refuted :
  exists w h l text v t, enc w K0 PO 20 h (VLoc l) = Ret text /\ dec w UO 30 text = (Ret v, t) /\
    before w K0 h (VLoc l) [PIdx 2; PIdx 0] = Some (VInt 2) /\ after w (u_heap t) v [PIdx 2] = Some v /\
    (forall ctx data, w_hflat w 0 ctx 1 data = one true data) /\
    (forall ctx data, w_hrest w 0 ctx data = HRestore (field (u "a") data) (fun a => HDone (HInst cHandled [a]))).
Proof.
  exists (W_cu (one true) (fun data => HRestore (field (u "a") data) (fun a => HDone (HInst cHandled [a])))), H_cu, 0.
  eexists. eexists. eexists. split; [vm_compute; reflexivity|]. split; [vm_compute; reflexivity|]. split; [reflexivity|]. split; [vm_compute; reflexivity|]. split; reflexivity.
Qed.
Print Assumptions C65_reset_refuted.
(** Not restoring a part: a later reference leads nowhere. *)
Theorem C65_skipped_refuted :
  exists w h l text v t, enc w K0 PO 20 h (VLoc l) = Ret text /\ dec w UO 30 text = (Ret v, t) /\
    before w K0 h (VLoc l) [PIdx 2; PIdx 0] = Some (VInt 2) /\ after w (u_heap t) v [PIdx 2] = Some VNone /\
    (forall ctx data, w_hflat w 0 ctx 1 data = one false data) /\
    (forall ctx data, w_hrest w 0 ctx data = HDone (HInst cHandled [])).
Proof.
  exists (W_cu (one false) (fun data => HDone (HInst cHandled []))), H_cu, 0.
  eexists. eexists. eexists. split; [vm_compute; reflexivity|]. split; [vm_compute; reflexivity|]. split; [reflexivity|]. split; [vm_compute; reflexivity|]. split; reflexivity.
Qed.
Print Assumptions C65_skipped_refuted.
(** Restoring a part twice: a later reference leads to the second copy of it. *)
Theorem C65_twice_refuted :
  exists w h l text v t, enc w K0 PO 20 h (VLoc l) = Ret text /\ dec w UO 30 text = (Ret v, t) /\
    before w K0 h (VLoc l) [PIdx 2; PIdx 0] = Some (VInt 2) /\ after w (u_heap t) v [PIdx 2; PIdx 0] = Some (VInt 0) /\
    (forall ctx data, w_hflat w 0 ctx 1 data = one false data) /\
    (forall ctx data, w_hrest w 0 ctx data = HRestore (field (u "a") data) (fun a => HRestore (field (u "a") data) (fun _ => HDone (HInst cHandled [a])))).
Proof.
  exists (W_cu (one false) (fun data => HRestore (field (u "a") data) (fun a => HRestore (field (u "a") data) (fun _ => HDone (HInst cHandled [a]))))), H_cu, 0.
  eexists. eexists. eexists. split; [vm_compute; reflexivity|]. split; [vm_compute; reflexivity|]. split; [reflexivity|]. split; [vm_compute; reflexivity|]. split; reflexivity.
Qed.
Print Assumptions C65_twice_refuted.
(** A part that is the object itself: restore() gets a placeholder, and the copy keeps it. *)
Theorem C65_cycle_refuted :
  exists w h l text v t l' i', enc w K0 PO 20 h (VLoc l) = Ret text /\ dec w UO 30 text = (Ret v, t) /\
    v = VLoc l' /\ hget (u_heap t) l' = Some (OInst i') /\ (exists n, i_rec i' = CHandler 0 [VProxy n]) /\
    (forall ctx data, w_hflat w 0 ctx l data = FFlatten false (VLoc l) (fun a => FDone (Some (JObj (data ++ [(u "a", a)]))))) /\
    (forall ctx data, w_hrest w 0 ctx data = HRestore (field (u "a") data) (fun a => HDone (HInst cHandled [a]))).
Proof.
  exists (W_cu (fun data => FFlatten false (VLoc 1) (fun a => FDone (Some (JObj (data ++ [(u "a", a)]))))) (fun data => HRestore (field (u "a") data) (fun a => HDone (HInst cHandled [a])))), H_cu, 1.
  eexists. eexists. eexists. eexists. eexists. split; [vm_compute; reflexivity|]. split; [vm_compute; reflexivity|]. split; [reflexivity|]. split; [vm_compute; reflexivity|].
  split; [eexists; reflexivity|]. split; reflexivity.
Qed.
Print Assumptions C65_cycle_refuted.
(** Behind a list the placeholder is replaced at the end: the part is a list that holds the object. *)
Definition H_cu2 : heap := [ OList []; plain_inst cHandled 4; OList [VLoc 1]; OList []; ODict [] ].
Example C65_cycle_list :
  let w := W_cu (one false) (fun data => HRestore (field (u "a") data) (fun a => HDone (HInst cHandled [a]))) in
  exists text l t x i', enc w K0 PO 20 H_cu2 (VLoc 1) = Ret text /\ dec w UO 30 text = (Ret (VLoc l), t) /\
    hget (u_heap t) l = Some (OInst i') /\ i_rec i' = CHandler 0 [VLoc x] /\ hget (u_heap t) x = Some (OList [VLoc l]).
Proof.
  eexists. eexists. eexists. eexists. eexists. split; [vm_compute; reflexivity|]. split; [vm_compute; reflexivity|]. split; [vm_compute; reflexivity|].
  split; [reflexivity|]. vm_compute. reflexivity.
Qed.
