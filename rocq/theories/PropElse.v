(** C74: encode reads nothing but the graph of its argument; C73 in terms of that graph. *)
From Verif Require Import PyStr Tags Json JsonText Base Heap Registry RegistryProofs LoadClass Pickler Unpickler SpecGraph SpecIso SpecIter SpecScope RegSim PRel HeapProofs IsoProofs IterRT Samples PropEncode PropIso PropScope.
From Coq Require Import List Lia.
Import ListNotations.
Open Scope nat_scope.

(** Addresses of dicts that encode makes itself correspond; with heaps of one size they are equal. *)
Lemma corr_same h h' U x y : length h = length h' -> viso (corr h h' (on U)) x y -> x = y.
Proof.
  intros L V. apply (viso_on (fun _ => True)). revert x y V. fix IH 3. intros x y V. destruct V as [v F|xs ys F|l l' C].
  - apply vi_flat. exact F.
  - apply vi_tuple. revert xs ys F. fix go 3. intros xs ys F. destruct F as [|x y xs ys H F]; constructor; [apply IH; exact H|apply go; exact F].
  - apply vi_loc. destruct C as [[-> _]|(m & -> & ->)]; split; auto.
Qed.

(** C74.  U are the objects of the graph: those reached from v through attributes, items, elements
    and what user code (reduce, getstate, handlers, ...) returns for them.  However the other objects
    are changed (h': any heap with the same objects in U), the text or the exception is the same.
    Where repr may be written, the heaps are of one size, so that dicts encode makes itself have the
    same address. *)
Theorem C74_elsewhere :
  forall w k o h h' U n v, self_contained w k h U -> inside U v -> (forall l, U l -> hget h' l = hget h l) ->
  po_sort o = false -> po_readonly o = false ->
  po_max_depth o = None /\ po_make_refs o = true \/ length h = length h' ->
  fst (encode w k o n v (new_pickler h)) = fst (encode w k o n v (new_pickler h')).
Proof.
  intros w k o h h' U n v [SH SK] IN E Os Or RP.
  assert (X : set_numeric (po_numeric o) (set_root (po_root o) o) = o) by (destruct o; reflexivity).
  rewrite <- X at 2. apply (iso_encode w o (po_numeric o) k k h h' (on U)); auto.
  - split; [intros ? ? ? [<- _] [<- _]|intros ? ? ? [-> _] [-> _]]; auto.
  - intros l l' [<- L]. destruct (SH l l) as [A B]; [split; auto|]. rewrite E by auto. split; auto.
  - intros _ q q' V _. apply viso_on in V. subst q'. destruct o; reflexivity.
  - destruct RP as [RP|RP]; [left; exact RP|right]. intros x x' V. apply corr_same in V; auto. subst. reflexivity.
Qed.
Print Assumptions C74_elsewhere.

(** The objects of U, everything else gone. *)
Fixpoint mask (U : loc -> bool) (n : nat) (h : heap) : heap :=
  match h with [] => [] | ob :: h => (if U n then ob else OList []) :: mask U (S n) h end.
Lemma mask_length U h n : length (mask U n h) = length h.
Proof. revert n. induction h; intros n; simpl; auto. Qed.
Lemma mask_get U h : forall n l, hget (mask U n h) l = match hget h l with Some ob => Some (if U (n + l) then ob else OList []) | None => None end.
Proof.
  unfold hget. induction h as [|ob h IH]; intros n [|l]; cbn [mask nth_error]; auto.
  - rewrite Nat.add_0_r. reflexivity.
  - rewrite IH. replace (S n + l) with (n + S l) by lia. reflexivity.
Qed.

(** C73, encode, for the graph: only the classes of the instances in it matter. *)
Theorem C73_graph :
  forall w k o h U n v ops, self_contained w k h (fun l => U l = true) -> inside (fun l => U l = true) v ->
  po_sort o = false -> po_readonly o = false ->
  (forall op l i, In op ops -> U l = true -> hget h l = Some (OInst i) -> elsewhere w op (i_cls i) (importable_name (w_cls w (i_cls i)))) ->
  fst (encode (with_registry w (then_ops w ops (w_reg w))) k o n v (new_pickler h)) = fst (encode w k o n v (new_pickler h)).
Proof.
  intros w k o h U n v ops SC IN Os Or A.
  assert (E : forall l, U l = true -> hget (mask U 0 h) l = hget h l).
  { intros l L. rewrite mask_get. cbn [Nat.add]. rewrite L. destruct (hget h l); auto. }
  rewrite (C74_elsewhere w k o h (mask U 0 h) _ n v SC IN E) by (auto; right; rewrite mask_length; auto).
  rewrite <- (C73_encode w k o n v (new_pickler (mask U 0 h)) ops).
  - apply C74_elsewhere with (U := fun l => U l = true); auto; [|right; rewrite mask_length; auto].
    destruct SC as [SH SK]. split; [exact SH|]. destruct SK. split; auto.
    intros hd ctx l l' data i [<- L] G LK. eapply ho_script; eauto; [split; auto|].
    cbn [with_registry w_sub w_reg w_cls] in LK. rewrite lookup_ops in LK by (intros op I; eapply A; eauto). exact LK.
  - intros op l i I G. cbn in G. rewrite mask_get in G. destruct (hget h l) eqn:GE; [|discriminate G]. cbn [Nat.add] in G. destruct (U l) eqn:L; [|discriminate G].
    injection G as ->. eapply A; eauto.
Qed.
Print Assumptions C73_graph.

(** A case: the graph of C73_encode_case; an instance of Handled refers to it, but is no part of it. *)
Definition else_heap (far : list obj) : heap := scope_heap ++ far.
Definition else_far : list obj := [plain_inst cHandled 6; ODict [(VStr (u "x"), VLoc 0)]].
Definition else_U (l : loc) : bool := Nat.ltb l 5.
Lemma else_contained far : self_contained W0 K0 (else_heap far) (fun l => else_U l = true).
Proof.
  assert (IV : forall v, (match v with VLoc l => else_U l = true | VTuple _ => False | _ => True end) -> viso (on (fun l => else_U l = true)) v v).
  { intros v H. destruct v; try (apply vi_flat; reflexivity); [destruct H|]. apply vi_loc. split; [reflexivity|exact H]. }
  split.
  - intros l l' [<- L]. destruct l as [|[|[|[|[|l]]]]]; [..|discriminate L]; (split; [|discriminate]); cbn; constructor;
      repeat first [apply IV; cbn; auto; fail|constructor; cbn; eauto; fail|split|constructor|eexists; reflexivity].
  - apply hooks_K0; auto using no_hooks_K0; try (apply vi_flat; reflexivity).
    intros l l' [_ L] i G. do 5 (destruct l as [|l]; [cbn in G; try discriminate G; injection G as <-; vm_compute; repeat split; discriminate|]). discriminate L.
Qed.
Example C73_graph_case :
  self_contained W0 K0 (else_heap else_far) (fun l => else_U l = true) /\ inside (fun l => else_U l = true) (VLoc 0) /\
  (forall op l i, In op scope_ops -> else_U l = true -> hget (else_heap else_far) l = Some (OInst i) ->
     elsewhere W0 op (i_cls i) (importable_name (w_cls W0 (i_cls i)))) /\
  exists i, hget (else_heap else_far) 5 = Some (OInst i) /\ ~ elsewhere W0 (OReg cHandled 5 true) (i_cls i) (importable_name (w_cls W0 (i_cls i))).
Proof.
  split; [apply else_contained|]. split; [apply vi_loc; split; reflexivity|]. split.
  - intros op l i I L G. apply C73_encode_case with (l := l); auto.
    do 5 (destruct l as [|l]; [exact G|]). discriminate L.
  - eexists. split; [reflexivity|]. intros [N _]. apply N. reflexivity.
Qed.
(** Other objects elsewhere, and fewer of them; a change inside the graph is another matter. *)
Example C74_case :
  (forall l, else_U l = true -> hget (else_heap [OList [VLoc 2]]) l = hget (else_heap else_far) l) /\
  enc W0 K0 PO 50 (else_heap else_far) (VLoc 0) = enc W0 K0 PO 50 (else_heap [OList [VLoc 2]]) (VLoc 0) /\
  enc W0 K0 PO 50 (hset (else_heap else_far) 2 (OList [VInt 2])) (VLoc 0) <> enc W0 K0 PO 50 (else_heap else_far) (VLoc 0).
Proof.
  split; [|split; [vm_compute; reflexivity|vm_compute; discriminate]].
  intros l L. do 5 (destruct l as [|l]; [reflexivity|]). discriminate L.
Qed.
