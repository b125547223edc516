(** C77: the options warn and keys of encode. *)
From Verif Require Import PyStr Tags Json JsonText Base Heap Registry LoadClass Pickler SpecGraph SpecIso SpecIter SpecOptions OptSim Samples PropEncode PropIso PropSort PropScope PropElse.
Open Scope nat_scope.

(** C77.  warn=True does not change what encode returns or raises, nor the objects, for every value,
    world, user code and other options (but sort_keys), from every state of the Pickler. *)
Theorem C77_warn :
  forall w k o b n v s, po_sort o = false ->
  fst (encode w k (set_kw (po_keys o) b o) n v s) = fst (encode w k o n v s) /\
  p_heap (snd (encode w k (set_kw (po_keys o) b o) n v s)) = p_heap (snd (encode w k o n v s)).
Proof.
  intros w k o b n v s Os.
  destruct (encode_sim w k o (po_keys o) b Os (or_introl eq_refl) n v s s) as (A & (B & _) & _);
    [repeat split|left; reflexivity|]. split; auto.
Qed.
Print Assumptions C77_warn.
(** C77.  keys=True makes no difference when all keys are usual ones: strings, no tag names, not
    beginning with json://; here for all objects of the program ... *)
Theorem C77_keys :
  forall w k o b n v s, po_sort o = false -> po_readonly o = false ->
  (forall l ob, hget (p_heap s) l = Some ob -> usual_obj ob) ->
  fst (encode w k (set_kw true b o) n v s) = fst (encode w k (set_kw false b o) n v s) /\
  p_heap (snd (encode w k (set_kw true b o) n v s)) = p_heap (snd (encode w k (set_kw false b o) n v s)).
Proof.
  intros w k o b n v s Os Or U.
  assert (X : set_kw true b (set_kw false b o) = set_kw true b o) by reflexivity. rewrite <- X.
  destruct (encode_sim w k (set_kw false b o) true b Os) with (n := n) (v := v) (s := s) (s' := s) as (A & (B & _) & _);
    [right; auto|repeat split|right; exact U|]. split; auto.
Qed.
Print Assumptions C77_keys.
(** ... and here for the objects of the graph alone. *)
Theorem C77_keys_graph :
  forall w k o b h U n v, self_contained w k h (fun l => U l = true) -> inside (fun l => U l = true) v ->
  po_sort o = false -> po_readonly o = false ->
  (forall l ob, U l = true -> hget h l = Some ob -> usual_obj ob) ->
  fst (encode w k (set_kw true b o) n v (new_pickler h)) = fst (encode w k (set_kw false b o) n v (new_pickler h)).
Proof.
  intros w k o b h U n v SC IN Os Or US.
  assert (E : forall l, U l = true -> hget (mask U 0 h) l = hget h l).
  { intros l L. rewrite mask_get. cbn [Nat.add]. rewrite L. destruct (hget h l); auto. }
  rewrite !(fun o' => C74_elsewhere w k o' h (mask U 0 h) _ n v SC IN E) by (auto; right; rewrite mask_length; auto).
  apply C77_keys; auto. intros l ob G. cbn [new_pickler p_heap] in G. rewrite mask_get in G. destruct (hget h l) as [ob'|] eqn:GE; [|discriminate G].
  cbn [Nat.add] in G. destruct (U l) eqn:L; injection G as <-; [eapply US; eauto|exact I].
Qed.
Print Assumptions C77_keys_graph.

(** With sorted keys warn=True refuses objects with slots. *)
Theorem C77_warn_sorted_refuted :
  exists h v text, fst (encode W0 K0 (set_kw false false (set_sort true PO)) 50 v (new_pickler h)) = Ret text /\
    fst (encode W0 K0 (set_kw false true (set_sort true PO)) 50 v (new_pickler h)) = Exc ETypeError.
Proof.
  exists [OInst (mkInst cSlots None [(u "a", VInt 1)] [] [] None CSrc [] 0)], (VLoc 0). eexists.
  split; vm_compute; reflexivity.
Qed.
Print Assumptions C77_warn_sorted_refuted.

(** A graph with usual keys among objects with others. *)
Lemma usual_str s : smem s RESERVED = false -> prefixb (u "json://") s = false -> usual_key (VStr s).
Proof.
  intros R P. exists s. split; [reflexivity|]. split.
  - intros I. apply smem_In in I. congruence.
  - intros r ->. clear R. cbn in P. discriminate P.
Qed.
Definition keys_far : list obj := [ODict [(VInt 1, VLoc 0); (VStr (u "py/id"), VInt 2)]].
Example C77_case :
  self_contained W0 K0 (else_heap keys_far) (fun l => else_U l = true) /\ inside (fun l => else_U l = true) (VLoc 0) /\
  (forall l ob, else_U l = true -> hget (else_heap keys_far) l = Some ob -> usual_obj ob) /\
  fst (encode W0 K0 (set_kw true false PO) 50 (VLoc 5) (new_pickler (else_heap keys_far))) <>
  fst (encode W0 K0 (set_kw false false PO) 50 (VLoc 5) (new_pickler (else_heap keys_far))).
Proof.
  split; [apply else_contained|]. split; [apply vi_loc; split; reflexivity|]. split; [|vm_compute; discriminate].
  intros l ob L G. destruct l as [|[|[|[|[|l]]]]]; [..|discriminate L]; injection G as <-; try exact I; intros key v H; cbn in H.
  - destruct H.
  - destruct H as [H|[H|[]]]; injection H as <- <-; apply usual_str; reflexivity.
  - destruct H.
  - destruct H.
Qed.
Example C77_keys_case : forall l ob, hget scope_heap l = Some ob -> usual_obj ob.
Proof.
  intros l ob G. destruct l as [|[|[|[|[|l]]]]]; [..|destruct l; discriminate G]; injection G as <-; try exact I; intros key v H; cbn in H.
  - destruct H.
  - destruct H as [H|[H|[]]]; injection H as <- <-; apply usual_str; reflexivity.
  - destruct H.
  - destruct H.
Qed.
(** A warning is given and the text is the same: a lambda is written as null. *)
Example C77_warn_case : po_sort PO = false /\ p_warned (snd (encode W0 K0 (set_kw false true PO) 50 (VFun 1) (new_pickler []))) <> p_warned (snd (encode W0 K0 (set_kw false false PO) 50 (VFun 1) (new_pickler []))).
Proof. split; [reflexivity|]. vm_compute. discriminate. Qed.
