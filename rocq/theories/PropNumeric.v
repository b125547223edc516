(** C69: numeric_keys=True. *)
From Verif Require Import PyStr Tags Json JsonText Base Heap Registry LoadClass Pickler Unpickler SpecGraph SpecRun SpecIso SpecIter PRel RTBase HeapProofs IsoProofs IterRT Samples PropEncode PropOptions PropIso.
From Coq Require Import List Lia.
Import ListNotations.
Open Scope nat_scope.

(** Keys that JSON spells as repr does. *)
Definition spelled_alike (k : hooks) (q : val) : Prop :=
  match q with
  | VBool _ => False
  | VFloat t => k_repr k q = Ret t
  | _ => True
  end.
(** No two keys of one dict become the same string.  (Of 1 and '1' numeric_keys=True writes both, and
    encode without it the second; the model's document has the second only, so the theorem is not about such
    dicts.) *)
Definition keys_apart (k : hooks) (h : heap) : Prop :=
  forall l d, (hget h l = Some (ODict d) \/ exists i, hget h l = Some (OInst i) /\ i_items i = d) ->
  forall m n q q' x y s, nth_error d m = Some (q, x) -> nth_error d n = Some (q', y) -> coerces false k q s -> coerces false k q' s -> m = n.

(** The text (or the exception) is the same with numeric_keys=True and without, if no dict has a
    boolean key and repr spells the floats among the keys as JSON does.  With keys=True the option has no
    effect at all.  U are the objects of the graph. *)
Theorem C69_same :
  forall w k o h U n v, self_contained w k h U -> inside U v -> po_sort o = false -> po_readonly o = false ->
  (po_keys o = false -> (forall q, is_key h q -> spelled_alike k q) /\ keys_apart k h) ->
  fst (encode w k (set_numeric true o) n v (new_pickler h)) = fst (encode w k (set_numeric false o) n v (new_pickler h)).
Proof.
  intros w k o h U n v [SH SK] IN Os Or KE.
  assert (X : forall nk, set_numeric nk (set_root (po_root (set_numeric false o)) (set_numeric false o)) = set_numeric nk o) by (intros nk; destruct o; reflexivity).
  rewrite <- (X true). symmetry. apply (iso_encode w (set_numeric false o) true k k h h (on U)); auto.
  - split; [intros ? ? ? [<- _] [<- _]|intros ? ? ? [-> _] [-> _]]; auto.
  - intros K q q' V KQ. apply viso_on in V. subst q'. pose proof (proj1 (KE K) q KQ) as KE1. unfold key_string. cbn [set_numeric po_numeric].
    destruct q; auto; [destruct KE1|]. cbn [spelled_alike] in KE1. rewrite KE1. reflexivity.
  - right. intros x x' V. assert (x = x') as <-; [|reflexivity].
    apply (viso_on (fun _ => True)). revert V. clear. revert x x'. fix IH 3. intros x x' V. destruct V as [v F|xs ys F|l l' C].
    + apply vi_flat. exact F.
    + apply vi_tuple. revert xs ys F. fix go 3. intros xs ys F. destruct F as [|x y xs ys H F]; constructor; [apply IH; exact H|apply go; exact F].
    + apply vi_loc. destruct C as [[-> _]|(m & -> & ->)]; split; auto.
Qed.
Print Assumptions C69_same.

(** x = {1: y, 2.5: {}, "a": y, None: 1} where y = [x] *)
Definition K_float : hooks :=
  {| k_reduce := k_reduce K0; k_getstate := k_getstate K0; k_newargs := k_newargs K0; k_newargs_ex := k_newargs_ex K0; k_initargs := k_initargs K0;
     k_iter := k_iter K0; k_attr := k_attr K0; k_dir := k_dir K0; k_props := k_props K0; k_eqdict := k_eqdict K0; k_members := k_members K0;
     k_repr := fun v => match v with VFloat t => Ret t | _ => Ret (u "?") end; k_str := k_str K0; k_call0 := k_call0 K0 |}.
Definition H_float : heap :=
  [ ODict [(VInt 1, VLoc 1); (VFloat (u "2.5"), VLoc 2); (VStr (u "a"), VLoc 1); (VNone, VInt 1)]; OList [VLoc 0]; ODict [] ].
Definition U_float (l : loc) : Prop := l < 3.
Example C69_case : self_contained W0 K_float H_float U_float /\ inside U_float (VLoc 0) /\
  (forall q, is_key H_float q -> spelled_alike K_float q) /\ keys_apart K_float H_float /\
  show (enc W0 K_float PO_num 20 H_float (VLoc 0)) = Ret "{""1"": [{""py/id"": 0}], ""2.5"": {}, ""a"": {""py/id"": 1}, ""null"": 1}"%string.
Proof.
  assert (IV : forall v, (match v with VLoc l => l < 3 | VTuple _ => False | _ => True end) -> viso (on U_float) v v).
  { intros v H. destruct v; try (apply vi_flat; reflexivity); [destruct H|]. apply vi_loc. split; [reflexivity|exact H]. }
  split; [split|split; [apply IV; repeat constructor|split]].
  - intros l l' [<- L]. unfold U_float in L. do 3 (destruct l as [|l]; [split; [|discriminate]; cbn; constructor; repeat constructor; cbn; apply IV; repeat constructor|]). exfalso. lia.
  - apply hooks_K0; try (constructor; reflexivity); try reflexivity.
    intros l l' _ i G. do 3 (destruct l as [|l]; [discriminate G|]). destruct l; discriminate G.
  - intros q (l & v & [(d & G & Q)|(i & G & Q)]).
    + do 3 (destruct l as [|l]; [cbn in G; try discriminate G; injection G as <-; cbn [In] in Q; repeat (destruct Q as [Q|Q]; [injection Q as <- <-; cbn; auto|]); destruct Q|]). destruct l; discriminate G.
    + do 3 (destruct l as [|l]; [discriminate G|]). destruct l; discriminate G.
  - split; [|vm_compute; reflexivity]. intros l d G m n q q' x y s M N A B.
    assert (D : d = [] \/ d = [(VInt 1, VLoc 1); (VFloat (u "2.5"), VLoc 2); (VStr (u "a"), VLoc 1); (VNone, VInt 1)]).
    { destruct G as [G|(i & G & _)]; do 3 (destruct l as [|l]; [first [discriminate G|injection G as <-; auto]|]); destruct l; discriminate G. }
    destruct D as [->| ->]; [destruct m; discriminate M|].
    assert (S : forall m q x s, nth_error [(VInt 1, VLoc 1); (VFloat (u "2.5"), VLoc 2); (VStr (u "a"), VLoc 1); (VNone, VInt 1)] m = Some (q, x) ->
      coerces false K_float q s -> nth_error [u "1"; u "2.5"; u "a"; u "null"] m = Some s).
    { clear. intros m q x s E C. apply (key_string_coerces K_float PO) in C.
      do 4 (destruct m as [|m]; [injection E as <- <-; vm_compute in C; injection C as <-; reflexivity|]). destruct m; discriminate E. }
    pose proof (S m q x s M A) as S1. pose proof (S n q' y s N B) as S2. clear - S1 S2.
    do 4 (destruct m as [|m]; [do 4 (destruct n as [|n]; [try reflexivity; rewrite <- S1 in S2; vm_compute in S2; discriminate S2|]); destruct n; discriminate S2|]). destruct m; discriminate S1.
Qed.

(** A boolean key is spelled true by JSON and True by repr. *)
Theorem C69_bool_refuted :
  exists w k o h U n v, self_contained w k h U /\ inside U v /\ po_sort o = false /\ po_readonly o = false /\ po_keys o = false /\
    fst (encode w k (set_numeric true o) n v (new_pickler h)) = Ret (u "{""true"": 1}") /\
    fst (encode w k (set_numeric false o) n v (new_pickler h)) = Ret (u "{""True"": 1}").
Proof.
  exists W0, K0, PO, [ODict [(VBool true, VInt 1)]], (fun l => l = 0), 10, (VLoc 0). split; [split|].
  - intros l l' [<- ->]. split; [|discriminate]. cbn. constructor. constructor; [|constructor]. split; apply vi_flat; reflexivity.
  - apply hooks_K0; auto using no_hooks_K0; [apply vi_flat; reflexivity|]. intros l l' [_ ->] i G. discriminate G.
  - split; [apply vi_loc; split; reflexivity|]. repeat (split; [reflexivity|]). vm_compute. auto.
Qed.
Print Assumptions C69_bool_refuted.
