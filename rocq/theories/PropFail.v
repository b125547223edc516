(** C20: more about fail_safe. *)
From Verif Require Import PyStr Tags Json JsonText B64 B85 Base Heap Registry Pickler Unpickler SpecRun SpecFail FailProofs BalanceProofs Samples.
From Verif Require Import PropOptions.
Open Scope nat_scope.

(** C20.  Whatever fails on the way, a call of the pickler from inside another one (by a
    handler, with reset=False) ends at the depth at which it began, ... *)
Theorem C20_balanced :
  forall w k o f n v s j s', po_fail_safe o = Some f -> po_sort o = false -> po_readonly o = false ->
  (forall e, is_Exception e = true -> exists j, f e = Ret j) -> handlers_keep w ->
  (0 <= p_depth s)%Z -> pickle w k o n false v s = (Ret j, s') -> p_depth s' = p_depth s.
Proof. intros w k o f n v s j s' Of Os Or Hf HK. exact (inner_balanced w k o f Of Os Or Hf HK n v s j s'). Qed.
Print Assumptions C20_balanced.
(** ... and when encode returns the pickler is at the depth of a new one and remembers no
    objects. *)
Theorem C20_balanced_encode :
  forall w k o f n v s t s', po_fail_safe o = Some f -> po_sort o = false -> po_readonly o = false ->
  (forall e, is_Exception e = true -> exists j, f e = Ret j) -> handlers_keep w ->
  encode w k o n v s = (Ret t, s') -> p_depth s' = (-1)%Z /\ p_objs s' = [].
Proof. intros w k o f n v s t s' Of Os Or Hf HK. exact (encode_balanced w k o f Of Os Or Hf HK n v s t s'). Qed.
Print Assumptions C20_balanced_encode.
(** At any place in a graph: an object whose handler, __reduce__, __getnewargs_ex__,
    __getnewargs__, __getinitargs__ or __getstate__ raises e becomes fail_safe(e); the depth
    and the objects are as before.  Interrupts go on. *)
Theorem C20_user_code_raises :
  forall w k o f n l i e s, po_fail_safe o = Some f -> po_sort o = false ->
  (forall e, is_Exception e = true -> exists j, f e = Ret j) ->
  po_unpicklable o = true -> po_make_refs o = true -> po_props o = false -> po_max_depth o = None ->
  hget (p_heap s) l = Some (OInst i) -> raises_at w k l i e -> ~ In (VLoc l) (p_objs s) -> (0 <= p_depth s)%Z ->
  if is_Exception e
  then exists j s', f e = Ret j /\ pickle w k o (S n) false (VLoc l) s = (Ret j, s') /\ p_heap s' = p_heap s /\ p_depth s' = p_depth s
  else exists s', pickle w k o (S n) false (VLoc l) s = (Exc e, s').
Proof. intros w k o f n l i e s Of Os Hf Ou Om Op Od. exact (raises_inner w k o f Of Os Hf Ou Om Op Od n l i e s). Qed.
Print Assumptions C20_user_code_raises.

(** Two levels down in [[bad, [1]], [2]]. *)
Definition H_nest : heap := [ OList [VLoc 1; VLoc 4]; OList [VLoc 2; VLoc 3]; plain_inst cState 5; OList [VInt 1]; OList [VInt 2]; ODict [] ].
Definition PO_nest (m : option Z) : popts :=
  {| po_unpicklable := true; po_make_refs := true; po_keys := false; po_max_depth := m;
     po_warn := false; po_max_iter := None; po_b85 := false; po_fail_safe := Some fs_null; po_props := false;
     po_readonly := false; po_root := VNone; po_sort := false; po_ctx := None; po_numeric := false |}.
Definition K_bad (e : exn) : hooks := K_some (fun l => if Nat.eqb l 2 then Some e else None).
Example C20_nested :
  raises_at W0 (K_bad ERuntimeError) 2 (mkInst cState (Some 5) [] [] [] None CSrc [] 0) ERuntimeError /\
  show (enc W0 (K_bad ERuntimeError) (PO_nest None) 12 H_nest (VLoc 0)) = Ret "[[""failed"", [1]], [2]]"%string /\
  (exists s', encode W0 (K_bad ERuntimeError) (PO_nest None) 12 (VLoc 0) (new_pickler H_nest) = (Ret (u "[[""failed"", [1]], [2]]"), s')
              /\ p_depth s' = (-1)%Z) /\
  show (enc W0 (K_bad EKeyboardInterrupt) (PO_nest None) 12 H_nest (VLoc 0)) = Exc EKeyboardInterrupt.
Proof.
  split; [|split; [vm_compute; reflexivity|split; [|vm_compute; reflexivity]]].
  - apply ra_getstate; reflexivity.
  - eexists. split; [vm_compute; reflexivity|reflexivity].
Qed.
