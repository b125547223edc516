(** C76: on_missing reports, and changes nothing else. *)
From Verif Require Import PyStr Tags Json JsonText Base Heap Registry LoadClass Unpickler SpecGraph SpecMissing MissCong RTProps Samples PropRoundtrip PropMisses.
Open Scope nat_scope.

(** C76.  For every text, world (handlers included), class argument and other options, from every
    state: with a policy p (warn, error, a function, anything else) decode ends as with 'ignore': the
    same value or exception, the same objects, references, class table and the same calls in the same
    order, apart from warnings and calls of the function; unless it raises an exception that p raises
    itself: ClassNotFoundError for 'error', one of the function's own. *)
Theorem C76_reports :
  forall w o p n classes text s, (forall e, may_raise p e -> is_TypeError e = false) ->
  (exists r s1 s2, decode w (set_missing MIgnore o) n classes text s = (r, s1) /\ decode w (set_missing p o) n classes text s = (r, s2) /\
     u_heap s2 = u_heap s1 /\ u_objs s2 = u_objs s1 /\ u_idx s2 = u_idx s1 /\ u_prox s2 = u_prox s1 /\
     u_swaps s2 = u_swaps s1 /\ u_classes s2 = u_classes s1 /\ quiet (u_log s2) = quiet (u_log s1)) \/
  exists e, may_raise p e /\ fst (decode w (set_missing p o) n classes text s) = Exc e.
Proof.
  intros w o p n cl text s TB. destruct (decode_missing w o p n cl text TB s s (alike_refl s)) as [[E A]|R]; [left|right; exact R].
  destruct (decode w (set_missing MIgnore o) n cl text s) as [r s1], (decode w (set_missing p o) n cl text s) as [r2 s2].
  cbn [fst snd] in *. subst r2. exists r, s1, s2. destruct A as (L & -> & Q). repeat (split; [reflexivity|]). exact Q.
Qed.
Print Assumptions C76_reports.
(** 'warn', and whatever is none of the words and no function, never change the outcome. *)
Theorem C76_warn :
  forall w o p n classes text s, p = MWarn \/ p = MOther ->
  fst (decode w (set_missing p o) n classes text s) = fst (decode w (set_missing MIgnore o) n classes text s) /\
  u_heap (snd (decode w (set_missing p o) n classes text s)) = u_heap (snd (decode w (set_missing MIgnore o) n classes text s)).
Proof.
  intros w o p n cl text s P. assert (NB : forall e, ~ may_raise p e) by (destruct P as [-> | ->]; intros e []).
  destruct (C76_reports w o p n cl text s) as [(r & s1 & s2 & E1 & E2 & H & _)|(e & Be & _)].
  - intros e X. destruct (NB e X).
  - rewrite E1, E2. split; auto.
  - destruct (NB e Be).
Qed.
Print Assumptions C76_warn.
(** What 'error' lets through is what 'ignore' gives. *)
Theorem C76_error :
  forall w o n classes text s v s2, decode w (set_missing MError o) n classes text s = (Ret v, s2) ->
  exists s1, decode w (set_missing MIgnore o) n classes text s = (Ret v, s1) /\ u_heap s1 = u_heap s2.
Proof.
  intros w o n cl text s v s2 D. destruct (C76_reports w o MError n cl text s) as [(r & s1 & s2' & E1 & E2 & H & _)|(e & _ & R)].
  - intros e ->. reflexivity.
  - rewrite D in E2. injection E2 as <- <-. exists s1. rewrite E1. auto.
  - rewrite D in R. discriminate.
Qed.
Print Assumptions C76_error.

(** A function that raises TypeError: inside a tuple the error is swallowed, and the tuple is empty. *)
Definition p_type : missing := MCall (fun _ => Some ETypeError).
Theorem C76_type_error_refuted :
  exists text v, fst (decode W0 (set_missing MIgnore UO) 40 None text (new_unpickler [])) = Ret (VTuple [VInt 1; v; VInt 2]) /\
    fst (decode W0 (set_missing p_type UO) 40 None text (new_unpickler [])) = Ret (VTuple []).
Proof.
  exists (u "{""py/tuple"": [1, {""py/object"": ""no.Such"", ""a"": 3}, 2]}"). eexists.
  split; vm_compute; reflexivity.
Qed.
Print Assumptions C76_type_error_refuted.

(** One class that is there and one that is not. *)
Definition miss_text : pystr := u "[{""py/object"": ""no.Such"", ""a"": 1}, {""py/object"": ""m.Node"", ""a"": 2}]".
Definition W_node : world := world_of [cbase "Node"] (w_new W0).
Example C76_case :
  (forall e, may_raise (MCall (fun _ => Some EValueError)) e -> is_TypeError e = false) /\
  fst (decode W_node (set_missing MIgnore UO) 40 None miss_text (new_unpickler [])) = fst (decode W_node (set_missing MWarn UO) 40 None miss_text (new_unpickler [])) /\
  fst (decode W_node (set_missing MError UO) 40 None miss_text (new_unpickler [])) = Exc EClassNotFound /\
  fst (decode W_node (set_missing (MCall (fun _ => Some EValueError)) UO) 40 None miss_text (new_unpickler [])) = Exc EValueError /\
  In (EvWarn (u "no.Such")) (u_log (snd (decode W_node (set_missing MWarn UO) 40 None miss_text (new_unpickler [])))).
Proof.
  split; [intros e [n F]; injection F as <-; reflexivity|]. repeat (split; [vm_compute; reflexivity|]). vm_compute. auto 10.
Qed.
(** A document that 'error' lets through. *)
Example C76_error_case : exists v s2, decode W_node (set_missing MError UO) 40 None (u "[{""py/object"": ""m.Node"", ""a"": 2}]") (new_unpickler []) = (Ret v, s2).
Proof. eexists. eexists. vm_compute. reflexivity. Qed.
