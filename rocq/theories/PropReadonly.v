(** C75: handle_readonly=True when decoding. *)
From Verif Require Import PyStr Tags Json JsonText Base Heap Registry LoadClass Unpickler SpecGraph SpecReadonly ReadonlyCong RTProps Samples PropRoundtrip PropMisses.
Open Scope nat_scope.

(** C75.  For every text, world (handlers included), class argument and other options, from every
    state: with handle_readonly=True decode ends as without it, in the same state, unless without it
    AttributeError is raised. *)
Theorem C75_decode :
  forall w o n classes text s,
  decode w (set_readonly true o) n classes text s = decode w (set_readonly false o) n classes text s \/
  fst (decode w (set_readonly false o) n classes text s) = Exc EAttributeError.
Proof.
  intros w o n cl text s. destruct (decode_readonly w o n cl text s) as [E|(_ & s1 & E)]; [left; exact E|right]. rewrite E. reflexivity.
Qed.
Print Assumptions C75_decode.
(** In a program without subclasses of int and str that have empty __slots__ there is no difference at all. *)
Theorem C75_no_such_class :
  forall w o n classes text s, (forall c, c_slots (w_cls w c) = Some [] -> c_intstr (w_cls w c) = false) ->
  decode w (set_readonly true o) n classes text s = decode w (set_readonly false o) n classes text s.
Proof.
  intros w o n cl text s N. destruct (decode_readonly w o n cl text s) as [E|((c & S & I) & _)]; [exact E|]. rewrite (N c S) in I. discriminate.
Qed.
Print Assumptions C75_no_such_class.

(** A class like SafeString: without the option AttributeError, with it the attribute is left out
    and the rest of the document is there. *)
Definition cSafe : cinfo :=
  {| c_name := u "Safe"; c_qualname := u "Safe"; c_module := u "m"; c_types_name := None;
     c_kind := KPlain; c_dict := false; c_slots := Some []; c_exclude := []; c_enum := false;
     c_isfun := false; c_getstate := false; c_setstate := false; c_newargs := false;
     c_newargs_ex := false; c_initargs := false; c_reduce := false; c_fields := None;
     c_deffac := false; c_hash := true; c_callable := false; c_intstr := true;
     c_setattr := fun _ => SAOk |}.
Definition W_safe : world := world_of [cSafe; cbase "Node"] (w_new W0).
Definition safe_text : pystr := u "[{""py/object"": ""m.Safe"", ""title"": 1}, {""py/object"": ""m.Node"", ""a"": 2}]".
Example C75_skipped :
  fst (decode W_safe (set_readonly false UO) 40 None safe_text (new_unpickler [])) = Exc EAttributeError /\
  exists v s l1 l2 i, decode W_safe (set_readonly true UO) 40 None safe_text (new_unpickler []) = (Ret v, s) /\
    v = VLoc 0 /\ hget (u_heap s) 0 = Some (OList [VLoc l1; VLoc l2]) /\ hget (u_heap s) l1 = Some (OInst i) /\ i_cls i = 0 /\
    after W_safe (u_heap s) (VLoc l2) [PAttr (u "a")] = Some (VInt 2).
Proof.
  split; [vm_compute; reflexivity|]. do 5 eexists. split; [vm_compute; reflexivity|]. split; [reflexivity|]. split; [vm_compute; reflexivity|].
  split; [vm_compute; reflexivity|]. split; reflexivity.
Qed.
(** A document of other classes, and a world without such classes. *)
Example C75_case :
  (forall c, c_slots (w_cls W0 c) = Some [] -> c_intstr (w_cls W0 c) = false) /\
  fst (decode W_safe (set_readonly false UO) 40 None (u "{""py/object"": ""m.Node"", ""a"": [1]}") (new_unpickler [])) <> Exc EAttributeError.
Proof.
  split; [|vm_compute; discriminate]. intros c.
  do 40 (destruct c as [|c]; [intros S; first [reflexivity|discriminate S]|]). intros S. destruct c; reflexivity.
Qed.
