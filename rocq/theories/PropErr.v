(** C54: exceptions of user code reach the caller of decode. *)
From Verif Require Import PyStr Tags Json JsonText Base Heap Registry LoadClass Unpickler SpecErr ErrProofs Samples.
Open Scope nat_scope.

(** C54.  If a handler, a constructor, __setstate__, a state setter, an evaluated string or the
    on_missing callback raises e during a call of decode, then this is the last thing that
    happens and decode raises e; TypeError and AttributeError excepted. *)
Theorem C54_error_reported :
  forall w o n classes text t r t' L e,
  decode w o n classes text t = (r, t') -> u_log t' = u_log t ++ L ->
  In (EvRaise e) L -> used_internally e = false ->
  r = Exc e /\ exists before_, L = before_ ++ [EvRaise e].
Proof.
  intros w o n classes text t r t' L e D EL I U. destruct (decode_tells w o n classes text t) as (L2 & E2 & H).
  rewrite D in E2, H. cbn [fst snd] in *. rewrite EL in E2. apply List.app_inv_head in E2. subst L2.
  destruct H as [H|(L' & e' & -> & C & U' & ->)]; [destruct (H e); split; auto|].
  apply in_app_iff in I as [I|[X|[]]]; [destruct (C e); split; auto|]. inversion X; subst e'. split; auto. exists L'. auto.
Qed.
Print Assumptions C54_error_reported.

(** A handler that restores a part of its document before it raises e. *)
Definition W_err (e : exn) : world :=
  sample_world (mkReg [(RCls cHandled, 0)] []) (fun _ _ _ _ => FDone None)
    (fun _ _ ob => HRestore (jfield (u "a") ob) (fun _ => HRaise e)).
Definition text_err : pystr := u "[{""py/tuple"": [1, {""py/object"": ""m.Handled"", ""a"": {""py/object"": ""m.Node""}}]}, {""py/object"": ""m.Node""}]".
Example C54_case :
  fst (dec (W_err EValueError) UO 20 text_err) = Exc EValueError /\ In (EvRaise EValueError) (u_log (snd (dec (W_err EValueError) UO 20 text_err))).
Proof. vm_compute. split; auto 10. Qed.

(** A TypeError inside a tuple or set is taken for a malformed tuple: the tuple comes back
    empty and nothing is reported. *)
Theorem C54_type_error_refuted :
  exists w text v t l, dec w UO 20 text = (Ret v, t) /\ In (EvRaise ETypeError) (u_log t) /\
    v = VLoc l /\ exists x, hget (u_heap t) l = Some (OList [VTuple []; x]).
Proof.
  exists (W_err ETypeError), text_err. eexists. eexists. eexists. split; [vm_compute; reflexivity|].
  split; [vm_compute; auto 10|]. split; [reflexivity|]. eexists. vm_compute. reflexivity.
Qed.
Print Assumptions C54_type_error_refuted.

(** The same inside the value of __reduce__: an empty list takes the place of the object. *)
Definition text_err_reduce : pystr := u "[{""py/reduce"": [{""py/type"": ""m.Node""}, {""py/tuple"": []}, {""py/object"": ""m.Handled"", ""a"": 1}]}, {""py/object"": ""m.Node""}]".
Theorem C54_type_error_reduce_refuted :
  exists w text v t l, dec w UO 20 text = (Ret v, t) /\ In (EvRaise ETypeError) (u_log t) /\
    v = VLoc l /\ exists x l2, hget (u_heap t) l = Some (OList [VLoc l2; x]) /\ hget (u_heap t) l2 = Some (OList []).
Proof.
  exists (W_err ETypeError), text_err_reduce. eexists. eexists. eexists. split; [vm_compute; reflexivity|].
  split; [vm_compute; auto 10|]. split; [reflexivity|]. eexists. eexists. split; vm_compute; reflexivity.
Qed.
Print Assumptions C54_type_error_reduce_refuted.

(** An AttributeError of __setstate__ is taken for a missing __setstate__ when the object was
    written with its __reduce__ value. *)
Definition W_setstate : world :=
  {| w_cls := w_cls W0; w_fun := w_fun W0; w_mod := w_mod W0; w_sub := w_sub W0; w_import := w_import W0; w_import_top := w_import_top W0; w_sysmod := w_sysmod W0;
     w_getattr := w_getattr W0; w_new := w_new W0; w_call := w_call W0; w_blank := w_blank W0; w_ext_callable := w_ext_callable W0;
     w_setstate := fun _ _ _ => Some EAttributeError; w_setter := w_setter W0;
     w_eval := w_eval W0; w_reg := w_reg W0; w_hflat := w_hflat W0; w_hrest := w_hrest W0; w_hctx_flat := w_hctx_flat W0; w_hctx_rest := w_hctx_rest W0;
     w_clone := w_clone W0; w_nonetype := w_nonetype W0 |}.
Theorem C54_attribute_error_refuted :
  exists w text v t l i d, dec w UO 20 text = (Ret v, t) /\ In (EvRaise EAttributeError) (u_log t) /\
    v = VLoc l /\ hget (u_heap t) l = Some (OInst i) /\ c_setstate (w_cls w (i_cls i)) = true /\
    i_dict i = Some d /\ hget (u_heap t) d = Some (ODict [(VStr (u "a"), VInt 1)]).
Proof.
  exists W_setstate, (u "{""py/reduce"": [{""py/type"": ""m.State""}, {""py/tuple"": []}, {""a"": 1}]}"). do 5 eexists.
  split; [vm_compute; reflexivity|]. split; [vm_compute; auto 10|]. split; [reflexivity|]. split; [vm_compute; reflexivity|].
  split; [reflexivity|]. split; [reflexivity|]. vm_compute. reflexivity.
Qed.
Print Assumptions C54_attribute_error_refuted.
