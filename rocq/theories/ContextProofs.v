(** encode and decode use the functions of custom handlers only with the context that is due to
    them: replacing handlers that agree on it changes nothing.  One lemma per model function that
    mentions the world. *)
From Verif Require Import PyStr Tags Json JsonText Base Heap Registry LoadClass Pickler Unpickler Signature.
Open Scope nat_scope.

(** What is due to a handler with a given signature. *)
Definition due (ctx : option val) (sg : signature) : option val :=
  match ctx with Some c => if accepts sg then Some c else None | None => None end.
(** A world with other handlers: [hf], [hr] act for flatten and restore, and have signatures
    [sf], [sr]. *)
Definition with_handlers (w : world) (hf : nat -> option val -> loc -> jobj -> fscript) (hr : nat -> option val -> jobj -> hscript)
  (sf sr : nat -> signature) : world :=
  {| w_cls := w_cls w; w_fun := w_fun w; w_mod := w_mod w; w_sub := w_sub w; w_import := w_import w;
     w_import_top := w_import_top w; w_sysmod := w_sysmod w; w_getattr := w_getattr w; w_new := w_new w; w_call := w_call w;
     w_blank := w_blank w; w_ext_callable := w_ext_callable w; w_setstate := w_setstate w; w_setter := w_setter w;
     w_eval := w_eval w; w_reg := w_reg w; w_hflat := hf; w_hrest := hr;
     w_hctx_flat := fun h => accepts (sf h); w_hctx_rest := fun h => accepts (sr h);
     w_clone := w_clone w; w_nonetype := w_nonetype w |}.

Section enc.
  Variables (w : world) (hf : nat -> option val -> loc -> jobj -> fscript) (hr : nat -> option val -> jobj -> hscript)
    (sf sr : nat -> signature) (k : hooks) (o : popts).
  Notation W1 := (with_handlers w hf hr sf sr).
  Notation W2 := (with_handlers w (fun h _ => hf h (due (po_ctx o) (sf h))) hr sf sr).
  Lemma p_mktyperef : mktyperef W1  = mktyperef W2 .
  Proof. unfold mktyperef. reflexivity. Qed.
  Lemma p_flatten_function : flatten_function W1 o = flatten_function W2 o.
  Proof. unfold flatten_function. reflexivity. Qed.
  Lemma p_truthy_p : truthy_p W1  = truthy_p W2 .
  Proof. unfold truthy_p. reflexivity. Qed.
  Lemma p_is_module_function : is_module_function W1  = is_module_function W2 .
  Proof. unfold is_module_function. reflexivity. Qed.
  Lemma p_is_function : is_function W1  = is_function W2 .
  Proof. unfold is_function. reflexivity. Qed.
  Lemma p_is_picklable : is_picklable W1  = is_picklable W2 .
  Proof. unfold is_picklable. rewrite ?p_is_module_function, ?p_is_function. reflexivity. Qed.
  Lemma p_is_readonly : is_readonly W1 o = is_readonly W2 o.
  Proof. unfold is_readonly. reflexivity. Qed.
  Lemma p_readonly_skip : readonly_skip W1 k o = readonly_skip W2 k o.
  Proof. unfold readonly_skip. rewrite ?p_is_readonly. reflexivity. Qed.
  Lemma p_sort_attrs : sort_attrs W1 o = sort_attrs W2 o.
  Proof. unfold sort_attrs. reflexivity. Qed.
  Lemma p_pflatten : pflatten W1 o = pflatten W2 o.
  Proof. unfold pflatten. rewrite ?p_sort_attrs. reflexivity. Qed.
  Lemma p_escape_key : escape_key W1 o = escape_key W2 o.
  Proof. unfold escape_key. rewrite ?p_pflatten. reflexivity. Qed.
  Lemma p_flatten_key_value_pair : flatten_key_value_pair W1 k o = flatten_key_value_pair W2 k o.
  Proof. unfold flatten_key_value_pair. rewrite ?p_is_picklable, ?p_readonly_skip. reflexivity. Qed.
  Lemma p_flatten_non_string_key_value_pair : flatten_non_string_key_value_pair W1 o = flatten_non_string_key_value_pair W2 o.
  Proof. unfold flatten_non_string_key_value_pair. rewrite ?p_is_picklable, ?p_escape_key. reflexivity. Qed.
  Lemma p_flatten_string_key_value_pair : flatten_string_key_value_pair W1 k o = flatten_string_key_value_pair W2 k o.
  Proof. unfold flatten_string_key_value_pair. rewrite ?p_is_picklable, ?p_escape_key. reflexivity. Qed.
  Lemma p_flatten_items : flatten_items W1 k o = flatten_items W2 k o.
  Proof. unfold flatten_items. rewrite ?p_flatten_key_value_pair, ?p_flatten_non_string_key_value_pair, ?p_flatten_string_key_value_pair. reflexivity. Qed.
  Lemma p_flatten_plain_dict : flatten_plain_dict W1 k o = flatten_plain_dict W2 k o.
  Proof. unfold flatten_plain_dict. rewrite ?p_flatten_items. reflexivity. Qed.
  Lemma p_flatten_clone : flatten_clone W1 k o = flatten_clone W2 k o.
  Proof. unfold flatten_clone. rewrite ?p_flatten_items. reflexivity. Qed.
  Lemma p_callable : callable W1  = callable W2 .
  Proof. unfold callable. reflexivity. Qed.
  Lemma p_factory_of : factory_of W1  = factory_of W2 .
  Proof. unfold factory_of. reflexivity. Qed.
  Lemma p_flatten_factory : flatten_factory W1 k o = flatten_factory W2 k o.
  Proof. unfold flatten_factory. rewrite ?p_mktyperef, ?p_flatten_clone, ?p_callable, ?p_factory_of. reflexivity. Qed.
  Lemma p_flatten_dict_subclass : flatten_dict_subclass W1 k o = flatten_dict_subclass W2 k o.
  Proof. unfold flatten_dict_subclass. rewrite ?p_flatten_items, ?p_flatten_plain_dict, ?p_flatten_factory. reflexivity. Qed.
  Lemma p_flatten_sequence_obj : flatten_sequence_obj W1 k o = flatten_sequence_obj W2 k o.
  Proof. unfold flatten_sequence_obj. rewrite ?p_flatten_plain_dict. reflexivity. Qed.
  Lemma p_flatten_obj_attrs : flatten_obj_attrs W1 k o = flatten_obj_attrs W2 k o.
  Proof. unfold flatten_obj_attrs. rewrite ?p_flatten_key_value_pair. reflexivity. Qed.
  Lemma p_flatten_newstyle_with_slots : flatten_newstyle_with_slots W1 k o = flatten_newstyle_with_slots W2 k o.
  Proof. unfold flatten_newstyle_with_slots. rewrite ?p_flatten_obj_attrs. reflexivity. Qed.
  Lemma p_reduce_of : reduce_of W1 k = reduce_of W2 k.
  Proof. unfold reduce_of. reflexivity. Qed.
  Lemma p_run_fscript : run_fscript W1 o = run_fscript W2 o.
  Proof. unfold run_fscript. rewrite ?p_pflatten. reflexivity. Qed.
  Lemma p_call_handler : call_handler W1 o = call_handler W2 o.
  Proof. unfold call_handler. rewrite ?p_run_fscript. reflexivity. Qed.
  Lemma p_is_newobj_fun : is_newobj_fun W1  = is_newobj_fun W2 .
  Proof. unfold is_newobj_fun. reflexivity. Qed.
  Lemma p_flatten_reduce_tuple : flatten_reduce_tuple W1  = flatten_reduce_tuple W2 .
  Proof. unfold flatten_reduce_tuple. rewrite ?p_truthy_p, ?p_is_newobj_fun. reflexivity. Qed.
  Lemma p_flatten_reduce_str : flatten_reduce_str W1  = flatten_reduce_str W2 .
  Proof. unfold flatten_reduce_str. reflexivity. Qed.
  Lemma p_flatten_inst_rest : flatten_inst_rest W1 k o = flatten_inst_rest W2 k o.
  Proof. unfold flatten_inst_rest. rewrite ?p_truthy_p, ?p_flatten_plain_dict, ?p_flatten_dict_subclass, ?p_flatten_sequence_obj, ?p_flatten_newstyle_with_slots, ?p_reduce_of. reflexivity. Qed.
  Lemma p_flatten_obj_instance : flatten_obj_instance W1 k o = flatten_obj_instance W2 k o.
  Proof. unfold flatten_obj_instance. rewrite ?p_reduce_of, ?p_call_handler, ?p_flatten_reduce_tuple, ?p_flatten_reduce_str, ?p_flatten_inst_rest. reflexivity. Qed.
  Lemma p_flatten_module : flatten_module W1 k o = flatten_module W2 k o.
  Proof. unfold flatten_module. reflexivity. Qed.
  Lemma p_is_enum : is_enum W1  = is_enum W2 .
  Proof. unfold is_enum. reflexivity. Qed.
  Lemma p_in_cycle : in_cycle W1  = in_cycle W2 .
  Proof. unfold in_cycle. rewrite ?p_is_enum. reflexivity. Qed.
  Lemma p_flatten_object : flatten_object W1 k o = flatten_object W2 k o.
  Proof. unfold flatten_object. rewrite ?p_flatten_obj_instance, ?p_flatten_module. reflexivity. Qed.
  Lemma p_ref_obj_instance : ref_obj_instance W1 k o = ref_obj_instance W2 k o.
  Proof. unfold ref_obj_instance. rewrite ?p_in_cycle, ?p_flatten_object. reflexivity. Qed.
  Lemma p_get_flattener : get_flattener W1 k o = get_flattener W2 k o.
  Proof. unfold get_flattener. rewrite ?p_mktyperef, ?p_flatten_function, ?p_flatten_plain_dict, ?p_ref_obj_instance. reflexivity. Qed.
  Lemma p_flatten_obj : flatten_obj W1 k o = flatten_obj W2 k o.
  Proof. unfold flatten_obj. rewrite ?p_in_cycle, ?p_get_flattener. reflexivity. Qed.
  Lemma p_flatten_impl : flatten_impl W1 k o = flatten_impl W2 k o.
  Proof. unfold flatten_impl. rewrite ?p_flatten_obj. reflexivity. Qed.
  Lemma p_flatten_step : flatten_step W1 k o = flatten_step W2 k o.
  Proof. unfold flatten_step. rewrite ?p_flatten_impl. reflexivity. Qed.
  Lemma p_flatten n : flatten W1 k o n = flatten W2 k o n.
  Proof. induction n as [|n IH]; [reflexivity|]. cbn [flatten]. rewrite IH, p_flatten_step. reflexivity. Qed.
  Lemma p_pickle n : pickle W1 k o n = pickle W2 k o n.
  Proof. unfold pickle. rewrite ?p_pflatten, ?p_flatten. reflexivity. Qed.
  Lemma p_encode n : encode W1 k o n = encode W2 k o n.
  Proof. unfold encode. rewrite ?p_pickle. reflexivity. Qed.
End enc.

Section dec.
  Variables (w : world) (hf : nat -> option val -> loc -> jobj -> fscript) (hr : nat -> option val -> jobj -> hscript)
    (sf sr : nat -> signature) (k : hooks) (o : uopts).
  Notation W1 := (with_handlers w hf hr sf sr).
  Notation W2 := (with_handlers w hf (fun h _ => hr h (due (uo_ctx o) (sr h))) sf sr).
  Lemma u_fresh_inst : fresh_inst W1  = fresh_inst W2 .
  Proof. unfold fresh_inst. reflexivity. Qed.
  Lemma u_run_cres : run_cres W1  = run_cres W2 .
  Proof. unfold run_cres. rewrite ?u_fresh_inst. reflexivity. Qed.
  Lemma u_do_new : do_new W1  = do_new W2 .
  Proof. unfold do_new. rewrite ?u_run_cres. reflexivity. Qed.
  Lemma u_do_call : do_call W1  = do_call W2 .
  Proof. unfold do_call. rewrite ?u_run_cres. reflexivity. Qed.
  Lemma u_u_truthy : u_truthy W1  = u_truthy W2 .
  Proof. unfold u_truthy. reflexivity. Qed.
  Lemma u_u_iter : u_iter W1  = u_iter W2 .
  Proof. unfold u_iter. reflexivity. Qed.
  Lemma u_u_callable : u_callable W1  = u_callable W2 .
  Proof. unfold u_callable. reflexivity. Qed.
  Lemma u_set_attr : set_attr W1  = set_attr W2 .
  Proof. unfold set_attr. reflexivity. Qed.
  Lemma u_object_setattr : object_setattr W1  = object_setattr W2 .
  Proof. unfold object_setattr. reflexivity. Qed.
  Lemma u_u_loadclass : u_loadclass W1  = u_loadclass W2 .
  Proof. unfold u_loadclass. reflexivity. Qed.
  Lemma u_restore_type : restore_type W1  = restore_type W2 .
  Proof. unfold restore_type. rewrite ?u_u_loadclass. reflexivity. Qed.
  Lemma u_restore_module : restore_module W1  = restore_module W2 .
  Proof. unfold restore_module. reflexivity. Qed.
  Lemma u_restore_repr_safe : restore_repr_safe W1  = restore_repr_safe W2 .
  Proof. unfold restore_repr_safe. reflexivity. Qed.
  Lemma u_restore_repr : restore_repr W1  = restore_repr W2 .
  Proof. unfold restore_repr. reflexivity. Qed.
  Lemma u_restore_function : restore_function W1  = restore_function W2 .
  Proof. unfold restore_function. rewrite ?u_u_loadclass. reflexivity. Qed.
  Lemma u_run_swap : run_swap W1  = run_swap W2 .
  Proof. unfold run_swap. rewrite ?u_set_attr. reflexivity. Qed.
  Lemma u_swap_proxies : swap_proxies W1  = swap_proxies W2 .
  Proof. unfold swap_proxies. rewrite ?u_run_swap. reflexivity. Qed.
  Lemma u_restore_set : restore_set W1  = restore_set W2 .
  Proof. unfold restore_set. reflexivity. Qed.
  Lemma u_dict_assign : dict_assign W1  = dict_assign W2 .
  Proof. unfold dict_assign. reflexivity. Qed.
  Lemma u_restore_dict : restore_dict W1 o = restore_dict W2 o.
  Proof. unfold restore_dict. rewrite ?u_dict_assign. reflexivity. Qed.
  Lemma u_inst_setitem : inst_setitem W1  = inst_setitem W2 .
  Proof. unfold inst_setitem. reflexivity. Qed.
  Lemma u_set_plain_attr : set_plain_attr W1 o = set_plain_attr W2 o.
  Proof. unfold set_plain_attr. rewrite ?u_set_attr, ?u_object_setattr. reflexivity. Qed.
  Lemma u_set_one : set_one W1 o = set_one W2 o.
  Proof. unfold set_one. rewrite ?u_set_attr, ?u_inst_setitem, ?u_set_plain_attr. reflexivity. Qed.
  Lemma u_restore_from_dict : restore_from_dict W1 o = restore_from_dict W2 o.
  Proof. unfold restore_from_dict. rewrite ?u_set_one. reflexivity. Qed.
  Lemma u_restore_from_vals : restore_from_vals W1 o = restore_from_vals W2 o.
  Proof. unfold restore_from_vals. rewrite ?u_set_one. reflexivity. Qed.
  Lemma u_as_dict : as_dict W1  = as_dict W2 .
  Proof. unfold as_dict. reflexivity. Qed.
  Lemma u_call_setstate : call_setstate W1  = call_setstate W2 .
  Proof. unfold call_setstate. reflexivity. Qed.
  Lemma u_has_newargs : has_newargs W1  = has_newargs W2 .
  Proof. unfold has_newargs. reflexivity. Qed.
  Lemma u_default_state : default_state W1 o = default_state W2 o.
  Proof. unfold default_state. rewrite ?u_restore_from_vals, ?u_as_dict, ?u_has_newargs. reflexivity. Qed.
  Lemma u_restore_state : restore_state W1 o = restore_state W2 o.
  Proof. unfold restore_state. rewrite ?u_default_state, ?u_call_setstate. reflexivity. Qed.
  Lemma u_seq_method : seq_method W1  = seq_method W2 .
  Proof. unfold seq_method. reflexivity. Qed.
  Lemma u_do_add : do_add W1  = do_add W2 .
  Proof. unfold do_add. reflexivity. Qed.
  Lemma u_restore_object_instance_variables : restore_object_instance_variables W1 o = restore_object_instance_variables W2 o.
  Proof. unfold restore_object_instance_variables. rewrite ?u_restore_from_dict, ?u_restore_state, ?u_seq_method, ?u_do_add. reflexivity. Qed.
  Lemma u_getargs : getargs W1  = getargs W2 .
  Proof. unfold getargs. rewrite ?u_u_loadclass. reflexivity. Qed.
  Lemma u_restore_args : restore_args W1  = restore_args W2 .
  Proof. unfold restore_args. reflexivity. Qed.
  Lemma u_restore_kwargs : restore_kwargs W1  = restore_kwargs W2 .
  Proof. unfold restore_kwargs. rewrite ?u_as_dict. reflexivity. Qed.
  Lemma u_new_attempt : new_attempt W1  = new_attempt W2 .
  Proof. unfold new_attempt. rewrite ?u_do_new, ?u_u_truthy, ?u_set_attr. reflexivity. Qed.
  Lemma u_is_tuple : is_tuple W1  = is_tuple W2 .
  Proof. unfold is_tuple. reflexivity. Qed.
  Lemma u_inst_factory : inst_factory W1  = inst_factory W2 .
  Proof. unfold inst_factory. reflexivity. Qed.
  Lemma u_restore_object_instance : restore_object_instance W1 o = restore_object_instance W2 o.
  Proof. unfold restore_object_instance. rewrite ?u_fresh_inst, ?u_do_call, ?u_u_callable, ?u_set_attr, ?u_restore_object_instance_variables, ?u_getargs, ?u_restore_args, ?u_restore_kwargs, ?u_new_attempt, ?u_is_tuple, ?u_inst_factory. reflexivity. Qed.
  Lemma u_run_hscript : run_hscript W1  = run_hscript W2 .
  Proof. unfold run_hscript. rewrite ?u_fresh_inst. reflexivity. Qed.
  Lemma u_restore_object : restore_object W1 o = restore_object W2 o.
  Proof. unfold restore_object. rewrite ?u_u_loadclass, ?u_restore_object_instance, ?u_run_hscript. reflexivity. Qed.
  Lemma u_is_newobj : is_newobj W1  = is_newobj W2 .
  Proof. unfold is_newobj. reflexivity. Qed.
  Lemma u_reduce_make : reduce_make W1  = reduce_make W2 .
  Proof. unfold reduce_make. rewrite ?u_do_new, ?u_do_call, ?u_u_iter, ?u_u_callable, ?u_is_newobj. reflexivity. Qed.
  Lemma u_setattr_items : setattr_items W1  = setattr_items W2 .
  Proof. unfold setattr_items. rewrite ?u_set_attr. reflexivity. Qed.
  Lemma u_reduce_state3 : reduce_state3 W1  = reduce_state3 W2 .
  Proof. unfold reduce_state3. rewrite ?u_u_truthy, ?u_u_iter, ?u_dict_assign, ?u_as_dict, ?u_setattr_items. reflexivity. Qed.
  Lemma u_reduce_state2 : reduce_state2 W1  = reduce_state2 W2 .
  Proof. unfold reduce_state2. rewrite ?u_set_attr, ?u_reduce_state3. reflexivity. Qed.
  Lemma u_reduce_state : reduce_state W1  = reduce_state W2 .
  Proof. unfold reduce_state. rewrite ?u_u_truthy, ?u_u_callable, ?u_call_setstate, ?u_reduce_state2. reflexivity. Qed.
  Lemma u_reduce_listitems : reduce_listitems W1  = reduce_listitems W2 .
  Proof. unfold reduce_listitems. rewrite ?u_u_truthy, ?u_u_iter, ?u_seq_method. reflexivity. Qed.
  Lemma u_reduce_dictitems : reduce_dictitems W1  = reduce_dictitems W2 .
  Proof. unfold reduce_dictitems. rewrite ?u_u_truthy, ?u_u_iter, ?u_dict_assign, ?u_inst_setitem. reflexivity. Qed.
  Lemma u_restore_reduce : restore_reduce W1  = restore_reduce W2 .
  Proof. unfold restore_reduce. rewrite ?u_reduce_make, ?u_reduce_state, ?u_reduce_listitems, ?u_reduce_dictitems. reflexivity. Qed.
  Lemma u_restore_step : restore_step W1 o = restore_step W2 o.
  Proof. unfold restore_step. rewrite ?u_restore_type, ?u_restore_module, ?u_restore_repr_safe, ?u_restore_repr, ?u_restore_function, ?u_restore_set, ?u_restore_dict, ?u_restore_object, ?u_restore_reduce. reflexivity. Qed.
  Lemma u_restore n : restore W1 o n = restore W2 o n.
  Proof. induction n as [|n IH]; [reflexivity|]. cbn [restore]. rewrite IH, u_restore_step. reflexivity. Qed.
  Lemma u_register_classes : register_classes W1  = register_classes W2 .
  Proof. unfold register_classes. reflexivity. Qed.
  Lemma u_unpickle n : unpickle W1 o n = unpickle W2 o n.
  Proof. unfold unpickle. rewrite ?u_swap_proxies, ?u_restore, ?u_register_classes. reflexivity. Qed.
  Lemma u_decode n : decode W1 o n = decode W2 o n.
  Proof. unfold decode. rewrite ?u_unpickle. reflexivity. Qed.
End dec.

