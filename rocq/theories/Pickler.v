(** Model of /repo/jsonpickle/pickler.py: class Pickler and the function encode.

    Every definition cites the lines it transcribes.  [rec] stands for the recursive call
    of [Pickler._flatten]; the knot is tied by fuel in [flatten].  The pickler's heap is
    part of the state because sorting, [handle_readonly] and iterators change the input.
    Simplifications: use_decimal and Cython functions are absent; [_seen]
    only keeps objects alive and is absent; handlers for module objects and properties of
    modules are absent; loops over a dict see the dict as it was when the loop started. *)
From Verif Require Import PyStr Tags Json JsonText B64 B85 Base Heap Registry.
Open Scope nat_scope.
Local Open Scope monad_scope.

(** Constructor arguments of Pickler (pickler.py:210-227). *)
Record popts : Type := mkPopts {
  po_unpicklable : bool;
  po_make_refs : bool;
  po_keys : bool;
  po_max_depth : option Z;
  po_warn : bool;
  po_max_iter : option nat;
  po_b85 : bool;
  po_fail_safe : option (exn -> res json);
  po_props : bool;                     (* include_properties *)
  po_readonly : bool;                  (* handle_readonly *)
  po_root : val;                       (* original_object *)
  po_sort : bool;                      (* _determine_sort_keys(), pickler.py:267-272 *)
  po_ctx : option val;                 (* handler_context *)
  po_numeric : bool                    (* numeric_keys *)
}.

(** Pickler state (pickler.py:235-248).  [_objs] maps ids to consecutive numbers, so it is
    the list of objects in order of registration. *)
Record pst : Type := mkPst {
  p_heap : heap;
  p_objs : list val;
  p_depth : Z;
  p_cache : list (val * json);         (* _flattened *)
  p_warned : list val                  (* arguments of _pickle_warning *)
}.
(** Bookkeeping of the model, no counterpart in the source: MP and the set_ functions. *)
Definition MP := M pst.

Definition set_heap (h : heap) (s : pst) : pst := mkPst h (p_objs s) (p_depth s) (p_cache s) (p_warned s).
Definition set_objs (x : list val) (s : pst) : pst := mkPst (p_heap s) x (p_depth s) (p_cache s) (p_warned s).
Definition set_depth (d : Z) (s : pst) : pst := mkPst (p_heap s) (p_objs s) d (p_cache s) (p_warned s).
Definition set_cache (c : list (val * json)) (s : pst) : pst :=
  mkPst (p_heap s) (p_objs s) (p_depth s) c (p_warned s).
Definition add_warned (v : val) (s : pst) : pst :=
  mkPst (p_heap s) (p_objs s) (p_depth s) (p_cache s) (p_warned s ++ [v]).

(** Python: key in dict and dict[key], for _objs (pickler.py:313-338) *)
Fixpoint index_of (v : val) (l : list val) : option nat :=
  match l with
  | [] => None
  | x :: r => if val_eqb v x then Some 0 else option_map S (index_of v r)
  end.
Fixpoint cache_get (v : val) (c : list (val * json)) : option json :=
  match c with
  | [] => None
  | (x, j) :: r => if val_eqb v x then Some j else cache_get v r
  end.

(** pickler.py:294-298 *)
Definition p_reset_st (s : pst) : pst := mkPst (p_heap s) [] (-1)%Z [] (p_warned s).
Definition p_reset : MP unit := modify p_reset_st.
(** pickler.py:300-302 *)
Definition push : MP unit := modify (fun s => set_depth (p_depth s + 1)%Z s).
(** pickler.py:304-311 *)
Definition pop {A} (a : A) : MP A :=
  modify (fun s => let s' := set_depth (p_depth s - 1)%Z s in
                   if Z.eqb (p_depth s') (-1) then p_reset_st s' else s') ;;;
  ret a.

(** Python's conversion of a primitive to the JSON value the backend sees. *)
(** util.py:160-170 with what json.dumps makes of such a value *)
Definition prim_json (v : val) : option json :=
  match v with
  | VNone => Some JNull
  | VBool b => Some (JBool b)
  | VInt z => Some (JInt z)
  | VFloat t => Some (JFloat t)
  | VStr s => Some (JStr s)
  | _ => None
  end.

Section pickler.
  Variable w : world.
  Variable k : hooks.
  Variable o : popts.

  Notation cls := (w_cls w).

  (** pickler.py:313-324 [_log_ref] and 326-334 [_mkref]. *)
  Definition log_ref (v : val) : MP bool :=
    fun s => match index_of v (p_objs s) with
             | Some _ => (Ret false, s)
             | None => (Ret true, set_objs (p_objs s ++ [v]) s)
             end.
  Definition mkref (v : val) : MP bool :=
    is_new <- log_ref v ;;
    ret (negb (po_unpicklable o) || negb (po_make_refs o) || is_new).

  (** pickler.py:336-338 *)
  Definition getref (v : val) : MP json :=
    objs <- gets p_objs ;;
    ret (JObj [(ID, match index_of v objs with Some n => JInt (Z.of_nat n) | None => JNull end)]).

  (** pickler.py:413-415 *)
  Definition pickle_warning (v : val) : MP unit :=
    if po_warn o then modify (add_warned v) else ret tt.

  (** pickler.py:410-411; [_max_depth] may be None *)
  Definition max_reached : MP bool :=
    d <- gets p_depth ;;
    ret (match po_max_depth o with Some m => Z.eqb d m | None => false end).

  (** pickler.py:385-386 *)
  Definition flatten_bytestring (b : bytes) : json :=
    if po_b85 o then JObj [(B85, JStr (b85encode b))] else JObj [(B64, JStr (b64encode b))].

  (** pickler.py:192-199 *)
  Definition mktyperef (c : nat) : json := JObj [(TYPE_, JStr (importable_name (cls c)))].

  (** pickler.py:448-454 *)
  Definition flatten_function (f : nat) : json :=
    if po_unpicklable o then JObj [(FUNCTION, JStr (importable_fname (w_fun w f)))] else JNull.

  (** the object at an address *)
  Definition get_obj (l : loc) : MP obj :=
    h <- gets p_heap ;;
    match hget h l with Some ob => ret ob | None => raise EUnmodelled end.
  Definition truthy_p (v : val) : MP bool := gets (fun s => truthy cls (p_heap s) v).

  (** util.py:239-257 [_is_function] (type in FUNCTION_TYPES) and 300-318 [_is_module_function]. *)
  Definition is_module_function (v : val) : bool :=
    match v with VFun f => f_modfun (w_fun w f) | _ => false end.
  Definition is_function (h : heap) (v : val) : bool :=
    match v with
    | VFun _ => true
    | VLoc l => match hget h l with Some (OInst i) => c_isfun (cls (i_cls i)) | _ => false end
    | _ => false
    end.
  (** util.py:260-277 *)
  Definition is_picklable (h : heap) (name v : val) : bool :=
    match name with
    | VStr n => negb (is_reserved n) && (is_module_function v || negb (is_function h v))
    | _ => is_module_function v || negb (is_function h v)
    end.

  (** [repr(v)] *)
  Definition py_repr (v : val) : res pystr :=
    match v with
    | VNone => Ret (u "None")
    | VBool b => Ret (if b then u "True" else u "False")
    | VInt z => Ret (string_of_Z z)
    | _ => k_repr k v
    end.
  (** pickler.py:479-488 and 850-859: a non-string key becomes a string.  With numeric_keys numbers are
      left to the backend, whose text for them is given here; two keys with one text stand in the
      model's document once, in the code's twice, of which a JSON reader takes the second.  Keys of
      subclasses of int and float are taken as other objects. *)
  Definition key_string (v : val) : res pystr :=
    match v with
    | VNone => Ret (u "null")
    | VStr s => Ret s
    | VBool b => Ret (if po_numeric o then (if b then u "true" else u "false") else (if b then u "True" else u "False"))
    | VFloat t => if po_numeric o then Ret t else match k_repr k v with
           | Exc e => if is_Exception e then k_str k v else Exc e
           | r => r
           end
    | _ => match py_repr v with
           | Exc e => if is_Exception e then k_str k v else Exc e
           | r => r
           end
    end.

  (** util.py:344-355 [_is_readonly(self._original_object, attr, value)]: tries the
      assignment on the object passed to encode. *)
  Definition is_readonly (attr : pystr) (v : val) : MP bool :=
    match po_root o with
    | VLoc l =>
        h <- gets p_heap ;;
        match inst_setattr cls h l attr v with
        | Ret h' => modify (set_heap h') ;;; ret false
        | Exc e => if is_AttributeError e || is_TypeError e then ret true else raise e
        | OOF => oof
        end
    | VType _ | VFun _ | VMod _ | VExt _ => raise EUnmodelled
    | _ => ret true
    end.
  (** pickler.py:472-476 with util.py:344-355 *)
  Definition readonly_skip (name v : val) : MP bool :=
    if po_readonly o then
      match name with
      | VStr n => if smem n (k_members k (po_root o)) then is_readonly n v else ret false
      | _ => ret false
      end
    else ret false.

  Section step.
    Variable fuel : nat.
    Variable rec : val -> MP json.     (* self._flatten *)

    (** pickler.py:351-383 [Pickler.flatten] as called by handlers and by encode.
        274-292 [_sort_attrs]: replaces [__dict__] by a new sorted dict. *)
    Fixpoint sinsert (kv : val * val) (l : list (val * val)) : list (val * val) :=
      match l with
      | [] => [kv]
      | kv' :: r =>
          match fst kv, fst kv' with
          | VStr a, VStr b => if str_leb a b then kv :: l else kv' :: sinsert kv r
          | _, _ => kv :: l
          end
      end.
    (** sorted(obj.items()) (pickler.py:274-292) *)
    Definition sort_items (l : list (val * val)) : list (val * val) := fold_right sinsert [] l.
    Definition all_str_keys (l : list (val * val)) : bool :=
      forallb (fun kv => match fst kv with VStr _ => true | _ => false end) l.
    (** pickler.py:274-292 *)
    Definition sort_attrs (v : val) : MP unit :=
      h <- gets p_heap ;;
      match v with
      | VLoc l =>
          match hget h l with
          | Some (OInst i) =>
              if (match c_slots (cls (i_cls i)) with Some _ => true | None => false end) && po_warn o
              then raise ETypeError
              else match i_dict i with
                   | Some d =>
                       match hget h d with
                       | Some (ODict items) =>
                           if all_str_keys items then
                             let (d', h') := halloc (ODict (sort_items items)) h in
                             match inst_setattr cls h' l (u "__dict__") (VLoc d') with
                             | Ret h'' => modify (set_heap h'')
                             | Exc e => if is_AttributeError e || is_TypeError e then ret tt else raise e
                             | OOF => oof
                             end
                           else ret tt
                       | _ => raise EUnmodelled
                       end
                   | None => ret tt
                   end
          | _ => ret tt
          end
      | _ => ret tt
      end.
    Definition pflatten (reset : bool) (v : val) : MP json :=
      (if reset then p_reset else ret tt) ;;;
      (if po_sort o then sort_attrs v else ret tt) ;;;
      rec v.

    (** pickler.py:810-818: [encode(k, reset=False, keys=True, context=self, ...)], whose
        backend call is [json.dumps] (pickler.py:176-178). *)
    Definition escape_key (key : val) : MP pystr :=
      j <- pflatten false key ;; ret (JSON_KEY ++ dumps j).

    (** pickler.py:464-491 *)
    Definition flatten_key_value_pair (key v : val) (data : jobj) : MP jobj :=
      h <- gets p_heap ;;
      if negb (is_picklable h key v) then ret data else
      skip <- readonly_skip key v ;;
      if skip then ret data else
      ks <- lift (key_string key) ;;
      j <- rec v ;;
      ret (sset ks j data).

    (** pickler.py:820-829 *)
    Definition flatten_non_string_key_value_pair (key v : val) (data : jobj) : MP jobj :=
      h <- gets p_heap ;;
      if negb (is_picklable h key v) then ret data else
      match key with
      | VStr _ => ret data
      | _ => if po_keys o then
               ks <- escape_key key ;; j <- rec v ;; ret (sset ks j data)
             else ret data
      end.

    (** pickler.py:831-862 *)
    Definition flatten_string_key_value_pair (key v : val) (data : jobj) : MP jobj :=
      h <- gets p_heap ;;
      match key with
      | VStr s =>
          if (prefixb JSON_KEY s || is_reserved s) && po_keys o then
            ks <- escape_key key ;; j <- rec v ;; ret (sset ks j data)
          else if negb (is_picklable h key v) then ret data
          else j <- rec v ;; ret (sset s j data)
      | _ =>
          if negb (is_picklable h key v) then ret data
          else if po_keys o then ret data
          else ks <- lift (key_string key) ;; j <- rec v ;; ret (sset ks j data)
      end.

    (** util.py:541-552 [items] with [exclude] (names). *)
    Definition excluded (exclude : list pystr) (key : val) : bool :=
      match key with VStr s => smem s exclude | _ => false end.
    Definition items (exclude : list pystr) (d : list (val * val)) : list (val * val) :=
      filter (fun kv => negb (excluded exclude (fst kv))) d.

    (** pickler.py:876-890, the body of [_flatten_dict_obj] for the items themselves. *)
    Definition flatten_items (d : list (val * val)) (exclude : list pystr) (data : jobj) : MP jobj :=
      if po_keys o then
        data1 <- foldM (fun dt kv => flatten_string_key_value_pair (fst kv) (snd kv) dt) (items exclude d) data ;;
        foldM (fun dt kv => flatten_non_string_key_value_pair (fst kv) (snd kv) dt) (items exclude d) data1
      else
        foldM (fun dt kv => flatten_key_value_pair (fst kv) (snd kv) dt) (items exclude d) data.

    (** [_flatten_dict_obj(d, data)] for a plain dict at location d (also [obj.__dict__]):
        plain dicts have neither [default_factory] nor [__dict__]. *)
    Definition flatten_plain_dict (d : loc) (exclude : list pystr) (data : jobj) : MP jobj :=
      ob <- get_obj d ;;
      match ob with
      | ODict its => flatten_items its exclude data
      | _ => raise EUnmodelled
      end.

    (** [self._flatten_obj_instance(handlers.CloneFactory(x))], pickler.py:913: a fresh
        plain instance with the single attribute [exemplar]. *)
    Definition flatten_clone (x : val) : MP json :=
      let d0 := if po_props o then [(PROPERTY, JObj [])] else [] in
      let d1 := if po_unpicklable o then sset OBJECT (JStr (importable_name (cls (w_clone w)))) d0 else d0 in
      data <- flatten_items [(VStr (u "exemplar"), x)] [] d1 ;;
      ret (JObj data).

    (** Python: callable(v) *)
    Definition callable (h : heap) (v : val) : bool :=
      match v with
      | VType _ | VFun _ => true
      | VExt n => w_ext_callable w n
      | VLoc l => match hget h l with Some (OInst i) => c_callable (cls (i_cls i)) | _ => false end
      | _ => false
      end.
    (** The attribute [default_factory] of a dict subclass instance. *)
    Definition factory_of (h : heap) (i : inst) : option val :=
      if c_deffac (cls (i_cls i)) then i_fac i else inst_attr h i (u "default_factory").
    (** pickler.py:892-919, the default_factory protocol *)
    Definition flatten_factory (i : inst) (data : jobj) : MP jobj :=
      h <- gets p_heap ;;
      match factory_of h i with
      | Some f =>
          if callable h f then
            let store_key := if shas (u "default_factory") data then DEFAULT_FACTORY else u "default_factory" in
            value <- match f with
                     | VType c => ret (mktyperef c)
                     | _ => is_new <- mkref f ;;
                            if is_new then x <- lift (k_call0 k f) ;; flatten_clone x
                            else getref f
                     end ;;
            ret (sset store_key value data)
          else ret data
      | None => ret data
      end.

    (** [obj != obj.__dict__] for a dict subclass (pickler.py:922). *)
    Definition differs_from_dict (l : loc) (its attrs : list (val * val)) : bool :=
      match its, attrs with
      | [], [] => false
      | _, _ => negb (Nat.eqb (length its) (length attrs)) || negb (k_eqdict k l)
      end.
    (** pickler.py:864-930 for a dict subclass instance *)
    Definition flatten_dict_subclass (l : loc) (i : inst) (data : jobj) : MP jobj :=
      let exclude := c_exclude (cls (i_cls i)) in
      data1 <- flatten_items (i_items i) exclude data ;;
      data2 <- flatten_factory i data1 ;;
      match i_dict i with
      | Some d =>
          ob <- get_obj d ;;
          match ob with
          | ODict attrs =>
              if po_unpicklable o && differs_from_dict l (i_items i) attrs then
                is_new <- mkref (VLoc d) ;;
                if is_new then
                  dd <- flatten_plain_dict d exclude [] ;;
                  ret (sset (u "__dict__") (JObj dd) data2)
                else
                  r <- getref (VLoc d) ;; ret (sset (u "__dict__") r data2)
              else ret data2
          | _ => raise EUnmodelled
          end
      | None => ret data2
      end.

    (** pickler.py:964-975 *)
    Definition flatten_sequence_obj (i : inst) (data : jobj) : MP json :=
      data1 <- match i_dict i with
               | Some d => flatten_plain_dict d [] data
               | None => ret data
               end ;;
      value <- mapM rec (i_elems i) ;;
      if po_unpicklable o then ret (JObj (sset SEQ (JList value) data1)) else ret (JList value).

    (** [getattr(obj, a)] *)
    Definition p_getattr (l : loc) (i : inst) (a : pystr) : MP val :=
      h <- gets p_heap ;;
      match inst_attr h i a with
      | Some v => ret v
      | None => lift (k_attr k l a)
      end.

    (** pickler.py:504-527; the bool is the return value [ok] *)
    Definition flatten_obj_attrs (l : loc) (i : inst) (attrs exclude : list pystr) (data : jobj)
      : MP (jobj * bool) :=
      foldM (fun (st : jobj * bool) a =>
               if smem a exclude then ret st else
               catch (v <- p_getattr l i (mangle (cls (i_cls i)) a) ;;
                      d <- flatten_key_value_pair (VStr a) v (fst st) ;;
                      ret (d, true))
                     is_AttributeError (fun _ => ret st))
            attrs (data, false).

    (** pickler.py:529-560; a property whose value is a builtin container or bytes is put
        into the document unconverted, which is not modelled. *)
    Definition flatten_properties (l : loc) (i : inst) (data : jobj) (allslots : list pystr) : MP jobj :=
      props <- foldM (fun (acc : jobj) a =>
                 v <- p_getattr l i a ;;
                 h <- gets p_heap ;;
                 match prim_json v with
                 | Some j => ret (sset a j acc)
                 | None =>
                     match v with
                     | VBytes _ | VTuple _ => raise EUnmodelled
                     | VLoc p => match hget h p with
                                 | Some (OList _) | Some (ODict _) | Some (OSet _) => raise EUnmodelled
                                 | _ => j <- rec v ;; ret (sset a j acc)
                                 end
                     | _ => j <- rec v ;; ret (sset a j acc)
                     end
                 end)
               (filter (fun a => negb (smem a allslots)) (k_props k l)) [] ;;
      ret (sset PROPERTY (JObj props) data).

    (** pickler.py:562-584 *)
    Definition flatten_newstyle_with_slots (l : loc) (i : inst) (data : jobj) : MP json :=
      let c := cls (i_cls i) in
      let slots := match c_slots c with Some s => s | None => [] end in
      data1 <- (if po_props o then flatten_properties l i data slots else ret data) ;;
      r <- flatten_obj_attrs l i slots (c_exclude c) data1 ;;
      if snd r then ret (JObj (fst r))
      else r2 <- flatten_obj_attrs l i (k_dir k l) (c_exclude c) (fst r) ;; ret (JObj (fst r2)).

    (** pickler.py:586-600 *)
    Definition reduce_of (l : loc) (i : inst) : MP rv :=
      if c_reduce (cls (i_cls i)) then
        catch (lift (k_reduce k l)) is_TypeError (fun _ => ret RNone)
      else ret RNone.

    (** Handlers: run the interaction tree against [Pickler.flatten]. *)
    Fixpoint run_fscript (sc : fscript) : MP (option json) :=
      match sc with
      | FDone r => ret r
      | FRaise e => raise e
      | FFlatten reset v kk => j <- pflatten reset v ;; run_fscript (kk j)
      end.
    (** pickler.py:493-502 and 634-641 *)
    Definition call_handler (h : nat) (l : loc) (class_name : pystr) : MP json :=
      let data := if po_unpicklable o then [(OBJECT, JStr class_name)] else [] in
      let ctx := match po_ctx o with
                 | Some c => if w_hctx_flat w h then Some c else None
                 | None => None
                 end in
      r <- run_fscript (w_hflat w h ctx l data) ;;
      match r with
      | Some j => ret j
      | None => pickle_warning (VLoc l) ;;; ret JNull
      end.

    (** pickler.py:665-698: the tuple form of reduce.  [None]: continue with the other
        strategies. *)
    Definition strip_nulls (l : list json) : list json :=
      match l with
      | a :: b :: r =>
          a :: b :: (fix strip (r : list json) : list json :=
             match r with
             | [] => []
             | x :: r' => match strip r', x with [], JNull => [] | t, _ => x :: t end
             end) r
      | _ => l
      end.
    (** pickler.py:673-674 *)
    Definition is_newobj_fun (v : val) : bool :=
      match v with VFun f => seqb (f_name (w_fun w f)) (u "__newobj__") | _ => false end.
    Definition pad6 (l : list val) : list val := l ++ repeat VNone (6 - length l).
    Definition flatten_reduce_tuple (i : inst) (l : list val) (data : jobj) : MP (option json) :=
      let c := cls (i_cls i) in
      match pad6 l with
      | f :: args :: state :: rest =>
          let f' := if is_newobj_fun f then VStr NEWOBJ else f in
          st <- truthy_p state ;;
          if st && c_getstate c && negb (c_setstate c) && negb (match c_kind c with KDict => true | _ => false end)
          then ret None
          else
            js <- mapM rec (f' :: args :: state :: rest) ;;
            ret (Some (JObj (sset REDUCE (JList (strip_nulls js)) data)))
      | _ => raise EUnmodelled
      end.
    (** pickler.py:651-663: the string form.  The loop returns after the first attribute. *)
    Definition flatten_reduce_str (s : pystr) : MP (option json) :=
      catch
        (match split_on 46%N s with
         | first :: rest =>
             match w_sysmod w first with
             | None => raise EKeyError
             | Some m =>
                 match rest with
                 | [] => ret None
                 | a :: _ => v <- lift (w_getattr w m a) ;; j <- rec v ;; ret (Some j)
                 end
             end
         | [] => ret None
         end)
        is_KeyError (fun _ => ret None).

    (** pickler.py:745-748: [list(map(self._flatten, islice(obj, self._max_iter)))] *)
    Definition set_pos (i : inst) (n : nat) : inst :=
      mkInst (i_cls i) (i_dict i) (i_slots i) (i_items i) (i_elems i) (i_fac i) (i_rec i) (i_state i) n.
    Fixpoint iter_loop (n : nat) (l : loc) (limit : option nat) : MP (list json) :=
      match limit with
      | Some 0 => ret []
      | _ =>
          match n with
          | 0 => oof
          | S n' =>
              ob <- get_obj l ;;
              match ob with
              | OInst i =>
                  x <- lift (k_iter k l (i_pos i)) ;;
                  match x with
                  | None => ret []
                  | Some v =>
                      modify (fun s => set_heap (hset (p_heap s) l (OInst (set_pos i (S (i_pos i))))) s) ;;;
                      j <- rec v ;;
                      js <- iter_loop n' l (option_map pred limit) ;;
                      ret (j :: js)
                  end
              | _ => raise EUnmodelled
              end
          end
      end.

    (** pickler.py:700-787, everything after the reduce section *)
    Definition flatten_inst_rest (l : loc) (i : inst) (class_name : pystr) (data : jobj) : MP json :=
      let c := cls (i_cls i) in
      let data1 := if po_unpicklable o then sset OBJECT (JStr class_name) data else data in
      data2 <- (if c_newargs_ex c then
                  args <- lift (k_newargs_ex k l) ;;
                  js <- mapM rec args ;; ret (sset NEWARGSEX (JList js) data1)
                else ret data1) ;;
      data3 <- (if c_newargs c && negb (c_newargs_ex c) then
                  a <- lift (k_newargs k l) ;; j <- rec a ;; ret (sset NEWARGS j data2)
                else ret data2) ;;
      data4 <- (if c_initargs c then
                  a <- lift (k_initargs k l) ;; j <- rec a ;; ret (sset INITARGS j data3)
                else ret data3) ;;
      (* 715-727 *)
      gs <- (if c_getstate c then
               catch (st <- lift (k_getstate k l) ;; ret (Some st)) is_TypeError (fun _ => ret None)
             else ret (Some VNone)) ;;
      match gs with
      | None => pickle_warning (VLoc l) ;;; ret JNull
      | Some st0 =>
          h <- gets p_heap ;;
          (* 724-725: a dict state loses the excluded names; the copy is a new dict *)
          st <- (match c_exclude c, st0 with
                 | _ :: _, VLoc sl =>
                     match hget h sl with
                     | Some (ODict its) =>
                         let (d', h') := halloc (ODict (items (c_exclude c) its)) h in
                         modify (set_heap h') ;;; ret (VLoc d')
                     | _ => ret st0
                     end
                 | _, _ => ret st0
                 end) ;;
          t <- truthy_p st ;;
          if t && c_getstate c then
            (* 456-462 [_getstate] *)
            j <- rec st ;;
            if po_unpicklable o then ret (JObj (sset STATE j data4)) else ret j
          else
          match c_kind c with
          | KDict => d <- flatten_dict_subclass l i data4 ;; ret (JObj d)
          | KList | KSet | KTuple => flatten_sequence_obj i data4
          | KIter => js <- iter_loop fuel l (po_max_iter o) ;; ret (JObj (sset ITERATOR (JList js) data4))
          | _ =>
              match i_dict i with
              | Some d => dt <- flatten_plain_dict d (c_exclude c) data4 ;; ret (JObj dt)
              | None =>
                  match c_slots c with
                  | Some _ => flatten_newstyle_with_slots l i data4
                  | None =>
                      match data4 with
                      | _ :: _ => ret (JObj data4)
                      | [] =>
                          (* 774-787 *)
                          (if po_unpicklable o then pickle_warning (VLoc l) ;;; ret JNull
                           else
                             r <- reduce_of l i ;;
                             match r with
                             | RTup rl =>
                                 let state := nth 2 rl VNone in
                                 let args := nth 1 rl VNone in
                                 ts <- truthy_p state ;;
                                 if ts then rec state else
                                 ta <- truthy_p args ;;
                                 if ta then rec args else
                                 pickle_warning (VLoc l) ;;; ret JNull
                             | _ => pickle_warning (VLoc l) ;;; ret JNull
                             end)
                      end
                  end
              end
          end
      end.

    (** pickler.py:602-787 *)
    Definition flatten_obj_instance (l : loc) : MP json :=
      ob <- get_obj l ;;
      match ob with
      | OInst i =>
          let c := cls (i_cls i) in
          let class_name := importable_name c in
          match reg_lookup (w_sub w) (w_reg w) (i_cls i) class_name with
          | Some h => call_handler h l class_name
          | None =>
              data <- (if po_props o then flatten_properties l i [] [] else ret []) ;;
              early <- (if po_unpicklable o then
                          r <- reduce_of l i ;;
                          match r with
                          | RNone => ret None
                          | RStr s => match s with [] => ret None | _ => flatten_reduce_str s end
                          | RTup rl => match rl with [] => ret None | _ => flatten_reduce_tuple i rl data end
                          end
                        else ret None) ;;
              match early with
              | Some j => ret j
              | None => flatten_inst_rest l i class_name data
              end
          end
      | _ => raise EUnmodelled
      end.

    (** pickler.py:729-736, the module branch of [_flatten_obj_instance] *)
    Definition flatten_module (m : nat) : MP json :=
      if po_unpicklable o then
        ret (JObj [(MODULE, JStr (w_mod w m ++ 47%N :: w_mod w m))])
      else s <- lift (k_str k (VMod m)) ;; ret (JStr s).

    (** pickler.py:181-189 *)
    Definition is_enum (h : heap) (v : val) : bool :=
      match v with
      | VLoc l => match hget h l with Some (OInst i) => c_enum (cls (i_cls i)) | _ => false end
      | _ => false
      end.
    Definition in_cycle (v : val) (max_r make_refs : bool) : MP bool :=
      s <- get ;;
      ret ((max_r || (negb make_refs && match index_of v (p_objs s) with Some _ => true | None => false end))
           && match prim_json v with Some _ => false | None => true end
           && negb (is_enum (p_heap s) v)).

    (** pickler.py:789-808 for instances and modules *)
    Definition flatten_object (v : val) : MP json :=
      match v with
      | VLoc l => flatten_obj_instance l
      | VMod m => flatten_module m
      | _ => raise EUnmodelled
      end.
    (** pickler.py:789-808 *)
    Definition ref_obj_instance (v : val) : MP json :=
      if po_unpicklable o then
        is_new <- mkref v ;;
        if is_new then flatten_object v else getref v
      else
        mr <- max_reached ;;
        cyc <- in_cycle v mr false ;;
        if cyc then ret JNull
        else mkref v ;;; flatten_object v.

    Definition list_recurse (l : list val) : MP json :=
      js <- mapM rec l ;; ret (JList js).

    (** pickler.py:932-962 [_get_flattener] together with the call of its result
        (435); [None] means "not picklable". *)
    Definition get_flattener (v : val) : MP (option json) :=
      match v with
      | VTuple l =>
          j <- list_recurse l ;;
          ret (Some (if po_unpicklable o then JObj [(TUPLE, j)] else j))
      | VType c => ret (Some (mktyperef c))
      | VFun f =>
          if f_modfun (w_fun w f) then ret (Some (flatten_function f))
          else pickle_warning v ;;; ret None
      | VMod _ => j <- ref_obj_instance v ;; ret (Some j)
      | VLoc l =>
          ob <- get_obj l ;;
          match ob with
          | OList xs =>
              is_new <- mkref v ;;
              if is_new then j <- list_recurse xs ;; ret (Some j)
              else j <- getref v ;; ret (Some j)
          | ODict _ =>
              is_new <- mkref v ;;
              if is_new then d <- flatten_plain_dict l [] [] ;; ret (Some (JObj d))
              else j <- getref v ;; ret (Some j)
          | OSet xs =>
              j <- list_recurse xs ;;
              ret (Some (if po_unpicklable o then JObj [(SET_, j)] else j))
          | OInst _ => j <- ref_obj_instance v ;; ret (Some j)
          | OByteArray _ | OIter _ => raise EUnmodelled
          end
      | _ => raise EUnmodelled
      end.

    (** pickler.py:417-443 *)
    Definition flatten_obj (v : val) : MP json :=
      mr <- max_reached ;;
      catch
        (cyc <- in_cycle v mr (po_make_refs o) ;;
         if cyc then s <- lift (py_repr v) ;; ret (JStr s)
         else
           r <- get_flattener v ;;
           match r with
           | Some j => ret j
           | None => pickle_warning v ;;; ret JNull
           end)
        is_Exception
        (fun e => match po_fail_safe o with
                  | None => raise e
                  | Some f => lift (f e)
                  end).

    (** pickler.py:388-408 *)
    Definition flatten_impl (v : val) : MP json :=
      h <- gets p_heap ;;
      match v with
      | VBytes b => ret (flatten_bytestring b)
      | _ =>
          match prim_json v with
          | Some j => ret j
          | None =>
              match v with
              | VLoc l =>
                  match hget h l with
                  | Some (OByteArray b) => ret (JObj [(BYTEARRAY, flatten_bytestring b)])
                  | _ => push ;;; j <- flatten_obj v ;; pop j
                  end
              | _ => push ;;; j <- flatten_obj v ;; pop j
              end
          end
      end.

    (** pickler.py:340-349 *)
    Definition flatten_step (v : val) : MP json :=
      if po_unpicklable o && po_make_refs o then flatten_impl v
      else
        c <- gets p_cache ;;
        match cache_get v c with
        | Some j => ret j
        | None =>
            j <- flatten_impl v ;;
            modify (fun s => set_cache ((v, j) :: p_cache s) s) ;;;
            ret j
        end.
  End step.

  (** [Pickler._flatten] *)
  (** pickler.py:340-349 (_flatten), the knot tied by fuel *)
  Fixpoint flatten (n : nat) (v : val) : MP json :=
    match n with
    | 0 => oof
    | S n' => flatten_step n' (flatten n') v
    end.

  (** [Pickler.flatten(v, reset)] *)
  Definition pickle (n : nat) (reset : bool) (v : val) : MP json := pflatten (flatten n) reset v.

  (** pickler.py:21-178 [encode]: the text handed back by the JSON backend *)
  Definition encode (n : nat) (v : val) : MP pystr :=
    j <- pickle n true v ;; ret (dumps j).
End pickler.

(** A new Pickler (pickler.py:235-248). *)
Definition new_pickler (h : heap) : pst := mkPst h [] (-1)%Z [] [].
