(** Specification of the round trip: what a faithful copy of an object graph is, and for
    which graphs encode followed by decode promises one.

    Nothing here mentions the encoder's or decoder's functions, only Python objects, the
    facts about classes that decide which pickling protocol applies, and import lookups. *)
From Verif Require Import PyStr Tags Json JsonText JsonTextProofs Base Heap Registry LoadClass.
Open Scope nat_scope.

(** ** Copies *)
Section copy.
  Variable h : heap.                   (* the original objects *)
  Variable h' : heap.                  (* the decoder's heap *)
  Variable b : nat.                    (* sets and bytearrays below b existed before decoding *)
  Variable R : loc -> loc -> Prop.     (* which object is the copy of which *)

  (** Immutable values are their own copies. *)
  Definition atom (v : val) : bool :=
    match v with
    | VNone | VBool _ | VInt _ | VFloat _ | VStr _ | VBytes _ | VType _ | VFun _ | VMod _ => true
    | _ => false
    end.
  Inductive vmatch : val -> val -> Prop :=
  | vm_atom v : atom v = true -> vmatch v v
  | vm_tuple xs ys : Forall2 vmatch xs ys -> vmatch (VTuple xs) (VTuple ys)
  | vm_set l l' xs ys : hget h l = Some (OSet xs) -> b <= l' -> hget h' l' = Some (OSet ys) ->
      Forall2 vmatch xs ys -> vmatch (VLoc l) (VLoc l')
  | vm_bytearray l l' x : hget h l = Some (OByteArray x) -> b <= l' -> hget h' l' = Some (OByteArray x) ->
      vmatch (VLoc l) (VLoc l')
  | vm_obj l l' : R l l' -> vmatch (VLoc l) (VLoc l').

  Definition pmatch (p p' : val * val) : Prop := vmatch (fst p) (fst p') /\ vmatch (snd p) (snd p').
  Definition omatch_opt (x x' : option val) : Prop :=
    match x, x' with
    | None, None => True
    | Some v, Some v' => vmatch v v'
    | _, _ => False
    end.
End copy.

Definition is_str (v : val) : bool := match v with VStr _ => true | _ => false end.
(** A decoded dict subclass has its string keys first. *)
Definition strings_first (d : list (val * val)) : list (val * val) :=
  filter (fun kv => is_str (fst kv)) d ++ filter (fun kv => negb (is_str (fst kv))) d.

Section graph.
  Variables (w : world) (k : hooks) (keys : bool) (cl : list (pystr * val)) (h : heap).
  Notation cls := (w_cls w).

  (** ** How instances are taken apart *)
  (** Attributes that encode reads: [__dict__] entries, without the excluded names. *)
  Definition kept (c : cinfo) (a : pystr) : bool := negb (smem a (c_exclude c)).
  Definition attrs_of (i : inst) : option (list (val * val)) :=
    match i_dict i with
    | Some d => match hget h d with Some (ODict a) => Some a | _ => None end
    | None => None
    end.

  (** Names that survive as attribute names or dict keys. *)
  Definition name_ok (a : pystr) : bool :=
    str_ok a && negb (is_reserved a) && negb (seqb a B64) && negb (seqb a B85) &&
    (negb keys || negb (prefixb JSON_KEY a)).
  Definition attr_ok (c : cinfo) (a : pystr) : bool :=
    name_ok a && negb (dunder a) && negb (seqb a (u "default_factory")) &&
    match c_setattr c a with SAOk | SARaise EFrozen => true | _ => false end.
  Definition slot_named (c : cinfo) (a : pystr) : bool :=
    match c_slots c with Some sl => smem a (map (mangle c) sl) | None => false end.

  (** A slot declared as [a], and stored as [mangle c a] (private names). *)
  Definition slot_ok (c : cinfo) (a : pystr) : bool :=
    if dunder a
    then name_ok a && kept c (mangle c a) && negb (seqb (mangle c a) (u "__dict__")) &&
         match c_setattr c (mangle c a) with SAOk => true | _ => false end
    else attr_ok c a.

  (** Immutable values all the way down. *)
  Fixpoint pure (v : val) : bool :=
    match v with
    | VTuple l => forallb pure l
    | VMod _ => false
    | _ => atom v
    end.
  (** String keys that are written in escaped form, and string keys of dicts: with keys=True
      every string except the two tags of bytes values. *)
  Definition escaped (a : pystr) : bool := keys && (prefixb JSON_KEY a || is_reserved a).
  Definition is_escaped (q : val) : bool := match q with VStr a => escaped a | _ => false end.
  Definition skey_ok (a : pystr) : bool :=
    str_ok a && negb (seqb a B64) && negb (seqb a B85) && (keys || negb (is_reserved a)).
  (** Other keys need keys=True. *)
  Definition key_ok (v : val) : bool :=
    match v with
    | VStr a => skey_ok a
    | _ => keys && hashable cls h v
    end.
  Fixpoint kdistinct (l : list val) : bool :=
    match l with
    | [] => true
    | x :: r => negb (existsb (key_eqb x) r) && kdistinct r
    end.
  Definition attrs_ok (c : cinfo) (a : list (val * val)) : bool :=
    forallb (fun kv => match fst kv with VStr s => negb (kept c s) || (attr_ok c s && negb (slot_named c s)) | _ => false end) a
    && kdistinct (map fst a).
  Definition kept_attrs (c : cinfo) (a : list (val * val)) : list (val * val) :=
    filter (fun kv => match fst kv with VStr s => kept c s | _ => true end) a.

  (** [__getnewargs_ex__], [__getnewargs__] or [__getinitargs__]: the values encoded, and
      the positional and keyword arguments the constructor receives. *)
  Fixpoint str_items (d : list (val * val)) : option (list (pystr * val)) :=
    match d with
    | [] => Some []
    | (VStr s, v) :: r => match str_items r with Some x => Some ((s, v) :: x) | None => None end
    | _ :: _ => None
    end.
  Inductive ctor (c : cinfo) (l : loc) : list val -> list val -> list (pystr * val) -> Prop :=
  | ct_none : c_newargs_ex c = false -> c_newargs c = false -> c_initargs c = false -> ctor c l [] [] []
  | ct_newargs a : c_newargs_ex c = false -> c_newargs c = true -> c_initargs c = false ->
      k_newargs k l = Ret (VTuple a) -> ctor c l [VTuple a] a []
  | ct_newargs_ex a kd d kw : c_newargs_ex c = true -> c_initargs c = false ->
      k_newargs_ex k l = Ret [VTuple a; VLoc kd] -> hget h kd = Some (ODict d) -> d <> [] ->
      str_items d = Some kw -> (forall n, In n (map fst kw) -> prefixb JSON_KEY n = false /\ is_reserved n = false) ->
      ctor c l [VTuple a; VLoc kd] a kw
  | ct_initargs a : c_newargs_ex c = false -> c_newargs c = false -> c_initargs c = true ->
      k_initargs k l = Ret (VTuple a) -> ctor c l [VTuple a] a [].

  (** The class can be found by name, its [__new__] accepts the reported arguments. *)
  Definition class_ok (c : nat) (nargs : nat) (kws : list pystr) : Prop :=
    let name := importable_name (cls c) in
    str_ok name = true /\
    loadclass w cl (JStr name) = Ret (VType c) /\
    reg_lookup (w_sub w) (w_reg w) c name = None /\
    c_isfun (cls c) = false /\
    forall h' a kw, length a = nargs -> map fst kw = kws -> w_new w h' c a kw = CInst c.
  Definition no_reduce (c : cinfo) (l : loc) : Prop :=
    c_reduce c = false \/ k_reduce k l = Ret RNone \/ k_reduce k l = Exc ETypeError.
  (** Encoded by its class: no handler is registered, [__reduce__] does not apply. *)
  Definition no_handler (c : nat) : Prop := reg_lookup (w_sub w) (w_reg w) c (importable_name (cls c)) = None.
  Definition ordinary (l : loc) (i : inst) : Prop := no_handler (i_cls i) /\ no_reduce (cls (i_cls i)) l.
  (** No state of its own: [__getstate__] is inherited or gives an empty immutable value. *)
  Definition no_state (c : cinfo) (l : loc) : Prop :=
    c_getstate c = false \/
    exists st, k_getstate k l = Ret st /\ truthy cls h st = false /\ forall x, st <> VLoc x.
  Definition own_state (c : cinfo) (l : loc) (st : val) : Prop :=
    c_getstate c = true /\ k_getstate k l = Ret st /\ truthy cls h st = true /\
    (c_exclude c = [] \/ forall x, st <> VLoc x).

  (** The factory of a dict subclass, if it is one: only classes are promised. *)
  Definition factory_ok (i : inst) : Prop :=
    let c := cls (i_cls i) in
    if c_deffac c
    then match i_fac i with
         | Some (VType _) => c_setattr c (u "default_factory") = SAOk
         | Some VNone | None => True
         | _ => False
         end
    else inst_attr h i (u "default_factory") = None.
  Definition factory_args (i : inst) : list val :=
    match i_fac i with
    | Some (VType f) => if c_deffac (cls (i_cls i)) then [VType f] else []
    | _ => []
    end.

  (** ** Handlers *)
  (** flatten() passes the values [vs] to the pickler, one after the other, and returns a
      document made of theirs.  It may also encode the class of the object. *)
  Definition class_doc (c : nat) : json := JObj [(TYPE_, JStr (importable_name (cls c)))].
  Inductive asks_flatten (c : nat) : list val -> (list json -> json) -> fscript -> Prop :=
  | af_done mk : asks_flatten c [] mk (FDone (Some (mk [])))
  | af_val v vs mk kk : v <> VType c -> (forall j, asks_flatten c vs (fun js => mk (j :: js)) (kk j)) ->
      asks_flatten c (v :: vs) mk (FFlatten false v kk)
  | af_class vs mk kk : asks_flatten c vs mk (kk (class_doc c)) -> asks_flatten c vs mk (FFlatten false (VType c) kk).
  (** restore() passes the documents back to the unpickler in the same order and makes an
      instance of class [c] from the results; immutable values come back as themselves. *)
  Inductive asks_restore (c : nat) : list val -> list json -> (list val -> list val) -> hscript -> Prop :=
  | ar_done build : asks_restore c [] [] build (HDone (HInst c (build [])))
  | ar_val v vs j js build kk : v <> VType c ->
      (forall v', (atom v = true -> v' = v) -> asks_restore c vs js (fun vs' => build (v' :: vs')) (kk v')) ->
      asks_restore c (v :: vs) (j :: js) build (HRestore j kk)
  | ar_class vs js build kk : asks_restore c vs js build (kk (VType c)) ->
      asks_restore c vs js build (HRestore (class_doc c) kk).
  (** Handler [hd] makes the copy from the constants [pre] and copies of [vs]. *)
  Definition handled (l : loc) (i : inst) (hd : nat) (pre vs : list val) : Prop :=
    let name := importable_name (cls (i_cls i)) in
    str_ok name = true /\ reg_lookup (w_sub w) (w_reg w) (i_cls i) name = Some hd /\ c_isfun (cls (i_cls i)) = false /\ forallb atom pre = true /\
    exists mk : list json -> jobj,
      (forall ctx, asks_flatten (i_cls i) vs (fun js => JObj ((OBJECT, JStr name) :: mk js)) (w_hflat w hd ctx l [(OBJECT, JStr name)])) /\
      (forall js, length js = length vs -> forallb jwf js = true ->
         jwf (JObj ((OBJECT, JStr name) :: mk js)) = true /\
         (forall a, In a (map fst (mk js)) -> ~ In a [TUPLE; SET_; B64; B85; BYTEARRAY; ID; ITERATOR]) /\
         forall ctx, asks_restore (i_cls i) vs js (fun vs' => pre ++ vs') (w_hrest w hd ctx ((OBJECT, JStr name) :: mk js))).

  (** ** Keys of dicts *)
  (** An instance whose document carries the name of its class. *)
  Definition by_name (l : loc) (c : nat) : Prop :=
    exists i, hget h l = Some (OInst i) /\ i_cls i = c /\ (ordinary l i \/ exists hd pre vs, handled l i hd pre vs).
  (** Some values that show in the document of an instance: attributes, and what
      [__getnewargs__] gives. *)
  Inductive field : Type := FAttr (a : pystr) | FArgs.
  Inductive part (l : loc) : field -> val -> Prop :=
  | pa_attr i a n v : hget h l = Some (OInst i) -> ordinary l i -> c_kind (cls (i_cls i)) = KPlain ->
      no_state (cls (i_cls i)) l -> attrs_of i = Some a -> In (VStr n, v) (kept_attrs (cls (i_cls i)) a) -> part l (FAttr n) v
  | pa_slot i sl n v : hget h l = Some (OInst i) -> ordinary l i -> c_kind (cls (i_cls i)) = KPlain ->
      no_state (cls (i_cls i)) l -> i_dict i = None -> c_slots (cls (i_cls i)) = Some sl -> In n sl ->
      kept (cls (i_cls i)) n = true -> sget (mangle (cls (i_cls i)) n) (i_slots i) = Some v -> part l (FAttr n) v
  | pa_args i a : hget h l = Some (OInst i) -> ordinary l i -> c_newargs_ex (cls (i_cls i)) = false ->
      c_newargs (cls (i_cls i)) = true -> k_newargs k l = Ret (VTuple a) -> part l FArgs (VTuple a).
  (** Keys that do not have the same document: immutable values that differ, instances of
      classes with different names, instances that differ in a part. *)
  Inductive apart : val -> val -> Prop :=
  | ap_pure x y : pure x = true -> pure y = true -> x <> y -> apart x y
  | ap_length xs ys : length xs <> length ys -> apart (VTuple xs) (VTuple ys)
  | ap_item xs ys n x y : nth_error xs n = Some x -> nth_error ys n = Some y -> apart x y -> apart (VTuple xs) (VTuple ys)
  | ap_other xs v : pure v = true -> (forall ys, v <> VTuple ys) -> apart (VTuple xs) v
  | ap_kind l c v : by_name l c -> pure v = true \/ (exists xs, v = VTuple xs) -> apart (VLoc l) v
  | ap_class l l' c c' : by_name l c -> by_name l' c' -> importable_name (cls c) <> importable_name (cls c') ->
      apart (VLoc l) (VLoc l')
  | ap_part l l' f v v' : l <> l' -> part l f v -> part l' f v' -> apart v v' -> apart (VLoc l) (VLoc l')
  | ap_sym x y : apart x y -> apart y x.
  (** A dict encodes each key to a different text if its keys are unequal, and those that are
      not strings are apart. *)
  Definition non_strings (d : list (val * val)) : list (val * val) := filter (fun kv => negb (is_str (fst kv))) d.
  Definition dict_ok (d : list (val * val)) : Prop :=
    forallb (fun kv => key_ok (fst kv)) d = true /\ kdistinct (map fst d) = true /\
    ForallOrdPairs (fun x y => pure x && pure y = true \/ apart x y) (map fst (non_strings d)).
  (** The decoder of plain dicts takes up escaped keys after the other ones: the order in
      which the copy has its items. *)
  Definition dict_order (d : list (val * val)) : list (val * val) :=
    filter (fun kv => is_str (fst kv) && negb (is_escaped (fst kv))) d ++ filter (fun kv => is_escaped (fst kv)) d ++ non_strings d.
  (** References agree if that makes no difference: the value of an escaped key is
      immutable, or no other string follows that is not escaped. *)
  Fixpoint order_ok (d : list (val * val)) : Prop :=
    match d with
    | [] => True
    | (q, v) :: r => (is_escaped q = true -> pure v = true \/ forall kv, In kv r -> is_str (fst kv) = true -> is_escaped (fst kv) = true) /\ order_ok r
    end.

  (** ** [__reduce__] *)
  (** The call that makes the copy, for the function and arguments that reduce gave: given the
      copies of the arguments, what the decoder records. *)
  Inductive maker (c : nat) : val -> list val -> (list val -> crec) -> Prop :=
  | mk_call f args : (exists t, f = VType t /\ c_name (cls t) <> u "__newobj__") \/
                     (exists g, f = VFun g /\ f_name (w_fun w g) <> u "__newobj__") ->
      (forall h' a, length a = length args -> w_call w h' f a = CInst c) ->
      maker c f args (CCall f)
  | mk_newobj g args : f_name (w_fun w g) = u "__newobj__" ->
      (forall h' a, length a = length args -> w_new w h' c a [] = CInst c) ->
      maker c (VFun g) (VType c :: args) (fun a => CNew (tl a) []).
  (** The function itself is not encoded if it is [copyreg.__newobj__]. *)
  Definition fun_doc (f : val) : val :=
    match f with VFun g => if seqb (f_name (w_fun w g)) (u "__newobj__") then VStr NEWOBJ else f | _ => f end.
  Definition not_instance (v : val) : Prop := forall l i, v = VLoc l -> hget h l <> Some (OInst i).
  Inductive state_use (c : cinfo) (st : val) : Prop :=
  | su_none : truthy cls h st = false -> not_instance st -> state_use c st
  | su_setstate : truthy cls h st = true -> not_instance st -> c_setstate c = true -> state_use c st
  | su_dict sd a : st = VLoc sd -> hget h sd = Some (ODict a) -> a <> [] -> c_setstate c = false ->
      c_getstate c = false \/ c_kind c = KDict -> c_dict c = true -> c_setattr c (u "__dict__") = SAOk -> state_use c st.
  Inductive list_items (c : cinfo) : val -> list val -> Prop :=
  | li_none : list_items c VNone []
  | li_empty : list_items c (VTuple []) []
  | li_some xs : c_kind c = KList \/ c_kind c = KDeque -> list_items c (VTuple xs) xs.
  Inductive dict_items (c : cinfo) : val -> list (val * val) -> Prop :=
  | di_none : dict_items c VNone []
  | di_empty : dict_items c (VTuple []) []
  | di_some d : c_kind c = KDict -> forallb (hashable cls h) (map fst d) = true -> kdistinct (map fst d) = true ->
      dict_items c (VTuple (map (fun p => VTuple [fst p; snd p]) d)) d.
  Record reduced (l : loc) (i : inst) (f : val) (args : list val) (mkrec : list val -> crec) (st : val)
      (li : val) (xs : list val) (di : val) (d : list (val * val)) : Prop := {
    rd_handler : no_handler (i_cls i);
    rd_has : c_reduce (cls (i_cls i)) = true;
    rd_isfun : c_isfun (cls (i_cls i)) = false;
    rd_val : exists rl, k_reduce k l = Ret (RTup rl) /\ rl <> [] /\
      rl ++ repeat VNone (6 - length rl) = [f; VTuple args; st; li; di; VNone];
    rd_make : maker (i_cls i) f args mkrec;
    rd_setstate : forall h' st', w_setstate w h' (i_cls i) st' = None;
    rd_state : state_use (cls (i_cls i)) st;
    rd_list : list_items (cls (i_cls i)) li xs;
    rd_dict : dict_items (cls (i_cls i)) di d
  }.

  (** ** Tuple subclasses *)
  Inductive within : val -> val -> Prop :=
  | wi_refl v : within v v
  | wi_tuple xs x y : In x xs -> within x y -> within (VTuple xs) y.
  Inductive held : val -> val -> Prop :=
  | he_refl v : held v v
  | he_tuple xs x y : In x xs -> held x y -> held (VTuple xs) y
  | he_set l xs x y : hget h l = Some (OSet xs) -> In x xs -> held x y -> held (VLoc l) y.

  (** A state as pickle gives it for classes with [__slots__]: a dict of values of the slots, and None
      or a dict for the [__dict__]. *)
  Definition state_dict (x : val) (a : list (val * val)) : Prop :=
    x = VNone /\ a = [] \/ exists sa, x = VLoc sa /\ hget h sa = Some (ODict a).
  Definition names_in (p : pystr -> bool) (a : list (val * val)) : bool :=
    forallb (fun kv => match fst kv with VStr s => p s | _ => false end) a && kdistinct (map fst a).
  Definition pair_state (c : cinfo) (x : val) (sb : loc) (b : list (val * val)) : Prop :=
    hget h sb = Some (ODict b) /\ names_in (fun s => attr_ok c s && slot_named c s) b = true /\
    exists a, state_dict x a /\ (x <> VNone -> c_dict c = true) /\ names_in (fun s => attr_ok c s && negb (slot_named c s)) a = true.

  (** How an instance is encoded, with the values that are encoded for it. *)
  Inductive shape : loc -> list val -> Prop :=
  | sh_list l xs : hget h l = Some (OList xs) -> shape l xs
  | sh_dict l d : hget h l = Some (ODict d) -> dict_ok d -> order_ok d -> shape l (map fst d ++ map snd d)
  | sh_set l xs : hget h l = Some (OSet xs) -> forallb (hashable cls h) xs = true -> kdistinct xs = true -> shape l xs
  | sh_bytearray l x : hget h l = Some (OByteArray x) -> shape l []
  (* an object with __dict__ *)
  | sh_plain l i a cs args kw : hget h l = Some (OInst i) ->
      let c := cls (i_cls i) in
      c_kind c = KPlain -> class_ok (i_cls i) (length args) (map fst kw) -> no_reduce c l -> no_state c l ->
      ctor c l cs args kw -> c_dict c = true -> attrs_of i = Some a -> attrs_ok c a = true -> i_slots i = [] ->
      c_deffac c = false ->
      shape l (cs ++ map snd (kept_attrs c a))
  (* an object with __slots__ only *)
  | sh_slots l i sl cs args kw : hget h l = Some (OInst i) ->
      let c := cls (i_cls i) in
      c_kind c = KPlain -> class_ok (i_cls i) (length args) (map fst kw) -> no_reduce c l -> no_state c l ->
      ctor c l cs args kw -> c_dict c = false -> i_dict i = None -> c_slots c = Some sl -> NoDup (map (mangle c) sl) ->
      forallb (fun a => if kept c a then slot_ok c a else negb (kept c (mangle c a))) sl = true ->
      (forall a, In a (map fst (i_slots i)) -> In a (map (mangle c) sl)) ->
      (forall a, In a sl -> kept c a = true -> sget (mangle c a) (i_slots i) = None -> k_attr k l (mangle c a) = Exc EAttributeError) ->
      (exists a v, In a sl /\ kept c a = true /\ sget (mangle c a) (i_slots i) = Some v) ->
      c_deffac c = false ->
      shape l (cs ++ flat_map (fun a => if kept c a then match sget (mangle c a) (i_slots i) with Some v => [v] | None => [] end else []) sl)
  (* dict subclasses, possibly with __dict__ and default_factory *)
  | sh_dictsub l i cs args kw : hget h l = Some (OInst i) ->
      let c := cls (i_cls i) in
      c_kind c = KDict -> class_ok (i_cls i) (length (factory_args i) + length args) (map fst kw) ->
      no_reduce c l -> no_state c l ->
      ctor c l cs args kw -> c_exclude c = [] -> dict_ok (i_items i) ->
      (forall kv s, In kv (i_items i) -> fst kv = VStr s -> s <> u "__dict__" /\ s <> u "default_factory") ->
      factory_ok i -> i_slots i = [] ->
      match i_dict i with
      | None => c_dict c = false
      | Some d => c_dict c = true /\ c_setattr c (u "__dict__") = SAOk /\
                  exists a, hget h d = Some (ODict a) /\ dict_ok a /\
                  (length a = length (i_items i) -> a = [] \/ k_eqdict k l = false)
      end ->
      shape l (cs ++ map fst (i_items i) ++ map snd (i_items i) ++ factory_args i ++
               match i_dict i with Some d => [VLoc d] | None => [] end)
  (* list and set subclasses *)
  | sh_seq l i a cs args kw : hget h l = Some (OInst i) ->
      let c := cls (i_cls i) in
      (c_kind c = KList \/ c_kind c = KSet /\ forallb (hashable cls h) (i_elems i) = true /\ kdistinct (i_elems i) = true) ->
      class_ok (i_cls i) (length args) (map fst kw) -> no_reduce c l -> no_state c l ->
      ctor c l cs args kw -> c_fields c = None -> c_exclude c = [] ->
      match i_dict i with
      | None => c_dict c = false /\ a = []
      | Some d => c_dict c = true /\ hget h d = Some (ODict a) /\ attrs_ok c a = true
      end -> i_slots i = [] -> c_deffac c = false ->
      shape l (cs ++ map snd a ++ i_elems i)
  (* __getstate__ with __setstate__ *)
  | sh_state l i st cs args kw : hget h l = Some (OInst i) ->
      let c := cls (i_cls i) in
      class_ok (i_cls i) (length args) (map fst kw) -> no_reduce c l -> own_state c l st ->
      ctor c l cs args kw -> c_setstate c = true -> c_kind c <> KTuple ->
      (forall h' st', w_setstate w h' (i_cls i) st' = None) -> c_deffac c = false ->
      shape l (cs ++ [st])
  (* __getstate__ giving a dict, no __setstate__ *)
  | sh_dstate l i sd a cs args kw : hget h l = Some (OInst i) ->
      let c := cls (i_cls i) in
      c_kind c = KPlain -> class_ok (i_cls i) (length args) (map fst kw) -> no_reduce c l -> own_state c l (VLoc sd) ->
      ctor c l cs args kw -> c_setstate c = false -> c_dict c = true ->
      hget h sd = Some (ODict a) -> attrs_ok c a = true -> c_deffac c = false ->
      shape l (cs ++ [VLoc sd])
  (* __getstate__ giving a pair, of None or a dict for __dict__ and a dict for the slots, no __setstate__ *)
  | sh_pstate l i x sb b cs args kw : hget h l = Some (OInst i) ->
      let c := cls (i_cls i) in
      c_kind c = KPlain -> class_ok (i_cls i) (length args) (map fst kw) -> no_reduce c l -> own_state c l (VTuple [x; VLoc sb]) ->
      ctor c l cs args kw -> c_setstate c = false ->
      pair_state c x sb b -> c_deffac c = false ->
      shape l (cs ++ [VTuple [x; VLoc sb]])
  (* tuple subclasses: the arguments of __new__ hold all the elements *)
  | sh_tuple l i cs args kw : hget h l = Some (OInst i) ->
      let c := cls (i_cls i) in
      c_kind c = KTuple -> class_ok (i_cls i) (length args) (map fst kw) -> no_reduce c l -> no_state c l ->
      ctor c l cs args kw -> cs <> [] -> c_dict c = false -> i_dict i = None -> i_slots i = [] -> c_deffac c = false ->
      (forall x, In x (i_elems i) -> (exists a, In a (args ++ map snd kw) /\ within a x) /\ forall m, ~ held x (VMod m)) ->
      shape l (cs ++ i_elems i)
  (* a registered handler *)
  | sh_handled l i hd pre vs : hget h l = Some (OInst i) ->
      loadclass w cl (JStr (importable_name (cls (i_cls i)))) = Ret (VType (i_cls i)) -> handled l i hd pre vs -> shape l vs
  (* __reduce__ *)
  | sh_reduce l i f args mkrec st li xs di d : hget h l = Some (OInst i) ->
      reduced l i f args mkrec st li xs di d -> shape l [fun_doc f; VTuple args; st; li; di; VNone].

  (** Values encoded before the decoder has made the object, or read by it at once. *)
  Inductive early : loc -> val -> Prop :=
  | ea_ctor l i cs args kw x : hget h l = Some (OInst i) -> ordinary l i -> ctor (cls (i_cls i)) l cs args kw -> In x cs -> early l x
  | ea_state l i st : hget h l = Some (OInst i) -> ordinary l i -> own_state (cls (i_cls i)) l st ->
      c_setstate (cls (i_cls i)) = false -> early l st
  | ea_handled l i hd pre vs x : hget h l = Some (OInst i) -> handled l i hd pre vs -> In x vs -> early l x
  | ea_reduce l i f args mkrec st li xs di d x : hget h l = Some (OInst i) -> reduced l i f args mkrec st li xs di d ->
      In x [fun_doc f; VTuple args; st; li; di; VNone] -> early l x.

  (** ** Reachability through what is encoded *)
  Inductive sub : val -> val -> Prop :=
  | sub_tuple xs x : In x xs -> sub (VTuple xs) x
  | sub_obj l cs x : shape l cs -> In x cs -> sub (VLoc l) x.
  Inductive reach : val -> val -> Prop :=
  | reach_refl v : reach v v
  | reach_step a x y : sub a x -> reach x y -> reach a y.

  (** A single node is supported. *)
  Definition node_ok (v : val) : Prop :=
    match v with
    | VNone | VBool _ | VInt _ | VBytes _ | VTuple _ => True
    | VFloat t => float_ok t = true
    | VStr s => str_ok s = true
    | VType c => let n := importable_name (cls c) in str_ok n = true /\ loadclass w cl (JStr n) = Ret (VType c)
    | VFun f => let n := importable_fname (w_fun w f) in
                f_modfun (w_fun w f) = true /\ str_ok n = true /\ loadclass w cl (JStr n) = Ret (VFun f)
    | VMod m => let n := w_mod w m ++ 47%N :: w_mod w m in str_ok n = true /\ loadmodule w (JStr n) = Ret (VMod m)
    | VLoc l => (exists cs, shape l cs) /\ forall x, early l x -> ~ reach x (VLoc l)
    | _ => False
    end.
  Definition supported (v : val) : Prop := forall x, reach v x -> node_ok x.

  (** ** Copies of objects *)
  Section objects.
    (* new objects are at b or above, new sets and bytearrays at B or above *)
    Variables (h' : heap) (b B : nat) (R : loc -> loc -> Prop).
    Notation vm := (vmatch h h' B R).
    Notation pm := (pmatch h h' B R).

    (** The constructor call that made the copy. *)
    Definition made_match (args : list val) (kw : list (pystr * val)) (r : crec) : Prop :=
      exists args' kw', r = CNew args' kw' /\ Forall2 vm args args' /\
        Forall2 (fun p p' => fst p' = fst p /\ vm (snd p) (snd p')) kw kw'.
    (** The [__dict__] of the copy has these items, in this order. *)
    Definition dict_match (items : list (val * val)) (i' : inst) : Prop :=
      exists d' items', i_dict i' = Some d' /\ hget h' d' = Some (ODict items') /\ Forall2 pm items items'.
    (** Attribute by attribute, excluded ones are absent; [__dict__] keeps its order. *)
    Definition attrs_match (i i' : inst) : Prop :=
      (forall d, i_dict i' = Some d -> b <= d) /\
      (forall a, omatch_opt h h' B R (if kept (cls (i_cls i)) a then inst_attr h i a else None) (inst_attr h' i' a)) /\
      (i_dict i = None -> i_dict i' = None) /\
      (forall items, attrs_of i = Some items -> dict_match (kept_attrs (cls (i_cls i)) items) i').

    Inductive imatch (l : loc) (i i' : inst) : Prop :=
    (* no state, no reduce *)
    | im_attrs cs args kw : ordinary l i -> no_state (cls (i_cls i)) l ->
        (c_kind (cls (i_cls i)) = KDict -> False) ->
        ctor (cls (i_cls i)) l cs args kw -> made_match args kw (i_rec i') -> attrs_match i i' ->
        (c_kind (cls (i_cls i)) = KList \/ c_kind (cls (i_cls i)) = KSet -> Forall2 vm (i_elems i) (i_elems i')) ->
        i_state i' = [] -> imatch l i i'
    | im_dictsub cs args kw : ordinary l i -> no_state (cls (i_cls i)) l -> c_kind (cls (i_cls i)) = KDict ->
        ctor (cls (i_cls i)) l cs args kw -> made_match (factory_args i ++ args) kw (i_rec i') ->
        Forall2 pm (strings_first (i_items i)) (i_items i') ->
        (c_deffac (cls (i_cls i)) = true -> match i_fac i with Some (VType f) => i_fac i' = Some (VType f) | _ => i_fac i' = None end) ->
        match i_dict i, i_dict i' with
        | None, None => True
        | Some d, Some d' => R d d' \/ i_items i = [] /\ hget h d = Some (ODict []) /\ b <= d' /\ hget h' d' = Some (ODict [])
        | _, _ => False
        end -> i_slots i = [] -> i_slots i' = [] -> i_state i' = [] -> imatch l i i'
    (* __setstate__ received the state, once *)
    | im_state st st' cs args kw : ordinary l i -> own_state (cls (i_cls i)) l st -> c_setstate (cls (i_cls i)) = true ->
        ctor (cls (i_cls i)) l cs args kw -> made_match args kw (i_rec i') ->
        i_state i' = [st'] -> vm st st' -> imatch l i i'
    (* the state dict became the attributes *)
    | im_dstate sd a cs args kw : ordinary l i -> own_state (cls (i_cls i)) l (VLoc sd) -> c_setstate (cls (i_cls i)) = false ->
        ctor (cls (i_cls i)) l cs args kw -> made_match args kw (i_rec i') ->
        hget h sd = Some (ODict a) -> (forall d, i_dict i' = Some d -> b <= d) ->
        (forall n, omatch_opt h h' B R (dget (VStr n) a) (inst_attr h' i' n)) -> dict_match a i' -> i_state i' = [] -> imatch l i i'
    (* the state pair became the slots and the attributes *)
    | im_pstate x sb b0 a cs args kw : ordinary l i -> own_state (cls (i_cls i)) l (VTuple [x; VLoc sb]) -> c_setstate (cls (i_cls i)) = false ->
        ctor (cls (i_cls i)) l cs args kw -> made_match args kw (i_rec i') ->
        hget h sb = Some (ODict b0) -> state_dict x a -> (forall d, i_dict i' = Some d -> b <= d) ->
        (forall n, omatch_opt h h' B R (match dget (VStr n) b0 with Some v => Some v | None => dget (VStr n) a end) (inst_attr h' i' n)) ->
        (x <> VNone -> dict_match a i') -> i_state i' = [] -> imatch l i i'
    (* a handler made it *)
    | im_handled hd pre vs vs' : handled l i hd pre vs -> i_rec i' = CHandler hd (pre ++ vs') -> Forall2 vm vs vs' ->
        imatch l i i'
    (* the function given by reduce made it; then state, list items, dict items *)
    | im_reduce f args args' mkrec st li xs di d : reduced l i f args mkrec st li xs di d ->
        Forall2 vm args args' -> i_rec i' = mkrec args' ->
        match truthy cls h st, c_setstate (cls (i_cls i)) with
        | false, _ => i_state i' = [] /\ forall x, i_dict i' = Some x -> b <= x /\ hget h' x = Some (ODict [])
        | true, true => exists st', i_state i' = [st'] /\ vm st st'
        | true, false => i_state i' = [] /\ exists x, i_dict i' = Some x /\ vm st (VLoc x)
        end ->
        Forall2 vm xs (i_elems i') ->
        Forall2 pm d (i_items i') ->
        i_slots i' = [] -> imatch l i i'.

    Inductive omatch (l l' : loc) : Prop :=
    | om_list xs ys : hget h l = Some (OList xs) -> b <= l' -> hget h' l' = Some (OList ys) ->
        Forall2 vm xs ys -> omatch l l'
    | om_dict d d' : hget h l = Some (ODict d) -> b <= l' -> hget h' l' = Some (ODict d') ->
        Forall2 pm (dict_order d) d' -> omatch l l'
    | om_inst i i' : hget h l = Some (OInst i) -> b <= l' -> hget h' l' = Some (OInst i') ->
        i_cls i' = i_cls i -> imatch l i i' -> omatch l l'.
  End objects.

  (** [v'] in heap [h'] is a copy of [v]: one new object for each list, dict and instance
      reached, the same one wherever the original is the same. *)
  Definition is_copy (h' : heap) (b : nat) (v v' : val) : Prop :=
    exists R : loc -> loc -> Prop,
      (forall l x y, R l x -> R l y -> x = y) /\ (forall x y l, R x l -> R y l -> x = y) /\
      (forall l l', R l l' -> omatch h' b b R l l') /\ vmatch h h' b R v v'.
End graph.

(** ** Positions in a graph *)
Inductive pos : Type :=
| PIdx (n : nat)                       (* element of a list, tuple, set or subclass *)
| PKey (q : val)                       (* value of a dict or dict subclass, for an immutable key *)
| PNthKey (n : nat)                    (* key of a dict or dict subclass: the n-th that is not a string *)
| PNthVal (n : nat)                    (* the value of that key *)
| PAttr (a : pystr)                    (* attribute *)
| PState.                              (* what __getstate__ gives, what __setstate__ was given *)
Definition at_pos (cls : nat -> cinfo) (state : loc -> option val) (h : heap) (v : val) (p : pos) : option val :=
  match v with
  | VTuple xs => match p with PIdx n => nth_error xs n | _ => None end
  | VLoc l =>
      match hget h l, p with
      | Some (OList xs), PIdx n | Some (OSet xs), PIdx n => nth_error xs n
      | Some (ODict d), PKey q => dget q d
      | Some (ODict d), PNthKey n => option_map fst (nth_error (non_strings d) n)
      | Some (ODict d), PNthVal n => option_map snd (nth_error (non_strings d) n)
      | Some (OInst i), PAttr a => inst_attr h i a
      | Some (OInst i), PKey q => match c_kind (cls (i_cls i)) with KDict => dget q (i_items i) | _ => None end
      | Some (OInst i), PNthKey n => match c_kind (cls (i_cls i)) with KDict => option_map fst (nth_error (non_strings (i_items i)) n) | _ => None end
      | Some (OInst i), PNthVal n => match c_kind (cls (i_cls i)) with KDict => option_map snd (nth_error (non_strings (i_items i)) n) | _ => None end
      | Some (OInst i), PIdx n => match c_kind (cls (i_cls i)) with KList | KSet => nth_error (i_elems i) n | _ => None end
      | Some (OInst i), PState => state l
      | _, _ => None
      end
  | _ => None
  end.
Fixpoint at_path (cls : nat -> cinfo) (state : loc -> option val) (h : heap) (v : val) (ps : list pos) : option val :=
  match ps with
  | [] => Some v
  | p :: r => match at_pos cls state h v p with Some x => at_path cls state h x r | None => None end
  end.
(** The state of an original: given by [__getstate__], if the class also has [__setstate__]. *)
Definition given_state (w : world) (k : hooks) (h : heap) (l : loc) : option val :=
  match hget h l with
  | Some (OInst i) =>
      if c_getstate (w_cls w (i_cls i)) && c_setstate (w_cls w (i_cls i)) then
        match k_getstate k l with
        | Ret st => if truthy (w_cls w) h st then Some st else None
        | _ => None
        end
      else None
  | _ => None
  end.
(** The state of a copy: the argument of the only call of [__setstate__]. *)
Definition received_state (h : heap) (l : loc) : option val :=
  match hget h l with
  | Some (OInst i) => match i_state i with [st] => Some st | _ => None end
  | _ => None
  end.
Definition before (w : world) (k : hooks) (h : heap) (v : val) (ps : list pos) : option val :=
  at_path (w_cls w) (given_state w k h) h v ps.
Definition after (w : world) (h : heap) (v : val) (ps : list pos) : option val :=
  at_path (w_cls w) (received_state h) h v ps.
(** The path does not look into instances that are encoded by a handler or by [__reduce__],
    nor at attributes or contents of instances that are encoded by their own state, nor at
    excluded attributes; values of dicts are looked up by immutable keys or by position. *)
Fixpoint encoded_path (w : world) (k : hooks) (h : heap) (v : val) (ps : list pos) : Prop :=
  match ps with
  | [] => True
  | p :: r =>
      (forall q, p = PKey q -> pure q = true) /\
      (forall l i, v = VLoc l -> hget h l = Some (OInst i) -> ordinary w k l i /\
         (p <> PState -> no_state w k h (w_cls w (i_cls i)) l /\
            forall a, p = PAttr a -> kept (w_cls w (i_cls i)) a = true)) /\
      forall x, at_pos (w_cls w) (given_state w k h) h v p = Some x -> encoded_path w k h x r
  end.
Definition is_object (h : heap) (l : loc) : bool :=
  match hget h l with Some (OList _) | Some (ODict _) | Some (OInst _) => true | _ => false end.
