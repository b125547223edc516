(** Model of /repo/jsonpickle/unpickler.py: class Unpickler and the function decode.

    [rec] stands for the recursive call of [Unpickler._restore]; the knot is tied by fuel
    in [restore].  The argument is a JSON document.  [_namestack]/[_namedict] are write
    only in the source and absent here.  Immutable mappings (the [deferred] dict,
    711-719 and 755-757) are absent: item assignment on a dict subclass always works. *)
From Verif Require Import PyStr Tags Json JsonText B64 B85 Base Heap Registry LoadClass.
Open Scope nat_scope.
Local Open Scope monad_scope.

(** [on_missing] (unpickler.py:637-648) *)
Inductive missing : Type :=
| MIgnore | MWarn | MError
| MCall (f : pystr -> option exn)      (* a function; Some e: it raises e *)
| MOther.                              (* any other string or object: ignored *)

(** unpickler.py:99-100 and 637-648: a string policy, lowered first.  ASCII lowering is enough: no
    other character lowers to a letter of the three words. *)
Definition lower (c : N) : N := if ((65 <=? c) && (c <=? 90))%N then (c + 32)%N else c.
(** unpickler.py:99-100, 637-648 *)
Definition missing_of_string (s : pystr) : missing :=
  let t := map lower s in
  if seqb t (u "ignore") then MIgnore
  else if seqb t (u "warn") then MWarn
  else if seqb t (u "error") then MError
  else MOther.

(** the options of unpickler.py:332-351 (__init__) *)
Record uopts : Type := mkUopts {
  uo_keys : bool; uo_safe : bool; uo_v1 : bool; uo_missing : missing;
  uo_readonly : bool; uo_ctx : option val
}.

(** Observable effects, in order. *)
(** calls out of unpickler.py: loadclass (util.py:555-598), _loadmodule (284-306), loadrepr (262-281), 516-552, 835-857, 767-768, 1005-1014, 637-648 *)
Inductive event : Type :=
| EvLoad (name : pystr)                          (* loadclass is asked for this name *)
| EvImport (name : pystr)                        (* loadclass goes to the import system for it *)
| EvModule (j : json)                            (* _loadmodule *)
| EvEval (s : pystr)                             (* loadrepr: eval *)
| EvNew (c : nat) (args : list val) (kw : list (pystr * val))   (* cls.__new__ *)
| EvCall (f : val) (args : list val)             (* f(...) *)
| EvSetstate (l : loc) (st : val)
| EvHandler (h : nat) (ctx : option val)
| EvWarn (name : pystr)
| EvMissing (name : pystr)                       (* on_missing callback *)
| EvRaise (e : exn).                             (* the code called by the previous events raised e *)

(** unpickler.py:193-200 *)
Inductive smethod : Type := SetAttr | SetValue.  (* _obj_setattr / _obj_setvalue *)
(** an entry of _proxies (unpickler.py:491-496, 749-750, 934-935, 947-948) *)
Record swap : Type := mkSwap { sw_obj : val; sw_key : val; sw_proxy : val; sw_method : smethod }.

(** the fields of unpickler.py:332-367; u_heap and u_log stand for the process *)
Record ust : Type := mkUst {
  u_heap : heap;
  u_objs : list val;                   (* _objs *)
  u_idx : list (val * nat);            (* _obj_to_idx *)
  u_prox : list (option val);          (* instance field of each _Proxy created so far *)
  u_swaps : list swap;                 (* _proxies *)
  u_classes : list (pystr * val);      (* _classes *)
  u_log : list event
}.
(** Bookkeeping of the model, no counterpart in the source: MU, the us_ functions, log, alloc, set_obj, get_uobj. *)
Definition MU := M ust.
Definition us_heap h s := mkUst h (u_objs s) (u_idx s) (u_prox s) (u_swaps s) (u_classes s) (u_log s).
Definition us_objs x s := mkUst (u_heap s) x (u_idx s) (u_prox s) (u_swaps s) (u_classes s) (u_log s).
Definition us_idx x s := mkUst (u_heap s) (u_objs s) x (u_prox s) (u_swaps s) (u_classes s) (u_log s).
Definition us_prox x s := mkUst (u_heap s) (u_objs s) (u_idx s) x (u_swaps s) (u_classes s) (u_log s).
Definition us_swaps x s := mkUst (u_heap s) (u_objs s) (u_idx s) (u_prox s) x (u_classes s) (u_log s).
Definition us_classes x s := mkUst (u_heap s) (u_objs s) (u_idx s) (u_prox s) (u_swaps s) x (u_log s).
Definition us_log x s := mkUst (u_heap s) (u_objs s) (u_idx s) (u_prox s) (u_swaps s) (u_classes s) x.

(** unpickler.py:353-367 *)
Definition u_reset : MU unit := modify (fun s => mkUst (u_heap s) [] [] (u_prox s) [] [] (u_log s)).
Definition log (e : event) : MU unit := modify (fun s => us_log (u_log s ++ [e]) s).
(** A call of user code that ends with the exception e. *)
Definition raised {A} (e : exn) : MU A := log (EvRaise e) ;;; raise e.
Definition alloc (ob : obj) : MU val :=
  fun s => (Ret (VLoc (length (u_heap s))), us_heap (u_heap s ++ [ob]) s).
Definition set_obj (l : loc) (ob : obj) : MU unit :=
  modify (fun s => us_heap (hset (u_heap s) l ob) s).
Definition get_uobj (l : loc) : MU obj :=
  h <- gets u_heap ;;
  match hget h l with Some ob => ret ob | None => raise EUnmodelled end.
(** A raw JSON document used as a Python object. *)
(** as returned by unpickler.py:610, 857, 889 *)
Definition raw (j : json) : MU val :=
  fun s => let (v, h) := alloc_json j (u_heap s) in (Ret v, us_heap h s).

(** Python dict lookup and del, for _obj_to_idx (unpickler.py:476, 509-511) *)
Fixpoint idx_get (v : val) (t : list (val * nat)) : option nat :=
  match t with
  | [] => None
  | (x, n) :: r => if val_eqb v x then Some n else idx_get v r
  end.
Fixpoint idx_del (v : val) (t : list (val * nat)) : list (val * nat) :=
  match t with
  | [] => []
  | (x, n) :: r => if val_eqb v x then idx_del v r else (x, n) :: idx_del v r
  end.
Fixpoint list_set {A} (l : list A) (n : nat) (x : A) : list A :=
  match l, n with
  | [], _ => []
  | _ :: r, 0 => x :: r
  | y :: r, S n' => y :: list_set r n' x
  end.

(** unpickler.py:473-483 *)
Definition umkref (v : val) : MU val :=
  fun s => match idx_get v (u_idx s) with
           | Some _ => (Ret v, s)
           | None => (Ret v, us_objs (u_objs s ++ [v]) (us_idx ((v, length (u_objs s)) :: u_idx s) s))
           end.
(** [_Proxy()] and [proxy.reset(instance)] (171-178) *)
Definition new_proxy : MU val :=
  fun s => (Ret (VProxy (length (u_prox s))), us_prox (u_prox s ++ [None]) s).
Definition proxy_reset (p v : val) : MU unit :=
  match p with
  | VProxy n => modify (fun s => us_prox (list_set (u_prox s) n (Some v)) s)
  | _ => raise EUnmodelled
  end.
(** unpickler.py:505-514 *)
Definition swapref (p v : val) : MU unit :=
  fun s => match idx_get p (u_idx s) with
           | Some n => (Ret tt, us_objs (list_set (u_objs s) n v)
                                  (us_idx (idx_del p ((v, n) :: idx_del v (u_idx s))) s))
           | None => (Exc EKeyError, s)
           end.

(** [seq[z]] for a Python list; None is IndexError *)
(** used at unpickler.py:188, 601 *)
Definition py_index {A} (l : list A) (z : Z) : option A :=
  if (0 <=? z)%Z then nth_error l (Z.to_nat z)
  else if (0 <=? Z.of_nat (length l) + z)%Z then nth_error l (Z.to_nat (Z.of_nat (length l) + z))
  else None.

Definition is_proxy (v : val) : bool :=
  match v with VProxy _ | VIDProxy _ => true | _ => false end.
(** [proxy.get()] (174-175, 186-190) *)
Definition proxy_get (s : ust) (p : val) : val :=
  match p with
  | VProxy n => match nth_error (u_prox s) n with Some (Some v) => v | _ => VNone end
  | VIDProxy z => match py_index (u_objs s) z with Some v => v | None => VNone end
  | _ => p
  end.

(** Iterating a raw JSON value. *)
(** the for loops over parts of the document (unpickler.py:488, 525, 800-806, 898, 954) *)
Definition jiter (j : json) : res (list json) :=
  match j with
  | JList l => Ret l
  | JStr s => Ret (map (fun c => JStr [c]) s)
  | JObj ob => Ret (map JStr (keys ob))
  | _ => Exc ETypeError
  end.
(** [a, b = j] *)
(** unpickler.py:826 *)
Definition junpack2 (j : json) : res (json * json) :=
  match jiter j with
  | Ret [a; b] => Ret (a, b)
  | Ret _ => Exc EValueError
  | Exc e => Exc e
  | OOF => OOF
  end.
(** the in test of Python on strings (unpickler.py:203-217 on a string) *)
Definition is_substring (p s : pystr) : bool :=
  (fix go (s : pystr) : bool :=
     prefixb p s || match s with [] => false | _ :: r => go r end) s.

Section unpickler.
  Variable w : world.
  Variable o : uopts.
  Notation cls := (w_cls w).

  (** Allocate a fresh instance of class c. *)
  (** what a class object makes when it is called or its __new__ is *)
  Definition fresh_inst (c : nat) (r : crec) : MU val :=
    d <- (if c_dict (cls c) then dv <- alloc (ODict []) ;;
            match dv with VLoc d => ret (Some d) | _ => ret None end
          else ret None) ;;
    alloc (OInst (mkInst c d [] [] [] None r [] 0)).
  (** the result of user code: a new instance, an existing object or an exception *)
  Definition run_cres (r : cres) (rc : crec) : MU val :=
    match r with
    | CInst c => fresh_inst c rc
    | CVal v => ret v
    | CRaise e => raised e
    end.
  (** cls.__new__ (unpickler.py:540, 552, 840-843); below, a call of f or cls (548, 851) *)
  Definition do_new (c : nat) (args : list val) (kw : list (pystr * val)) : MU val :=
    log (EvNew c args kw) ;;;
    h <- gets u_heap ;; run_cres (w_new w h c args kw) (CNew args kw).
  Definition do_call (f : val) (args : list val) : MU val :=
    log (EvCall f args) ;;;
    h <- gets u_heap ;; run_cres (w_call w h f args) (CCall f args).

  (** Python: bool(v), iter(v), callable(v), isinstance *)
  Definition u_truthy (v : val) : MU bool := gets (fun s => truthy cls (u_heap s) v).
  Definition u_iter (v : val) : MU (list val) :=
    h <- gets u_heap ;; lift (iter_val cls h v).
  Definition u_callable (h : heap) (v : val) : bool :=
    match v with
    | VType _ | VFun _ => true
    | VExt n => w_ext_callable w n
    | VLoc l => match hget h l with Some (OInst i) => c_callable (cls (i_cls i)) | _ => false end
    | _ => false
    end.
  Definition u_inst (h : heap) (v : val) : option inst :=
    match v with
    | VLoc l => match hget h l with Some (OInst i) => Some i | _ => None end
    | _ => None
    end.

  (** [setattr(v, a, x)] *)
  (** unpickler.py:193-195, 571, 721-745, 841, 870 *)
  Definition set_attr (v : val) (a : pystr) (x : val) : MU unit :=
    match v with
    | VLoc l =>
        h <- gets u_heap ;;
        match inst_setattr cls h l a x with
        | Ret h' => modify (us_heap h')
        | Exc e => raise e
        | OOF => oof
        end
    | VType _ | VFun _ | VMod _ | VExt _ => raise EUnmodelled
    | _ => raise EAttributeError
    end.
  (** [object.__setattr__(v, a, x)] *)
  (** unpickler.py:729-732 (frozen dataclasses) *)
  Definition object_setattr (v : val) (a : pystr) (x : val) : MU unit :=
    match v with
    | VLoc l =>
        h <- gets u_heap ;;
        match hget h l with
        | Some (OInst i) =>
            match inst_store cls h l i a x with
            | Ret h' => modify (us_heap h')
            | Exc e => raise e
            | OOF => oof
            end
        | _ => raise EAttributeError
        end
    | _ => raise EAttributeError
    end.
  Definition add_swap (x : swap) : MU unit := modify (fun s => us_swaps (u_swaps s ++ [x]) s).

  (** unpickler.py:429-439 on the mapping [ob] *)
  Definition restore_base64 (ob : jobj) : MU val :=
    match sget B64 ob with
    | Some (JStr s) => ret (VBytes (b64decode s))
    | Some _ => ret (VBytes [])
    | None => raise EKeyError
    end.
  Definition restore_base85 (ob : jobj) : MU val :=
    match sget B85 ob with
    | Some (JStr s) => ret (VBytes (b85decode s))
    | Some _ => ret (VBytes [])
    | None => raise EKeyError
    end.
  (** unpickler.py:441-447; the payload is whatever the document contains *)
  Definition restore_bytearray (ob : jobj) : MU val :=
    match sget BYTEARRAY ob with
    | Some (JObj p) =>
        b <- (if shas B85 p then restore_base85 p else restore_base64 p) ;;
        match b with VBytes x => alloc (OByteArray x) | _ => raise EUnmodelled end
    | Some (JStr _) | Some (JList _) => raise ETypeError     (* payload["py/b64"] *)
    | _ => raise ETypeError                                   (* "in" on a number or None *)
    end.

  (** unpickler.py:598-605 *)
  Definition restore_id (ob : jobj) : MU val :=
    objs <- gets u_objs ;;
    let at_ z := match py_index objs z with Some v => ret v | None => ret (VIDProxy z) end in
    match sget ID ob with
    | Some (JInt z) => at_ z
    | Some (JBool b) => at_ (if b then 1 else 0)%Z
    | _ => ret VNone
    end.

  (** util.py:555-598 with the table of unpickler.py:409-427 *)
  Definition u_loadclass (j : json) : MU val :=
    cl <- gets u_classes ;;
    match j with
    | JStr s => log (EvLoad s) ;;;
                match from_classes cl s with None => log (EvImport s) | Some _ => ret tt end
    | _ => ret tt
    end ;;;
    lift (loadclass w cl j).

  Definition jfield (t : pystr) (ob : jobj) : json :=
    match sget t ob with Some j => j | None => JNull end.

  (** unpickler.py:607-611 *)
  Definition restore_type (ob : jobj) : MU val :=
    t <- u_loadclass (jfield TYPE_ ob) ;;
    match t with VNone => raw (JObj ob) | _ => ret t end.
  (** unpickler.py:613-623 *)
  Definition restore_module (ob : jobj) : MU val :=
    log (EvModule (jfield MODULE ob)) ;;;
    m <- lift (loadmodule w (jfield MODULE ob)) ;; umkref m.
  (** unpickler.py:617-619; then 621-623 with loadrepr (262-281) *)
  Definition restore_repr_safe (ob : jobj) : MU val :=
    log (EvModule (jfield REPR ob)) ;;;
    m <- lift (loadmodule w (jfield REPR ob)) ;; umkref m.
  Definition restore_repr (ob : jobj) : MU val :=
    match jfield REPR ob with
    | JStr s =>
        match split_on SLASH s with
        | [_; _] => log (EvEval s) ;;;
                    match w_eval w s with
                    | Exc e => raised e
                    | r => v <- lift r ;; umkref v
                    end
        | _ => raise EValueError
        end
    | _ => raise EAttributeError
    end.
  (** unpickler.py:893-894 *)
  Definition restore_function (ob : jobj) : MU val := u_loadclass (jfield FUNCTION ob).

  (** unpickler.py:637-648 *)
  Definition process_missing (name : pystr) : MU unit :=
    match uo_missing o with
    | MIgnore | MOther => ret tt
    | MWarn => log (EvWarn name)
    | MError => raise EClassNotFound
    | MCall f => log (EvMissing name) ;;; match f name with Some e => raised e | None => ret tt end
    end.

  (** unpickler.py:369-373 with 193-200 *)
  Definition run_swap (x : swap) : MU unit :=
    v <- gets (fun s => proxy_get s (sw_proxy x)) ;;
    match sw_method x with
    | SetAttr => match sw_key x with
                 | VStr a => set_attr (sw_obj x) a v
                 | _ => raise ETypeError
                 end
    | SetValue =>
        match sw_obj x with
        | VLoc l =>
            ob <- get_uobj l ;;
            match ob with
            | OList xs =>
                match sw_key x with
                | VInt z => if (0 <=? z)%Z && (z <? Z.of_nat (length xs))%Z
                            then set_obj l (OList (list_set xs (Z.to_nat z) v))
                            else raise EIndexError
                | _ => raise ETypeError
                end
            | ODict d => set_obj l (ODict (dset (sw_key x) v d))
            | _ => raise EUnmodelled
            end
        | _ => raise EUnmodelled
        end
    end.
  (** unpickler.py:369-373 *)
  Definition swap_proxies : MU unit :=
    l <- gets u_swaps ;;
    foldM (fun _ x => run_swap x) l tt ;;;
    modify (us_swaps []).

  Section step.
    Variable rec : json -> MU val.     (* self._restore *)

    (** unpickler.py:485-497 *)
    Definition list_swaps (parent : val) (vs : list val) : list swap :=
      let fix go (i : Z) (vs : list val) : list swap :=
        match vs with
        | [] => []
        | v :: r => (if is_proxy v then [mkSwap parent (VInt i) v SetValue] else []) ++ go (i + 1)%Z r
        end in go 0%Z vs.
    Definition restore_list (j : json) : MU val :=
      parent <- alloc (OList []) ;;
      umkref parent ;;;
      l <- lift (jiter j) ;;
      children <- mapM rec l ;;
      match parent with VLoc p => set_obj p (OList children) | _ => ret tt end ;;;
      modify (fun s => us_swaps (u_swaps s ++ list_swaps parent children) s) ;;;
      ret parent.
    (** unpickler.py:499-503 *)
    Definition restore_iterator (ob : jobj) : MU val :=
      catch (p <- restore_list (jfield ITERATOR ob) ;;
             match p with VLoc l => alloc (OIter l) | _ => raise EUnmodelled end)
            is_TypeError
            (fun _ => p <- alloc (OList []) ;; match p with VLoc l => alloc (OIter l) | _ => raise EUnmodelled end).

    (** unpickler.py:896-900, 952-956 *)
    Definition restore_set (ob : jobj) : MU val :=
      catch (l <- lift (jiter (jfield SET_ ob)) ;;
             xs <- foldM (fun acc j => v <- rec j ;; h <- gets u_heap ;;
                                       if hashable cls h v then ret (set_add v acc) else raise ETypeError) l [] ;;
             alloc (OSet xs))
            is_TypeError (fun _ => alloc (OSet [])).
    Definition restore_tuple (ob : jobj) : MU val :=
      catch (l <- lift (jiter (jfield TUPLE ob)) ;;
             xs <- mapM rec l ;; ret (VTuple xs))
            is_TypeError (fun _ => ret (VTuple [])).

    (** unpickler.py:650-660: a nested [decode] with the same context *)
    Definition restore_pickled_key (key : pystr) : MU val :=
      if prefixb JSON_KEY key then
        match loads (skipn (length JSON_KEY) key) with
        | Some j => rec j
        | None => raise EValueError
        end
      else ret (VStr key).
    (** unpickler.py:662-680 *)
    Definition restore_key (key : pystr) : MU val :=
      if uo_keys o then restore_pickled_key key else ret (VStr key).

    (** [data[k] = v] on the dict at location l *)
    (** unpickler.py:921, 932, 946 *)
    Definition dict_assign (l : loc) (key v : val) : MU unit :=
      ob <- get_uobj l ;;
      h <- gets u_heap ;;
      match ob with
      | ODict d => if hashable cls h key then set_obj l (ODict (dset key v d)) else raise ETypeError
      | _ => raise EUnmodelled
      end.
    Definition swap_if_proxy (tgt key v : val) (m : smethod) : MU unit :=
      if is_proxy v then add_swap (mkSwap tgt key v m) else ret tt.
    (** unpickler.py:902-950 *)
    Definition restore_dict (ob : jobj) : MU val :=
      data <- alloc (ODict []) ;;
      (if uo_v1 o then ret tt else umkref data ;;; ret tt) ;;;
      match data with
      | VLoc l =>
          (if uo_keys o then
             foldM (fun _ kv => if prefixb JSON_KEY (fst kv) then ret tt
                                else v <- rec (snd kv) ;; dict_assign l (VStr (fst kv)) v) ob tt ;;;
             foldM (fun _ kv => if negb (prefixb JSON_KEY (fst kv)) then ret tt
                                else key <- restore_pickled_key (fst kv) ;;
                                     v <- rec (snd kv) ;;
                                     dict_assign l key v ;;;
                                     swap_if_proxy data key v SetValue) ob tt
           else
             foldM (fun _ kv => v <- rec (snd kv) ;;
                                dict_assign l (VStr (fst kv)) v ;;;
                                swap_if_proxy data (VStr (fst kv)) v SetValue) ob tt) ;;;
          ret data
      | _ => raise EUnmodelled
      end.

    (** unpickler.py:708-750: one iteration of the loop of [_restore_from_dict]. *)
    Definition inst_setitem (l : loc) (i : inst) (key v : val) : MU unit :=
      h <- gets u_heap ;;
      if hashable cls h key then
        set_obj l (OInst (mkInst (i_cls i) (i_dict i) (i_slots i) (dset key v (i_items i)) (i_elems i)
                            (i_fac i) (i_rec i) (i_state i) (i_pos i)))
      else raise ETypeError.
    Definition set_plain_attr (inst : val) (key v : val) : MU bool :=
      h <- gets u_heap ;;
      match key with
      | VStr a =>
          if dunder a then
            match u_inst h inst with
            | Some i => set_attr inst (mangle (cls (i_cls i)) a) v ;;; ret true
            | None => set_attr inst a v ;;; ret true
            end
          else
            catch (set_attr inst a v ;;; ret true)
                  (fun e => is_KeyError e || is_AttributeError e)
                  (fun e =>
                     if is_KeyError e then set_attr inst (u "_" ++ a) v ;;; ret true
                     else if is_Frozen e then object_setattr inst a v ;;; ret true
                     else match u_inst h inst with
                          | Some i =>
                              let c := cls (i_cls i) in
                              if (match c_slots c with Some [] => true | _ => false end)
                                 && c_intstr c && uo_readonly o then ret false else raise e
                          | None => raise e
                          end)
      | VBytes _ => raise ETypeError
      | _ => raise EAttributeError
      end.
    (** The bool tells whether the iteration reaches line 749. *)
    Definition set_one (inst key v : val) : MU unit :=
      h <- gets u_heap ;;
      go <- match u_inst h inst, inst with
            | Some i, VLoc l =>
                match c_kind (cls (i_cls i)) with
                | KDict =>
                    match key with
                    | VStr a => if seqb a (u "__dict__")
                                then catch (set_attr inst a v ;;; ret true) is_TypeError (fun _ => ret false)
                                else inst_setitem l i key v ;;; ret true
                    | _ => inst_setitem l i key v ;;; ret true
                    end
                | _ => set_plain_attr inst key v
                end
            | _, _ => set_plain_attr inst key v
            end ;;
      if go then swap_if_proxy inst key v SetAttr else ret tt.

    (** unpickler.py:682-759 with the defaults ignorereserved=True, restore_dict_items=True *)
    Definition restore_from_dict (ob : jobj) (inst : val) : MU unit :=
      foldM (fun _ kv =>
               if is_reserved (fst kv) then ret tt
               else key <- restore_key (fst kv) ;; v <- rec (snd kv) ;; set_one inst key v) ob tt.
    (** the same with ignorereserved=False, restore_dict_items=False (773-783) *)
    Definition restore_from_vals (d : list (val * val)) (inst : val) : MU unit :=
      foldM (fun _ kv => set_one inst (fst kv) (snd kv)) d tt.

    (** content of a dict or dict subclass *)
    (** isinstance(.., dict) in unpickler.py:763-792 *)
    Definition as_dict (h : heap) (v : val) : option (list (val * val)) :=
      match v with
      | VLoc l =>
          match hget h l with
          | Some (ODict d) => Some d
          | Some (OInst i) => match c_kind (cls (i_cls i)) with KDict => Some (i_items i) | _ => None end
          | _ => None
          end
      | _ => None
      end.
    (** unpickler.py:767-768 *)
    Definition call_setstate (iv : val) (i : inst) (l : loc) (st : val) : MU unit :=
      log (EvSetstate l st) ;;;
      h <- gets u_heap ;;
      match w_setstate w h (i_cls i) st with
      | Some e => raised e
      | None => set_obj l (OInst (mkInst (i_cls i) (i_dict i) (i_slots i) (i_items i) (i_elems i)
                                    (i_fac i) (i_rec i) (i_state i ++ [st]) (i_pos i)))
      end.
    (** [hasattr(v, "__getnewargs__") or hasattr(v, "__getnewargs_ex__")] *)
    Definition has_newargs (h : heap) (v : val) : bool :=
      match v with
      | VStr _ | VInt _ | VBool _ | VFloat _ | VBytes _ | VTuple _ => true
      | VLoc l => match hget h l with
                  | Some (OInst i) => c_newargs (cls (i_cls i)) || c_newargs_ex (cls (i_cls i))
                  | _ => false
                  end
      | _ => false
      end.
    (** a tuple, or an instance of a tuple subclass, of length two (763-765) *)
    Definition as_pair (h : heap) (v : val) : option (val * val) :=
      match v with
      | VTuple [a; b] => Some (a, b)
      | VLoc l =>
          match hget h l with
          | Some (OInst i) => match c_kind (cls (i_cls i)), i_elems i with
                              | KTuple, [a; b] => Some (a, b)
                              | _, _ => None
                              end
          | _ => None
          end
      | _ => None
      end.
    (** unpickler.py:768-792: no [__setstate__] *)
    Definition default_state (inst st : val) : MU val :=
      h <- gets u_heap ;;
      match as_dict h st with
      | Some d => restore_from_vals d inst ;;; ret inst
      | None =>
          match as_pair h st with
          | Some (a, b) =>
              match as_dict h b with
              | Some db =>
                  restore_from_vals db inst ;;;
                  match as_dict h a with
                  | Some da => restore_from_vals da inst ;;; ret inst
                  | None => ret inst
                  end
              | None => if has_newargs h inst then ret inst else ret st
              end
          | None => if has_newargs h inst then ret inst else ret st
          end
      end.
    (** unpickler.py:761-792 *)
    Definition restore_state (ob : jobj) (inst : val) : MU val :=
      st <- rec (jfield STATE ob) ;;
      h <- gets u_heap ;;
      match u_inst h inst, inst with
      | Some i, VLoc l =>
          if c_setstate (cls (i_cls i)) then call_setstate inst i l st ;;; ret inst
          else default_state inst st
      | _, _ => default_state inst st
      end.

    (** [instance.append(v)] / [instance.add(v)]; 0: neither method exists *)
    (** unpickler.py:799-806 *)
    Inductive seqm : Type := SAppend | SAdd | SNone.
    Definition seq_method (h : heap) (v : val) : seqm :=
      match v with
      | VLoc l =>
          match hget h l with
          | Some (OList _) => SAppend
          | Some (OSet _) => SAdd
          | Some (OByteArray _) => SAppend
          | Some (OInst i) => match c_kind (cls (i_cls i)) with
                              | KList | KDeque => SAppend | KSet => SAdd | _ => SNone end
          | _ => SNone
          end
      | _ => SNone
      end.
    Definition set_elems (i : inst) (xs : list val) : inst :=
      mkInst (i_cls i) (i_dict i) (i_slots i) (i_items i) xs (i_fac i) (i_rec i) (i_state i) (i_pos i).
    Definition do_append (tgt v : val) : MU unit :=
      match tgt with
      | VLoc l =>
          ob <- get_uobj l ;;
          match ob with
          | OList xs => set_obj l (OList (xs ++ [v]))
          | OInst i => set_obj l (OInst (set_elems i (i_elems i ++ [v])))
          | _ => raise EUnmodelled
          end
      | _ => raise EUnmodelled
      end.
    Definition do_add (tgt v : val) : MU unit :=
      match tgt with
      | VLoc l =>
          ob <- get_uobj l ;;
          h <- gets u_heap ;;
          if hashable cls h v then
            match ob with
            | OSet xs => set_obj l (OSet (set_add v xs))
            | OInst i => set_obj l (OInst (set_elems i (set_add v (i_elems i))))
            | _ => raise EUnmodelled
            end
          else raise ETypeError
      | _ => raise EUnmodelled
      end.
    (** unpickler.py:794-811 *)
    Definition restore_object_instance_variables (ob : jobj) (inst : val) : MU val :=
      restore_from_dict ob inst ;;;
      match sget SEQ ob with
      | Some sq =>
          h <- gets u_heap ;;
          match seq_method h inst with
          | SAppend => l <- lift (jiter sq) ;;
                       foldM (fun _ j => v <- rec j ;; do_append inst v) l tt
          | SAdd => l <- lift (jiter sq) ;;
                    foldM (fun _ j => v <- rec j ;; do_add inst v) l tt
          | SNone => ret tt
          end
      | None => ret tt
      end ;;;
      match sget STATE ob with
      | Some _ => restore_state ob inst
      | None => ret inst
      end.

    (** unpickler.py:625-635; [obj.pop(key)] also removes the key from the document *)
    Definition loadfactory (ob : jobj) : MU (option val * jobj) :=
      let '(f, ob') :=
        match sget DEFAULT_FACTORY ob with
        | Some f => (Some f, sdel DEFAULT_FACTORY ob)
        | None => match sget (u "default_factory") ob with
                  | Some f => (Some f, sdel (u "default_factory") ob)
                  | None => (None, ob)
                  end
        end in
      match f with
      | Some JNull | None => ret (None, ob')
      | Some j => v <- rec j ;; ret (Some v, ob')
      end.

    (** unpickler.py:220-242 (the NEWARGSEX case is handled by the caller) *)
    Definition getargs (ob : jobj) : MU json :=
      match sget NEWARGS ob with
      | Some a => ret a
      | None =>
          match sget INITARGS ob with
          | Some a => ret a
          | None =>
              match sget SEQ ob, sget OBJECT ob with
              | Some sq, Some cn =>
                  t <- u_loadclass cn ;;
                  match t with
                  | VNone => ret (JList [])
                  | VType c =>
                      match c_fields (cls c) with
                      | Some n => l <- lift (jiter sq) ;;
                                  if Nat.eqb n (length l) then ret sq else ret (JList [])
                      | None => ret (JList [])
                      end
                  | _ => ret (JList [])
                  end
              | _, _ => ret (JList [])
              end
          end
      end.

    (** Argument lists: a falsy raw document is used as it is, anything else is restored. *)
    (** unpickler.py:830-831 *)
    Definition restore_args (j : json) : MU (res (list val)) :=
      if jtruthy j then
        v <- rec j ;; h <- gets u_heap ;; ret (iter_val cls h v)
      else
        ret (match j with JList _ | JObj _ | JStr _ => Ret [] | _ => Exc ETypeError end).
    (** keyword arguments need string keys (unpickler.py:832-833, 840-843) *)
    Definition str_keyed (d : list (val * val)) : option (list (pystr * val)) :=
      fold_right (fun kv acc => match fst kv, acc with
                                | VStr s, Some r => Some ((s, snd kv) :: r)
                                | _, _ => None
                                end) (Some []) d.
    Definition restore_kwargs (j : json) : MU (res (list (pystr * val))) :=
      if jtruthy j then
        v <- rec j ;; h <- gets u_heap ;;
        ret (match as_dict h v with
             | Some d => match str_keyed d with Some kw => Ret kw | None => Exc ETypeError end
             | None => Exc ETypeError
             end)
      else ret (match j with JObj _ => Ret [] | _ => Exc ETypeError end).

    (** unpickler.py:835-847: [cls.__new__(cls, ...)] with the optional factory *)
    Definition new_attempt (c : nat) (factory : option val) (args : res (list val))
               (kw : res (list (pystr * val))) : MU val :=
      a <- lift args ;; k <- lift kw ;;
      ft <- match factory with Some f => u_truthy f | None => ret false end ;;
      match factory, ft with
      | Some f, true =>
          inst <- do_new c (f :: a) k ;;
          set_attr inst (u "default_factory") f ;;;
          ret inst
      | _, _ => do_new c a k
      end.
    (** unpickler.py:862-863 *)
    Definition is_tuple (h : heap) (v : val) : bool :=
      match v with
      | VTuple _ => true
      | VLoc l => match hget h l with
                  | Some (OInst i) => match c_kind (cls (i_cls i)) with KTuple => true | _ => false end
                  | _ => false
                  end
      | _ => false
      end.
    (** [instance.default_factory] if it exists *)
    Definition inst_factory (h : heap) (v : val) : option val :=
      match u_inst h v with
      | Some i => if c_deffac (cls (i_cls i)) then i_fac i else inst_attr h i (u "default_factory")
      | None => None
      end.

    (** unpickler.py:813-872 *)
    Definition restore_object_instance (ob : jobj) (cv : val) (class_name : pystr) : MU val :=
      proxy <- new_proxy ;;
      umkref proxy ;;;
      fo <- loadfactory ob ;;
      let '(factory, ob') := fo in
      ak <- match sget NEWARGSEX ob' with
            | Some p => '(a, kw) <- lift (junpack2 p) ;; ret (a, kw)
            | None => a <- getargs ob' ;; ret (a, JObj [])
            end ;;
      args <- restore_args (fst ak) ;;
      kwargs <- restore_kwargs (snd ak) ;;
      (* Some v: an instance was made; None: old style *)
      first <- match cv with
               | VType c => catch (v <- new_attempt c factory args kwargs ;; ret (Some v))
                                  is_TypeError (fun _ => ret None)
               | _ => ret None
               end ;;
      made <- match first with
              | Some v => ret (Some v)
              | None =>
                  catch (a <- lift args ;;
                         h <- gets u_heap ;;
                         if u_callable h cv then v <- do_call cv a ;; ret (Some v) else raise ETypeError)
                        is_TypeError
                        (fun _ => match cv with
                                  | VType c => if w_blank w c then v <- fresh_inst c CBlank ;; ret (Some v)
                                               else ret None
                                  | _ => ret None
                                  end)
              end ;;
      match made with
      | None => process_missing class_name ;;; v <- raw (JObj ob') ;; umkref v
      | Some inst =>
          proxy_reset proxy inst ;;;
          swapref proxy inst ;;;
          h <- gets u_heap ;;
          if is_tuple h inst then ret inst else
          inst2 <- restore_object_instance_variables ob' inst ;;
          pf <- gets (fun s => match inst_factory (u_heap s) inst2 with
                               | Some f => if is_proxy f then Some (proxy_get s f) else None
                               | None => None
                               end) ;;
          match pf with
          | Some v => set_attr inst2 (u "default_factory") v ;;; ret inst2
          | None => ret inst2
          end
      end.

    (** handler.restore, seen through its calls of context.restore (unpickler.py:1005-1014) *)
    Fixpoint run_hscript (h : nat) (sc : hscript) : MU val :=
      match sc with
      | HDone (HInst c parts) => fresh_inst c (CHandler h parts)
      | HDone (HVal v) => ret v
      | HRaise e => raised e
      | HRestore j kk => v <- rec j ;; run_hscript h (kk v)
      end.
    (** unpickler.py:874-891, 1005-1014 *)
    Definition restore_object (ob : jobj) : MU val :=
      let cn := jfield OBJECT ob in
      cv <- u_loadclass cn ;;
      match cn with
      | JStr class_name =>
          let handler := match cv with
                         | VType c => reg_lookup (w_sub w) (w_reg w) c class_name
                         | _ => reg_get_name (w_reg w) class_name
                         end in
          match handler with
          | Some h =>
              proxy <- new_proxy ;;
              umkref proxy ;;;
              let ctx := match uo_ctx o with
                         | Some c => if w_hctx_rest w h then Some c else None
                         | None => None
                         end in
              log (EvHandler h ctx) ;;;
              inst <- run_hscript h (w_hrest w h ctx ob) ;;
              proxy_reset proxy inst ;;;
              swapref proxy inst ;;;
              ret inst
          | None =>
              match cv with
              | VNone => process_missing class_name ;;; v <- raw (JObj ob) ;; umkref v
              | _ => restore_object_instance ob cv class_name
              end
          end
      | _ => raise EUnmodelled        (* u_loadclass has raised *)
      end.

    (** [v[0]] and [v[1:]] *)
    (** args[0] and args[1:] (unpickler.py:537-540) *)
    Definition val_head_tail (h : heap) (v : val) : res (val * list val) :=
      match v with
      | VTuple (a :: r) => Ret (a, r)
      | VTuple [] => Exc EIndexError
      | VStr [] => Exc EIndexError
      | VStr (c :: r) => Ret (VStr [c], map (fun x => VStr [x]) r)
      | VLoc l =>
          match hget h l with
          | Some (OList (a :: r)) => Ret (a, r)
          | Some (OList []) => Exc EIndexError
          | Some (OSet _) => Exc ETypeError
          | _ => Exc EUnmodelled
          end
      | VNone | VBool _ | VInt _ | VFloat _ | VProxy _ | VIDProxy _ | VFun _ => Exc ETypeError
      | _ => Exc EUnmodelled
      end.
    (** unpickler.py:535 *)
    Definition is_newobj (v : val) : bool :=
      match v with
      | VStr s => seqb s NEWOBJ
      | VFun f => seqb (f_name (w_fun w f)) (u "__newobj__")
      | VType c => seqb (c_name (cls c)) (u "__newobj__")
      | _ => false
      end.
    Definition fail_reduce (proxy : val) : MU val :=
      r <- alloc (OList []) ;; proxy_reset proxy r ;;; swapref proxy r ;;; ret r.
    (** unpickler.py:535-552, [stage1]; None: not callable *)
    Definition reduce_make (f args : val) : MU (option val) :=
      h <- gets u_heap ;;
      if is_newobj f then
        '(c, r) <- lift (val_head_tail h args) ;;
        match c with
        | VType c => v <- do_new c r [] ;; ret (Some v)
        | VNone | VBool _ | VInt _ | VFloat _ | VStr _ | VBytes _ | VProxy _ | VIDProxy _ => raise ETypeError
        | _ => raise EUnmodelled
        end
      else if negb (u_callable h f) then ret None
      else
        catch (a <- u_iter args ;; v <- do_call f a ;; ret (Some v))
              is_TypeError
              (fun _ => match f with
                        | VType c => a <- u_iter args ;; v <- do_new c a [] ;; ret (Some v)
                        | VExt _ => raise EUnmodelled
                        | _ => raise ETypeError
                        end).
    (** [for k, v in d.items(): setattr(tgt, k, v)] *)
    Definition setattr_items (tgt : val) (d : list (val * val)) : MU unit :=
      foldM (fun _ kv => match fst kv with
                         | VStr a => set_attr tgt a (snd kv)
                         | _ => raise ETypeError
                         end) d tt.
    (** unpickler.py:567-577 *)
    Definition reduce_state3 (stage1 state : val) : MU unit :=
      h <- gets u_heap ;;
      catch (match as_dict h state with
             | Some d => setattr_items stage1 d
             | None => raise EAttributeError
             end)
            is_Exception
            (fun _ =>
               l <- u_iter state ;;
               match l with
               | [dict_state; slots_state] =>
                   t <- u_truthy dict_state ;;
                   (if t then
                      h <- gets u_heap ;;
                      match u_inst h stage1 with
                      | Some i =>
                          match i_dict i, as_dict h dict_state with
                          | Some d, Some ds =>
                              foldM (fun _ kv => dict_assign d (fst kv) (snd kv)) ds tt
                          | Some _, None => raise EUnmodelled
                          | None, _ => raise EAttributeError
                          end
                      | None => raise EAttributeError
                      end
                    else ret tt) ;;;
                   t2 <- u_truthy slots_state ;;
                   (if t2 then
                      h <- gets u_heap ;;
                      match as_dict h slots_state with
                      | Some d => setattr_items stage1 d
                      | None => raise EAttributeError
                      end
                    else ret tt)
               | _ => raise EValueError
               end).
    (** unpickler.py:559-566: [stage1.__dict__ = state] *)
    Definition reduce_state2 (stage1 state : val) : MU unit :=
      h <- gets u_heap ;;
      match u_inst h stage1 with
      | Some i =>
          match i_dict i with
          | Some d =>
              catch (ob <- get_uobj d ;;
                     match ob with
                     | ODict its =>
                         foldM (fun _ kv =>
                           h <- gets u_heap ;;
                           match state with
                           | VLoc sl =>
                               match hget h sl with
                               | Some (ODict sd) =>
                                   match dget (fst kv) sd with
                                   | Some _ => ret tt
                                   | None => set_obj sl (ODict (dset (fst kv) (snd kv) sd))
                                   end
                               | Some (OInst _) => raise EUnmodelled
                               | _ => raise EAttributeError
                               end
                           | VExt _ => raise EUnmodelled
                           | _ => raise EAttributeError
                           end) its tt
                     | _ => raise EUnmodelled
                     end ;;;
                     set_attr stage1 (u "__dict__") state)
                    is_AttributeError (fun _ => reduce_state3 stage1 state)
          | None => reduce_state3 stage1 state
          end
      | None => match stage1 with
                | VType _ | VFun _ | VMod _ | VExt _ => raise EUnmodelled
                | _ => reduce_state3 stage1 state
                end
      end.
    (** unpickler.py:554-580 *)
    Definition reduce_state (stage1 state setter : val) : MU unit :=
      t <- u_truthy state ;;
      if t then
        match setter with
        | VNone =>
            catch (h <- gets u_heap ;;
                   match u_inst h stage1, stage1 with
                   | Some i, VLoc l =>
                       if c_setstate (cls (i_cls i)) then call_setstate stage1 i l state else raise EAttributeError
                   | _, VExt _ => raise EUnmodelled
                   | _, _ => raise EAttributeError
                   end)
                  is_AttributeError
                  (fun _ => reduce_state2 stage1 state)
        | _ =>
            h <- gets u_heap ;;
            if u_callable h setter then
              log (EvCall setter [stage1; state]) ;;;
              match w_setter w h setter stage1 state with
              | Some e => raised e
              | None =>
                  match u_inst h stage1, stage1 with
                  | Some i, VLoc l =>
                      set_obj l (OInst (mkInst (i_cls i) (i_dict i) (i_slots i) (i_items i) (i_elems i)
                                          (i_fac i) (i_rec i) (i_state i ++ [state]) (i_pos i)))
                  | _, _ => ret tt
                  end
              end
            else raise ETypeError
        end
      else ret tt.
    (** unpickler.py:582-588 *)
    Definition reduce_listitems (stage1 items : val) : MU unit :=
      t <- u_truthy items ;;
      if t then
        h <- gets u_heap ;;
        match seq_method h stage1 with
        | SAppend => l <- u_iter items ;; foldM (fun _ v => do_append stage1 v) l tt
        | _ => match stage1 with VExt _ => raise EUnmodelled | _ => raise EAttributeError end
        end
      else ret tt.
    (** unpickler.py:590-592 *)
    Definition reduce_dictitems (stage1 items : val) : MU unit :=
      t <- u_truthy items ;;
      if t then
        l <- u_iter items ;;
        foldM (fun _ p =>
                 kv <- u_iter p ;;
                 match kv with
                 | [key; v] =>
                     h <- gets u_heap ;;
                     match u_inst h stage1, stage1 with
                     | Some i, VLoc l =>
                         match c_kind (cls (i_cls i)) with
                         | KDict => inst_setitem l i key v
                         | KPlain | KSet | KTuple | KIter => raise EAttributeError
                         | _ => raise EUnmodelled
                         end
                     | _, VLoc l => dict_assign l key v
                     | _, VExt _ => raise EUnmodelled
                     | _, _ => raise EAttributeError
                     end
                 | _ => raise EValueError
                 end) l tt
      else ret tt.
    (** unpickler.py:516-596 *)
    Definition restore_reduce (ob : jobj) : MU val :=
      proxy <- new_proxy ;;
      umkref proxy ;;;
      rvo <- catch (l <- lift (jiter (jfield REDUCE ob)) ;; vs <- mapM rec l ;; ret (Some vs))
                   is_TypeError (fun _ => ret None) ;;
      match rvo with
      | None => fail_reduce proxy
      | Some vs =>
          match vs ++ repeat VNone (6 - length vs) with
          | [f; args; state; listitems; dictitems; setter] =>
              mk <- reduce_make f args ;;
              match mk with
              | None => fail_reduce proxy
              | Some stage1 =>
                  reduce_state stage1 state setter ;;;
                  reduce_listitems stage1 listitems ;;;
                  reduce_dictitems stage1 dictitems ;;;
                  proxy_reset proxy stage1 ;;;
                  swapref proxy stage1 ;;;
                  ret stage1
              end
          | _ => raise EValueError
          end
      end.

    (** unpickler.py:375-384 [_restore] and 958-1003 [_restore_tags]: the order of the
        tests matters *)
    Definition restore_step (j : json) : MU val :=
      match j with
      | JNull => ret VNone
      | JBool b => ret (VBool b)
      | JInt z => ret (VInt z)
      | JFloat t => ret (VFloat t)
      | JStr s => ret (VStr s)
      | JList _ => restore_list j
      | JObj ob =>
          if shas TUPLE ob then restore_tuple ob
          else if shas SET_ ob then restore_set ob
          else if shas B64 ob then restore_base64 ob
          else if shas B85 ob then restore_base85 ob
          else if shas BYTEARRAY ob then restore_bytearray ob
          else if shas ID ob then restore_id ob
          else if shas ITERATOR ob then restore_iterator ob
          else if shas OBJECT ob then restore_object ob
          else if shas TYPE_ ob then restore_type ob
          else if shas REDUCE ob then restore_reduce ob
          else if shas FUNCTION ob then restore_function ob
          else if shas MODULE ob then restore_module ob
          else if shas REPR ob then (if uo_safe o then restore_repr_safe ob else restore_repr ob)
          else restore_dict ob
      end.
  End step.

  (** [Unpickler._restore] *)
  Fixpoint restore (n : nat) (j : json) : MU val :=
    match n with
    | 0 => oof
    | S n' => restore_step (restore n') j
    end.

  (** unpickler.py:409-427: the [classes] argument *)
  Inductive carg : Type :=
  | CAOne (c : nat)
  | CASeq (l : list carg)
  | CADict (d : list ((pystr + nat) * val)).
  Fixpoint register_classes (c : carg) (t : list (pystr * val)) : list (pystr * val) :=
    match c with
    | CAOne c => sset (importable_name (cls c)) (VType c) t
    | CASeq l => fold_left (fun t c => register_classes c t) l t
    | CADict d =>
        fold_left (fun t e => match fst e with
                              | inl s => sset s (snd e) t
                              | inr c => sset (importable_name (cls c)) (snd e) t
                              end) d t
    end.

  (** unpickler.py:386-407 *)
  Definition unpickle (n : nat) (reset : bool) (classes : option carg) (j : json) : MU val :=
    (if reset then u_reset else ret tt) ;;;
    match classes with
    | Some c => modify (fun s => us_classes (register_classes c (u_classes s)) s)
    | None => ret tt
    end ;;;
    v <- restore n j ;;
    (if reset then swap_proxies else ret tt) ;;;
    ret v.

  (** unpickler.py:21-125 [decode] with a new context *)
  Definition decode (n : nat) (classes : option carg) (text : pystr) : MU val :=
    match loads text with
    | None => raise EValueError
    | Some j => v <- unpickle n true classes j ;; u_reset ;;; ret v
    end.
End unpickler.

(** A new Unpickler; h: objects that exist before. *)
(** unpickler.py:332-351 *)
Definition new_unpickler (h : heap) : ust := mkUst h [] [] [] [] [] [].
