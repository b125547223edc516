(** C15, C17, C19, C20, C21, C36, C48: options of encode and what reaches the document. *)
From Verif Require Import PyStr Tags Json JsonText B64 B85 Base Heap Registry Pickler Unpickler PGen SpecRun HeapProofs IterProofs FailProofs OptionProofs Samples.
Open Scope nat_scope.

Lemma W0_keeps : handlers_keep W0.
Proof. intros hd ctx l ob. exact I. Qed.

(** C48.  Whatever happens, also if an exception ends the call: every object the graph had is
    as before, except that iterators have moved forward. *)
Theorem C48_not_modified :
  forall w k o n v s r s', po_readonly o = false -> po_sort o = false -> handlers_keep w ->
  encode w k o n v s = (r, s') -> r <> OOF ->
  forall l ob, hget (p_heap s) l = Some ob ->
  hget (p_heap s') l = Some ob \/
  exists i p, ob = OInst i /\ c_kind (w_cls w (i_cls i)) = KIter /\ i_pos i <= p /\
              hget (p_heap s') l = Some (OInst (set_pos i p)).
Proof. intros w k o n v s r s' Or Os HK E N. exact (proj2 (encode_hev w k o Or Os HK n v s r s' E N)). Qed.
Print Assumptions C48_not_modified.
Definition K_iter : hooks :=
  {| k_reduce := k_reduce K0; k_getstate := fun _ => Exc ERuntimeError; k_newargs := k_newargs K0;
     k_newargs_ex := k_newargs_ex K0; k_initargs := k_initargs K0; k_iter := fun _ p => Ret (Some (VInt (Z.of_nat p)));
     k_attr := k_attr K0; k_dir := k_dir K0;
     k_props := k_props K0; k_eqdict := k_eqdict K0; k_members := k_members K0; k_repr := k_repr K0; k_str := k_str K0; k_call0 := k_call0 K0 |}.
Definition PO_iter (m : option nat) : popts :=
  {| po_unpicklable := true; po_make_refs := true; po_keys := false; po_max_depth := None;
     po_warn := false; po_max_iter := m; po_b85 := false; po_fail_safe := None; po_props := false;
     po_readonly := false; po_root := VNone; po_sort := false; po_ctx := None; po_numeric := false |}.
(** x = [it, bad]: the iterator is used up to the limit, then bad.__getstate__ raises *)
Definition the_iter (p : nat) : obj := OInst (mkInst cIter None [] [] [] None CSrc [] p).
Definition H_iter : heap := [ OList [VLoc 1; VLoc 2]; the_iter 4; plain_inst cState 3; ODict [] ].
Example C48_case :
  let r := encode W0 K_iter (PO_iter (Some 3)) 10 (VLoc 0) (new_pickler H_iter) in
  fst r = Exc ERuntimeError /\ p_heap (snd r) = [ OList [VLoc 1; VLoc 2]; the_iter 7; plain_inst cState 3; ODict [] ].
Proof. vm_compute. split; reflexivity. Qed.
(** encode(x, handle_readonly=True) writes attributes of inner objects onto x. *)
Definition PO_readonly : popts :=
  {| po_unpicklable := true; po_make_refs := true; po_keys := false; po_max_depth := None;
     po_warn := false; po_max_iter := None; po_b85 := false; po_fail_safe := None; po_props := false;
     po_readonly := true; po_root := VLoc 0; po_sort := false; po_ctx := None; po_numeric := false |}.
Definition K_members : hooks :=
  {| k_reduce := k_reduce K0; k_getstate := k_getstate K0; k_newargs := k_newargs K0;
     k_newargs_ex := k_newargs_ex K0; k_initargs := k_initargs K0; k_iter := k_iter K0;
     k_attr := k_attr K0; k_dir := k_dir K0;
     k_props := k_props K0; k_eqdict := k_eqdict K0; k_members := fun _ => [u "size"; u "inner"]; k_repr := k_repr K0; k_str := k_str K0; k_call0 := k_call0 K0 |}.
Theorem C48_readonly_refuted :
  exists w k o n h l s' t, po_root o = VLoc l /\ encode w k o n (VLoc l) (new_pickler h) = (Ret t, s') /\
  hget h 1 = Some (ODict [(VStr (u "size"), VInt 1); (VStr (u "inner"), VLoc 2)]) /\
  hget (p_heap s') 1 = Some (ODict [(VStr (u "size"), VInt 5); (VStr (u "inner"), VLoc 2)]).
Proof.
  exists W0, K_members, PO_readonly, 10,
    [ plain_inst cNode 1; ODict [(VStr (u "size"), VInt 1); (VStr (u "inner"), VLoc 2)]; plain_inst cOther 3; ODict [(VStr (u "size"), VInt 5)] ], 0.
  eexists. eexists. split; [reflexivity|]. split; [vm_compute; reflexivity|]. split; reflexivity.
Qed.
Print Assumptions C48_readonly_refuted.
(** With sort_keys set on the backend, encode gives x a new __dict__. *)
Definition PO_sort : popts :=
  {| po_unpicklable := true; po_make_refs := true; po_keys := false; po_max_depth := None;
     po_warn := false; po_max_iter := None; po_b85 := false; po_fail_safe := None; po_props := false;
     po_readonly := false; po_root := VNone; po_sort := true; po_ctx := None; po_numeric := false |}.
Theorem C48_sort_keys_refuted :
  exists w k o n h l s' t d d', po_readonly o = false /\ encode w k o n (VLoc l) (new_pickler h) = (Ret t, s') /\
  hget h l = Some (plain_inst cNode d) /\ hget (p_heap s') l = Some (plain_inst cNode d') /\ d <> d'.
Proof.
  exists W0, K0, PO_sort, 10, [ plain_inst cNode 1; ODict [(VStr (u "b"), VInt 1); (VStr (u "a"), VInt 2)] ], 0.
  eexists. eexists. exists 1, 2. split; [reflexivity|]. split; [vm_compute; reflexivity|]. repeat split; discriminate.
Qed.
Print Assumptions C48_sort_keys_refuted.

(** C15.  The items xs are taken in order from where the iterator stands; there are as many
    as max_iter and the iterator allow; the iterator has moved on by exactly as many. *)
Theorem C15_max_iter :
  forall w k o n l i s text s', po_readonly o = false -> po_sort o = false -> handlers_keep w ->
  po_fail_safe o = None -> po_max_depth o <> Some 0%Z -> po_props o = false ->
  hget (p_heap s) l = Some (OInst i) -> bare_iterator w (i_cls i) ->
  encode w k o (S n) (VLoc l) s = (Ret text, s') ->
  exists xs js s1 s2, pulls k (flatten w k o n) l (i_pos i) xs js s1 s2 /\ p_heap s1 = p_heap s /\
    text = dumps (JObj ((if po_unpicklable o then [(OBJECT, JStr (importable_name (w_cls w (i_cls i))))] else [])
                        ++ [(ITERATOR, JList js)])) /\
    hget (p_heap s') l = Some (OInst (set_pos i (i_pos i + length xs))) /\
    stops k l (i_pos i) (po_max_iter o) (length xs).
Proof. intros w k o n l i s text s' Or Os HK Of Od. exact (encode_iterator w k o Or Os HK Of Od n l i s text s'). Qed.
Print Assumptions C15_max_iter.
(** count(4) with max_iter=3 *)
Example C15_case :
  bare_iterator W0 cIter /\
  show (enc W0 K_iter (PO_iter (Some 3)) 10 H_iter (VLoc 1)) =
    Ret "{""py/object"": ""m.Iter"", ""py/iterator"": [4, 5, 6]}"%string /\
  show (enc W0 K_iter (PO_iter None) 200 H_iter (VLoc 1)) = OOF.
Proof. split; [constructor; reflexivity|]. split; vm_compute; reflexivity. Qed.

(** C17.  Keys are made strings as [coerces] says.  If the strings differ, all entries are
    there, in order, except those under reserved names and those with functions that cannot
    be named. *)
Theorem C17_coercion :
  forall w k o n l d s text s' ks, po_readonly o = false -> po_sort o = false -> handlers_keep w ->
  po_fail_safe o = None -> po_max_depth o <> Some 0%Z -> po_keys o = false ->
  hget (p_heap s) l = Some (ODict d) ->
  (forall kv x, In kv d -> snd kv = VLoc x -> hget (p_heap s) x <> None) ->
  Forall2 (coerces (po_numeric o) k) (map fst (kept_entries w (p_heap s) d)) ks -> NoDup ks ->
  encode w k o (S n) (VLoc l) s = (Ret text, s') ->
  exists js s1 s2, runs (flatten w k o n) (map snd (kept_entries w (p_heap s) d)) js s1 s2 /\ p_heap s1 = p_heap s /\
    text = dumps (JObj (combine ks js)).
Proof. intros w k o n l d s text s' ks Or Os HK Of Od. exact (encode_dict w k o Or Os HK Of Od n l d s text s' ks). Qed.
Print Assumptions C17_coercion.
Definition H_mixed : heap :=
  [ ODict [(VNone, VInt 1); (VBool true, VLoc 1); (VInt (-7), VFun 1); (VTuple [VInt 1], VLoc 1); (VStr (u "py/id"), VInt 3);
           (VInt 1, VFun 0); (VStr (u "1.0"), VStr (u "x"))]; OList [] ].
Definition mixed_keys : list pystr := map u ["null"; "True"; "<object>"; "1"; "1.0"]%string.
Example C17_case :
  Forall2 (coerces false K0) (map fst (kept_entries W0 H_mixed (match hget H_mixed 0 with Some (ODict d) => d | _ => [] end))) mixed_keys /\
  NoDup mixed_keys /\
  show (enc W0 K0 PO 10 H_mixed (VLoc 0)) =
  Ret "{""null"": 1, ""True"": [], ""<object>"": {""py/id"": 1}, ""1"": {""py/function"": ""m.f""}, ""1.0"": ""x""}"%string.
Proof.
  split; [|split; [|vm_compute; reflexivity]].
  - change (map fst _) with [VNone; VBool true; VTuple [VInt 1]; VInt 1; VStr (u "1.0")].
    repeat constructor.
  - unfold mixed_keys. repeat constructor; cbn [map In]; intuition discriminate.
Qed.
(** numeric_keys=True: {True: 1, 2: [], 1.5: 3} *)
Definition PO_num : popts :=
  {| po_unpicklable := true; po_make_refs := true; po_keys := false; po_max_depth := None;
     po_warn := false; po_max_iter := None; po_b85 := false; po_fail_safe := None; po_props := false;
     po_readonly := false; po_root := VNone; po_sort := false; po_ctx := None; po_numeric := true |}.
Definition H_num : heap := [ ODict [(VBool true, VInt 1); (VInt 2, VLoc 1); (VFloat (u "1.5"), VInt 3)]; OList [] ].
Example C17_numeric_case :
  Forall2 (coerces true K0) (map fst (kept_entries W0 H_num (match hget H_num 0 with Some (ODict d) => d | _ => [] end))) (map u ["true"; "2"; "1.5"]%string) /\
  show (enc W0 K0 PO_num 10 H_num (VLoc 0)) = Ret "{""true"": 1, ""2"": [], ""1.5"": 3}"%string.
Proof. split; [|vm_compute; reflexivity]. change (map fst _) with [VBool true; VInt 2; VFloat (u "1.5")]. constructor; [constructor; reflexivity|]. constructor; [exact (co_int true K0 2)|]. repeat constructor. Qed.
(** {1: 'a', '1': 'b'} loses an entry. *)
Theorem C17_collision_refuted :
  exists w k o n h l d t s', po_keys o = false /\ hget h l = Some (ODict d) /\ kept_entries w h d = d /\ NoDup (map fst d) /\
  encode w k o n (VLoc l) (new_pickler h) = (Ret t, s') /\ length d = 2 /\ exists n v, t = dumps (JObj [(n, v)]).
Proof.
  exists W0, K0, PO, 5, [ODict [(VInt 1, VStr (u "a")); (VStr (u "1"), VStr (u "b"))]], 0.
  eexists. eexists. eexists. split; [reflexivity|]. split; [reflexivity|]. split; [reflexivity|].
  split; [repeat constructor; cbn; intuition discriminate|]. split; [vm_compute; reflexivity|]. split; [reflexivity|].
  exists (u "1"), (JStr (u "b")). vm_compute. reflexivity.
Qed.
Print Assumptions C17_collision_refuted.

(** C19, lists: a function keeps its place, as a name or as null. *)
Theorem C19_functions_in_lists :
  forall w k o n l xs s text s', po_sort o = false -> po_fail_safe o = None ->
  po_unpicklable o = true -> po_make_refs o = true -> po_max_depth o = None ->
  hget (p_heap s) l = Some (OList xs) -> encode w k o (S n) (VLoc l) s = (Ret text, s') ->
  exists js, text = dumps (JList js) /\ length js = length xs /\
    forall p f, nth_error xs p = Some (VFun f) ->
      nth_error js p = Some (if f_modfun (w_fun w f) then JObj [(FUNCTION, JStr (importable_fname (w_fun w f)))] else JNull).
Proof. intros w k o n l xs s text s' Os Of. exact (encode_functions_list w k o Os Of n l xs s text s'). Qed.
Print Assumptions C19_functions_in_lists.
(** Dicts: the keys of the document are those of the dict without the functions that cannot
    be named (and without reserved names). *)
Theorem C19_functions_in_dicts :
  forall w k o n l ps s text s', po_readonly o = false -> po_sort o = false -> handlers_keep w ->
  po_fail_safe o = None -> po_max_depth o <> Some 0%Z -> po_keys o = false ->
  hget (p_heap s) l = Some (ODict (named ps)) -> NoDup (map fst ps) ->
  (forall nv x, In nv ps -> snd nv = VLoc x -> hget (p_heap s) x <> None) ->
  encode w k o (S n) (VLoc l) s = (Ret text, s') ->
  exists ob, text = dumps (JObj ob) /\
    map fst ob = map fst (filter (fun nv => negb (is_reserved (fst nv)) && negb (anonymous w (p_heap s) (snd nv))) ps).
Proof. intros w k o n l ps s text s' Or Os HK Of Od Ok. exact (encode_names_dict w k o Or Os HK Of Od Ok n l ps s text s'). Qed.
Print Assumptions C19_functions_in_dicts.
(** Instances, with _jsonpickle_exclude (C36): excluded names are not in the document. *)
Theorem C19_functions_in_instances :
  forall w k o n l i a ps s text s', po_readonly o = false -> po_sort o = false -> handlers_keep w ->
  po_fail_safe o = None -> po_max_depth o <> Some 0%Z -> po_keys o = false -> po_props o = false ->
  hget (p_heap s) l = Some (OInst i) -> ordinary w (i_cls i) -> i_dict i = Some a ->
  hget (p_heap s) a = Some (ODict (named ps)) -> NoDup (map fst ps) ->
  (forall nv x, In nv ps -> snd nv = VLoc x -> hget (p_heap s) x <> None) ->
  encode w k o (S n) (VLoc l) s = (Ret text, s') ->
  exists ob, text = dumps (JObj ob) /\
    map fst ob = (if po_unpicklable o then [OBJECT] else []) ++
      map fst (filter (fun nv => negb (if in_dec (list_eq_dec N.eq_dec) (fst nv) (c_exclude (w_cls w (i_cls i))) then true else false) &&
                (negb (is_reserved (fst nv)) && negb (anonymous w (p_heap s) (snd nv)))) ps).
Proof. intros w k o n l i a ps s text s' Or Os HK Of Od Ok. exact (encode_names_instance w k o Or Os HK Of Od Ok n l i a ps s text s'). Qed.
Print Assumptions C19_functions_in_instances.
Definition fun_attrs : list (pystr * val) :=
  [(u "a", VFun 1); (u "b", VFun 0); (u "secret", VInt 1); (u "py/id", VInt 2); (u "c", VLoc 2)].
Definition H_funs : heap := [ plain_inst cEx 1; ODict (named fun_attrs); OList [VFun 0; VFun 1; VInt 3] ].
Example C19_case :
  ordinary W0 cEx /\ NoDup (map fst fun_attrs) /\
  show (enc W0 K0 PO 10 H_funs (VLoc 1)) = Ret "{""b"": {""py/function"": ""m.f""}, ""secret"": 1, ""c"": [{""py/function"": ""m.f""}, null, 3]}"%string /\
  show (enc W0 K0 PO 10 H_funs (VLoc 0)) =
  Ret "{""py/object"": ""m.Ex"", ""b"": {""py/function"": ""m.f""}, ""c"": [{""py/function"": ""m.f""}, null, 3]}"%string.
Proof.
  split; [constructor; reflexivity|]. split; [repeat constructor; cbn [map In fst fun_attrs]; intuition discriminate|].
  split; vm_compute; reflexivity.
Qed.

(** C36, document: an excluded attribute is not there; any other is, if its value can be
    encoded. *)
Theorem C36_excluded_not_in_document :
  forall w k o n l i a ps s text s', po_readonly o = false -> po_sort o = false -> handlers_keep w ->
  po_fail_safe o = None -> po_max_depth o <> Some 0%Z -> po_keys o = false -> po_props o = false ->
  hget (p_heap s) l = Some (OInst i) -> ordinary w (i_cls i) -> i_dict i = Some a ->
  hget (p_heap s) a = Some (ODict (named ps)) -> NoDup (map fst ps) ->
  (forall nv x, In nv ps -> snd nv = VLoc x -> hget (p_heap s) x <> None) ->
  encode w k o (S n) (VLoc l) s = (Ret text, s') ->
  exists ob, text = dumps (JObj ob) /\
    forall x v, In (x, v) ps -> is_reserved x = false -> anonymous w (p_heap s) v = false ->
      (In x (map fst ob) <-> ~ In x (c_exclude (w_cls w (i_cls i)))).
Proof.
  intros w k o n l i a ps s text s' Or Os HK Of Od Ok Op G O1 Da Ga N Al H.
  destruct (encode_names_instance w k o Or Os HK Of Od Ok n l i a ps s text s' Op G O1 Da Ga N Al H) as (ob & E & Eo).
  exists ob. split; auto. intros x v I R A. rewrite Eo. split.
  - intros J X. apply in_app_or in J. destruct J as [J|J].
    + destruct (po_unpicklable o); [|destruct J]. destruct J as [<-|[]]. discriminate R.
    + apply in_map_iff in J. destruct J as ([y z] & Ey & J). cbn [fst] in Ey. subst y. apply filter_In in J. destruct J as [_ J]. cbn [fst] in J.
      destruct (in_dec (list_eq_dec N.eq_dec) x (c_exclude (w_cls w (i_cls i)))); [discriminate|contradiction].
  - intros X. apply in_or_app. right. apply in_map_iff. exists (x, v). split; auto. apply filter_In. split; auto. cbn [fst snd].
    destruct (in_dec (list_eq_dec N.eq_dec) x (c_exclude (w_cls w (i_cls i)))); [contradiction|]. rewrite R, A. reflexivity.
Qed.
Print Assumptions C36_excluded_not_in_document.

(** C20.  If fail_safe does not raise, only exceptions outside Exception come out. *)
Theorem C20_contained :
  forall w k o f n v s e s', po_fail_safe o = Some f -> po_sort o = false ->
  (forall e, is_Exception e = true -> exists j, f e = Ret j) ->
  encode w k o n v s = (Exc e, s') -> is_Exception e = false.
Proof. intros w k o f n v s e s' Of Os Hf. exact (encode_contained w k o f Of Os Hf n v s e s'). Qed.
Print Assumptions C20_contained.
(** A list of objects any of which may fail: each failing one is replaced by fail_safe(e),
    the others are as they would be, in their places; an interrupt ends the call. *)
Theorem C20_replaced :
  forall w k o f n l xs rs s, po_fail_safe o = Some f -> po_sort o = false ->
  (forall e, is_Exception e = true -> exists j, f e = Ret j) ->
  po_unpicklable o = true -> po_make_refs o = true -> po_props o = false -> po_max_depth o = None ->
  hget (p_heap s) l = Some (OList xs) -> ~ In (VLoc l) xs ->
  NoDup (filter (fun x => match x with VLoc _ => true | _ => false end) xs) ->
  Forall2 (saved w k (p_heap s) f) xs rs ->
  exists s', encode w k o (S (S (S n))) (VLoc l) s =
    (match all_of rs with Ret js => Ret (dumps (JList js)) | Exc e => Exc e | OOF => OOF end, s').
Proof.
  intros w k o f n l xs rs s Of Os Hf Ou Om Op Od. exact (encode_saved w k o f Of Os Hf Ou Om Op Od n l xs rs s).
Qed.
Print Assumptions C20_replaced.
Definition fs_null (e : exn) : res json := Ret (JStr (u "failed")).
Definition PO_safe : popts :=
  {| po_unpicklable := true; po_make_refs := true; po_keys := false; po_max_depth := None;
     po_warn := false; po_max_iter := None; po_b85 := false; po_fail_safe := Some fs_null; po_props := false;
     po_readonly := false; po_root := VNone; po_sort := false; po_ctx := None; po_numeric := false |}.
Definition K_some (bad : loc -> option exn) : hooks :=
  {| k_reduce := k_reduce K0; k_getstate := fun l => match bad l with Some e => Exc e | None => Ret (VInt 5) end; k_newargs := k_newargs K0;
     k_newargs_ex := k_newargs_ex K0; k_initargs := k_initargs K0; k_iter := k_iter K0; k_attr := k_attr K0; k_dir := k_dir K0;
     k_props := k_props K0; k_eqdict := k_eqdict K0; k_members := k_members K0; k_repr := k_repr K0; k_str := k_str K0; k_call0 := k_call0 K0 |}.
Definition K_one : hooks := K_some (fun l => if Nat.eqb l 1 then Some ERuntimeError else None).
Definition K_stop : hooks := K_some (fun l => if Nat.eqb l 2 then Some EKeyboardInterrupt else Some ERuntimeError).
Definition H_some : heap := [ OList [VLoc 1; VInt 7; VLoc 2]; plain_inst cState 3; plain_inst cState 3; ODict [] ].
Example C20_case :
  exists rs, Forall2 (saved W0 K_one H_some fs_null) [VLoc 1; VInt 7; VLoc 2] rs /\
  all_of rs = Ret [JStr (u "failed"); JInt 7; JObj [(OBJECT, JStr (u "m.State")); (STATE, JInt 5)]] /\
  show (enc W0 K_one PO_safe 10 H_some (VLoc 0)) = Ret "[""failed"", 7, {""py/object"": ""m.State"", ""py/state"": 5}]"%string /\
  show (enc W0 K_stop PO_safe 10 H_some (VLoc 0)) = Exc EKeyboardInterrupt.
Proof.
  eexists. split; [|split; [|split; vm_compute; reflexivity]].
  - constructor; [|constructor; [|constructor; [|constructor]]].
    + eapply sv_fails with (e := ERuntimeError) (j := JStr (u "failed")); try reflexivity. constructor; reflexivity.
    + apply sv_prim. reflexivity.
    + eapply sv_state; try reflexivity. constructor; reflexivity.
  - reflexivity.
Qed.

(** C21 is not so: a failing object keeps its number, and the decoder, which sees the
    replacement, does not count it.  [bad, [], [] (the same list)] *)
Theorem C21_references_refuted :
  exists w k o f h t s', po_fail_safe o = Some f /\ (forall e, exists j, f e = Ret j) /\
  hget h 0 = Some (OList [VLoc 1; VLoc 2; VLoc 2]) /\ hget h 2 = Some (OList []) /\
  encode w k o 10 (VLoc 0) (new_pickler h) = (Ret t, s') /\
  t = dumps (JList [JStr (u "failed"); JList []; JObj [(ID, JInt 2)]]) /\
  exists a b c s2, dec w UO 20 t = (Ret (VLoc 0), s2) /\ hget (u_heap s2) 0 = Some (OList [a; b; c]) /\ b <> c.
Proof.
  exists W0, K_one, PO_safe, fs_null, [ OList [VLoc 1; VLoc 2; VLoc 2]; plain_inst cState 3; OList []; ODict [] ].
  eexists. eexists. split; [reflexivity|]. split; [unfold fs_null; eauto|]. split; [reflexivity|]. split; [reflexivity|].
  split; [vm_compute; reflexivity|]. split; [vm_compute; reflexivity|].
  eexists. eexists. eexists. eexists. split; [vm_compute; reflexivity|]. split; [reflexivity|]. discriminate.
Qed.
Print Assumptions C21_references_refuted.
