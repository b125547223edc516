(** C50: iterators. *)
From Coq Require Import List.
From Verif Require Import PyStr Tags Json JsonText JsonTextProofs Base Heap Registry LoadClass Pickler Unpickler SpecGraph SpecRun SpecIso SpecIter PGen PTerm PStep HeapProofs IterProofs IterRT RTBase RTMain RTProps Samples PropEncode PropRoundtrip PropOptions PropKeys PropIso.
Import ListNotations.
Local Open Scope list_scope.
Open Scope nat_scope.

(** C50.  The iterator at l would give the items xs; they and all they refer to are apart from
    the iterator, and a list of them is supported.  encode reads exactly these items.  decode
    gives a new iterator over a list of copies of them, in the same order; objects that occur
    several times in the items are the same in the copies. *)
Theorem C50_iterator :
  forall w k po uo classes h dm N l i xs U,
  rt_options po uo -> finite_graph w k po h dm N ->
  hget h l = Some (OInst i) -> bare_iterator w (i_cls i) -> str_ok (importable_name (w_cls w (i_cls i))) = true ->
  yields k l (i_pos i) (po_max_iter po) xs ->
  self_contained w k h U -> Forall (inside U) xs -> ~ U l ->
  (forall x, In x xs -> supported w k (po_keys po) (class_table w classes) (h ++ [OList xs]) x) ->
  exists text n0 m0,
    (forall n s, n0 <= n -> p_heap s = h -> exists s', encode w k po n (VLoc l) s = (Ret text, s') /\
       hget (p_heap s') l = Some (OInst (set_pos i (i_pos i + length xs)))) /\
    forall m t, m0 <= m -> exists q h1 t' ys, decode w uo m classes text t = (Ret (VLoc (length h1)), t') /\
      u_heap t' = h1 ++ [OIter q] /\ hget h1 q = Some (OList ys) /\
      is_copy w k (po_keys po) (h ++ [OList xs]) h1 (length (u_heap t)) (VTuple xs) (VTuple ys) /\
      (forall x, x < length (u_heap t) -> hget (u_heap t') x = hget (u_heap t) x).
Proof.
  intros w k po uo classes h dm N l i xs U OP FG G BI NM YS SC IN NU SU.
  exact (iterator_roundtrip w k po uo classes h dm N l i xs U OP FG G BI YS SC IN NU SU NM).
Qed.
Print Assumptions C50_iterator.

(** One number on the side of encode: the items are encoded with the iterator as the only new
    entry, wherever in a document it occurs. *)
Theorem C50_number_encoding :
  forall w k o n l i s j s', po_readonly o = false -> po_sort o = false -> handlers_keep w ->
  po_fail_safe o = None -> po_props o = false -> fresh o (VLoc l) s -> (-1 <= p_depth s)%Z ->
  hget (p_heap s) l = Some (OInst i) -> bare_iterator w (i_cls i) ->
  flatten w k o (S n) (VLoc l) s = (Ret j, s') ->
  exists xs js s1 s2, pulls k (flatten w k o n) l (i_pos i) xs js s1 s2 /\
    p_heap s1 = p_heap s /\ p_objs s1 = p_objs s ++ [VLoc l] /\
    j = JObj ((if po_unpicklable o then [(OBJECT, JStr (importable_name (w_cls w (i_cls i))))] else []) ++ [(ITERATOR, JList js)]).
Proof.
  intros w k o n l i s j s' Or Os HK Of Op Fr D G B H.
  destruct (flatten_iterator w k o Or Os HK Of n l i s j s' Op Fr D G B H) as (xs & js & s1 & s2 & P & E1 & E2 & _ & E3 & _).
  exists xs, js, s1, s2. auto.
Qed.
Print Assumptions C50_number_encoding.
(** One number on the side of decode: the documents of the items are restored with one new
    entry; the iterator itself is not entered. *)
Theorem C50_number_decoding :
  forall w uo m name js t, idx_get (VLoc (length (u_heap t))) (u_idx t) = None ->
  exists t1, u_heap t1 = u_heap t ++ [OList []] /\ u_objs t1 = u_objs t ++ [VLoc (length (u_heap t))] /\
    forall ys t2, mapM (restore w uo m) js t1 = (Ret ys, t2) -> exists t3,
      restore w uo (S m) (JObj [(OBJECT, JStr name); (ITERATOR, JList js)]) t = (Ret (VLoc (length (u_heap t2))), t3) /\
      u_objs t3 = u_objs t2 /\
      u_heap t3 = hset (u_heap t2) (length (u_heap t)) (OList ys) ++ [OIter (length (u_heap t))].
Proof.
  intros w uo m name js t ID. set (q := VLoc (length (u_heap t))).
  exists (us_objs (u_objs t ++ [q]) (us_idx ((q, length (u_objs t)) :: u_idx t) (us_heap (u_heap t ++ [OList []]) t))).
  split; [reflexivity|]. split; [reflexivity|]. intros ys t2 E.
  change (restore w uo (S m) (JObj [(OBJECT, JStr name); (ITERATOR, JList js)]) t)
    with (restore_iterator (restore w uo m) [(OBJECT, JStr name); (ITERATOR, JList js)] t).
  unfold restore_iterator. change (jfield ITERATOR [(OBJECT, JStr name); (ITERATOR, JList js)]) with (JList js).
  set (t1 := us_objs (u_objs t ++ [q]) (us_idx ((q, length (u_objs t)) :: u_idx t) (us_heap (u_heap t ++ [OList []]) t))) in E.
  set (t4 := us_swaps (u_swaps t2 ++ list_swaps q ys) (us_heap (hset (u_heap t2) (length (u_heap t)) (OList ys)) t2)).
  assert (RL : restore_list (restore w uo m) (JList js) t = (Ret q, t4)).
  { unfold restore_list. rewrite (bind_eq _ _ t q (us_heap (u_heap t ++ [OList []]) t)) by reflexivity.
    rewrite (bind_eq _ _ _ q t1) by (unfold umkref; cbn [us_heap u_idx]; fold q in ID; rewrite ID; reflexivity).
    rewrite (bind_eq _ _ t1 js t1) by reflexivity. rewrite (bind_eq _ _ _ _ _ E). reflexivity. }
  unfold catch, bind. rewrite RL. eexists. split; [|split].
  - unfold q, alloc. cbn [t4 us_swaps us_heap u_heap]. rewrite hset_length. reflexivity.
  - reflexivity.
  - reflexivity.
Qed.
Print Assumptions C50_number_decoding.

(** The second of three items is taken next: a list that contains itself, twice. *)
Definition items_it : list val := [VStr (u "a"); VLoc 1; VTuple [VLoc 1]].
Definition K_it : hooks :=
  {| k_reduce := k_reduce K0; k_getstate := k_getstate K0; k_newargs := k_newargs K0;
     k_newargs_ex := k_newargs_ex K0; k_initargs := k_initargs K0; k_iter := fun _ p => Ret (nth_error items_it p);
     k_attr := k_attr K0; k_dir := k_dir K0;
     k_props := k_props K0; k_eqdict := k_eqdict K0; k_members := k_members K0; k_repr := k_repr K0; k_str := k_str K0; k_call0 := k_call0 K0 |}.
Definition H_it : heap := [ the_iter 1; OList [VLoc 1; VInt 7]; OList [VLoc 0; VLoc 0] ].
Definition U_it (l : loc) : Prop := l = 1.
Lemma finite_it : finite_graph W0 K_it PO H_it 2 3.
Proof.
  pose proof (finite_sample PO H_it 2 eq_refl (le_S _ _ (le_n _)) eq_refl) as [].
  constructor; auto.
  - intros l p x E. destruct p as [|[|[|p]]]; [| | |destruct p]; inversion E; subst; split; cbn; auto; lia.
  - repeat split; try discriminate; apply fg_ret.
  - left. intros l p x L E. destruct p as [|[|[|[|p]]]]; try discriminate E; lia.
Qed.
Lemma contained_it : self_contained W0 K_it H_it U_it.
Proof.
  assert (V1 : viso (on U_it) (VLoc 1) (VLoc 1)) by (apply vi_loc; split; reflexivity). constructor.
  - intros a b [<- ->]. split; [|discriminate]. apply oi_list. constructor; [exact V1|]. constructor; [apply vi_flat; reflexivity|constructor].
  - apply hooks_K0; auto; try (constructor; reflexivity).
    intros a b [<- ->] i E. discriminate E.
Qed.
Example C50_case :
  let xs := [VLoc 1; VTuple [VLoc 1]] in
  rt_options PO UO /\ finite_graph W0 K_it PO H_it 2 3 /\ bare_iterator W0 cIter /\
  str_ok (importable_name (w_cls W0 cIter)) = true /\ yields K_it 0 1 (po_max_iter PO) xs /\
  self_contained W0 K_it H_it U_it /\ Forall (inside U_it) xs /\ ~ U_it 0 /\
  (forall x, In x xs -> supported W0 K_it false [] (H_it ++ [OList xs]) x) /\
  show (enc W0 K_it PO 10 H_it (VLoc 0)) = Ret "{""py/object"": ""m.Iter"", ""py/iterator"": [[{""py/id"": 1}, 7], {""py/tuple"": [{""py/id"": 1}]}]}"%string /\
  (forall text, enc W0 K_it PO 10 H_it (VLoc 0) = Ret text ->
     fst (dec W0 UO 20 text) = Ret (VLoc 2) /\
     u_heap (snd (dec W0 UO 20 text)) = [OList [VLoc 1; VTuple [VLoc 1]]; OList [VLoc 1; VInt 7]; OIter 0]).
Proof.
  cbv zeta. split; [repeat split|]. split; [exact finite_it|]. split; [constructor; reflexivity|]. split; [reflexivity|].
  split. { split; [|reflexivity]. intros [|[|n]] x E; try (injection E as <-; reflexivity). destruct n; discriminate. }
  split; [exact contained_it|].
  assert (V1 : viso (on U_it) (VLoc 1) (VLoc 1)) by (apply vi_loc; split; reflexivity).
  split. { constructor; [exact V1|]. constructor; [|constructor]. apply vi_tuple. constructor; [exact V1|constructor]. }
  split; [discriminate|]. split.
  - assert (SH : forall x, In x [VLoc 1; VInt 7; VTuple [VLoc 1]] -> supported W0 K_it false [] (H_it ++ [OList [VLoc 1; VTuple [VLoc 1]]]) x).
    { intros x I. apply (closed_supported W0 K_it false [] _ [VLoc 1; VInt 7; VTuple [VLoc 1]]); auto.
      - intros y J. cbn [In] in J. destruct J as [<-|[<-|[<-|[]]]].
        + eexists. split; [eapply sh_list; reflexivity|incl_tac].
        + exact Logic.I.
        + cbn. incl_tac.
      - intros y J. cbn [In] in J. destruct J as [<-|[<-|[<-|[]]]]; try exact Logic.I.
        split; [eexists; eapply sh_list; reflexivity|]. intros z E. exfalso.
        inversion E as [l0 i cs args kw x0 G|l0 i st G|l0 i hd pre vs x0 G|l0 i f args mkrec st li xs di d x0 G]; discriminate G. }
    intros x I. apply SH. cbn [In] in *. tauto.
  - split; [vm_compute; reflexivity|]. intros text E. vm_compute in E. injection E as <-. vm_compute. split; reflexivity.
Qed.

(** A second reference to an iterator becomes a list: [it, it]. *)
Theorem C50_second_reference_refuted :
  exists w k h text t, enc w k PO 10 h (VLoc 2) = Ret text /\ hget h 2 = Some (OList [VLoc 0; VLoc 0]) /\
    (exists i, hget h 0 = Some (OInst i) /\ bare_iterator w (i_cls i)) /\
    dec w UO 20 text = (Ret (VLoc 0), t) /\
    exists a b ys, hget (u_heap t) 0 = Some (OList [VLoc a; VLoc b]) /\ hget (u_heap t) a = Some (OIter b) /\ hget (u_heap t) b = Some (OList ys).
Proof.
  exists W0, K_it, H_it. eexists _, _. split; [vm_compute; reflexivity|]. split; [reflexivity|].
  split; [eexists; split; [reflexivity|constructor; reflexivity]|]. split; [vm_compute; reflexivity|].
  exists 3, 1. eexists. vm_compute. repeat split.
Qed.
Print Assumptions C50_second_reference_refuted.
