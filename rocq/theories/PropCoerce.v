(** C57: keys that are made strings, and references. *)
From Verif Require Import PyStr Tags Json JsonText JsonTextProofs Base Heap Registry LoadClass Pickler Unpickler SpecJson SpecDepth SpecGraph SpecPlain SpecRefs SpecFail SpecHoles SpecLack SpecRun SpecKeys.
From Verif Require Import RTBase Samples PropLimits HolesProofs CleanProofs LackProofs PropLack.
From Coq Require Import List Lia. Import ListNotations.
Open Scope nat_scope.

(** hc is the graph with the keys of h made strings, different ones in each dict, and without the
    entries that are not written (anonymous functions, keys that are tags): the text for h decodes to a copy of
    hc, with the sharing of h. *)
Theorem C57_references :
  forall w w' k po uo classes h hc ok v,
  po_unpicklable po = true -> po_make_refs po = true -> po_max_depth po = None -> po_props po = false ->
  po_readonly po = false -> po_sort po = false -> po_keys po = false ->
  uo_keys uo = false -> uo_v1 uo = false -> uo_missing uo <> MError -> (forall f n, uo_missing uo = MCall f -> f n = None) ->
  keys_as w k (po_numeric po) h hc -> lacking w w' (class_table w' classes) hc ok -> ok v ->
  exists text n0 m0,
    (forall n s, n0 <= n -> p_heap s = h -> exists s', encode w k po n v s = (Ret text, s')) /\
    forall m t, m0 <= m -> exists x t', decode w' uo m classes text t = (Ret x, t') /\
      copy_lacking w w' (class_table w' classes) hc (u_heap t') (length (u_heap t)) v x.
Proof.
  intros w w' k po uo classes h hc ok v O1 O2 O3 O4 O5 O6 Ok U1 U2 U3 U4 Ka L V. set (cl := class_table w' classes) in *.
  destruct (clean_written w k (po_fail_safe po) hc ok (lacking_clean w w' k (po_fail_safe po) cl hc ok L) v V) as (j & tab & W).
  destruct (C49_references w w' k po uo classes hc ok v O1 O2 O3 O4 O5 O6 Ok U1 U2 U3 U4 L V) as (text & n0 & m0 & T1 & T2).
  destruct (encode_written w k po hc O1 O2 O3 O4 O5 O6 Ok v j tab W) as (N1 & E1).
  assert (text = dumps j) as ->.
  { destruct (T1 (Nat.max N1 n0) (new_pickler hc) ltac:(lia) eq_refl) as (s1 & X1). destruct (E1 (Nat.max N1 n0) (new_pickler hc) ltac:(lia) eq_refl) as (s2 & X2 & _). congruence. }
  destruct (encode_written_as w k po h O1 O2 O3 O4 O5 O6 Ok hc Ka v j tab W) as (N2 & E2).
  exists (dumps j), N2, m0. split; [|exact T2]. intros n s Ln Es. destruct (E2 n s Ln Es) as (s' & H & _). eauto.
Qed.
Print Assumptions C57_references.

(** x = [{1: y, 7: lambda: 0, None: z, "py/id": [x], (2, 3): y}, z, y] *)
Definition K_repr : hooks :=
  {| k_reduce := k_reduce K0; k_getstate := k_getstate K0; k_newargs := k_newargs K0; k_newargs_ex := k_newargs_ex K0; k_initargs := k_initargs K0;
     k_iter := k_iter K0; k_attr := k_attr K0; k_dir := k_dir K0; k_props := k_props K0; k_eqdict := k_eqdict K0; k_members := k_members K0;
     k_repr := fun _ => Ret (u "(2, 3)"); k_str := k_str K0; k_call0 := k_call0 K0 |}.
Definition H_keys : heap :=
  [ OList [VLoc 1; VLoc 3; VLoc 2]; ODict [(VInt 1, VLoc 2); (VInt 7, VFun 1); (VNone, VLoc 3); (VStr (u "py/id"), VLoc 4); (VTuple [VInt 2; VInt 3], VLoc 2)]; OList []; OList [VLoc 0]; OList [VLoc 0] ].
Definition H_strs : heap :=
  [ OList [VLoc 1; VLoc 3; VLoc 2]; ODict [(VStr (u "1"), VLoc 2); (VStr (u "null"), VLoc 3); (VStr (u "(2, 3)"), VLoc 2)]; OList []; OList [VLoc 0]; OList [VLoc 0] ].
Definition ok_keys (v : val) : Prop := In v [VLoc 0; VLoc 1; VLoc 2; VLoc 3].
Example C57_case :
  keys_as W0 K_repr false H_keys H_strs /\ lacking W0 W0 (class_table W0 None) H_strs ok_keys /\ ok_keys (VLoc 0) /\
  show (enc W0 K_repr PO 20 H_keys (VLoc 0)) =
    Ret "[{""1"": [], ""null"": [{""py/id"": 0}], ""(2, 3)"": {""py/id"": 2}}, {""py/id"": 3}, {""py/id"": 2}]"%string.
Proof.
  split; [|split; [|split; [left; reflexivity|vm_compute; reflexivity]]].
  - unfold keys_as, H_keys, H_strs. constructor; [left; reflexivity|]. constructor; [right|constructor; [left; reflexivity|constructor; [left; reflexivity|constructor; [left; reflexivity|constructor]]]].
    do 2 eexists. split; [reflexivity|]. split; [reflexivity|].
    apply ea_cons; [|apply ea_skip; [reflexivity|]; apply ea_cons; [|apply ea_skip; [reflexivity|]; apply ea_cons; [|constructor]]]; (split; [reflexivity|right; eexists; split; [reflexivity|]]).
    + exact (co_int false K_repr 1).
    + constructor.
    + apply co_repr; [exact Logic.I|reflexivity].
  - intros v V. unfold ok_keys in V. cbn [In] in V. repeat (destruct V as [<-|V]; [try exact Logic.I|]); [| | | |destruct V].
    + eexists. split; [reflexivity|]. apply Forall_forall. intros x V. unfold ok_keys. cbn [In] in *. tauto.
    + eexists. split; [reflexivity|]. split; [repeat constructor; cbn [map fst In]; intuition discriminate|]. intros kv [<-|[<-|[<-|[]]]]; cbn [fst snd];
        (split; [unfold ok_keys; cbn [In]; tauto|]; split; [eexists; split; [reflexivity|vm_compute; reflexivity]|intros l i E G; injection E as <-; discriminate G]).
    + eexists. split; [reflexivity|]. apply Forall_nil.
    + eexists. split; [reflexivity|]. apply Forall_forall. intros x V. unfold ok_keys. cbn [In] in *. tauto.
Qed.

(** False if two keys become the same string: the value of the first one has taken a number, but is not
    in the text.  x = [{1: [5], "1": [6]}, z, [8], z] where z = [7]: instead of z the last item is [8]. *)
Definition H_coll : heap :=
  [ OList [VLoc 1; VLoc 4; VLoc 5; VLoc 4]; ODict [(VInt 1, VLoc 2); (VStr (u "1"), VLoc 3)]; OList [VInt 5]; OList [VInt 6]; OList [VInt 7]; OList [VInt 8] ].
Theorem C57_collision_refuted :
  exists h text a b c, enc W0 K0 PO 20 h (VLoc 0) = Ret text /\
    hget h 0 = Some (OList [VLoc 1; VLoc 4; VLoc 5; VLoc 4]) /\ hget h 1 = Some (ODict [(VInt 1, VLoc 2); (VStr (u "1"), VLoc 3)]) /\
    fst (dec W0 UO 200 text) = Ret (VLoc 0) /\ hget (u_heap (snd (dec W0 UO 200 text))) 0 = Some (OList [a; b; c; c]) /\ b <> c.
Proof.
  destruct (enc W0 K0 PO 20 H_coll (VLoc 0)) as [text| |] eqn:E; [|vm_compute in E; discriminate E|vm_compute in E; discriminate E].
  exists H_coll, text. do 3 eexists. split; [exact E|]. split; [reflexivity|]. split; [reflexivity|]. vm_compute in E. injection E as <-.
  split; [vm_compute; reflexivity|]. split; [vm_compute; reflexivity|]. discriminate.
Qed.
Print Assumptions C57_collision_refuted.
