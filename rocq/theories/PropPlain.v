(** C53: plain data is written as the JSON document it is. *)
From Verif Require Import PyStr Tags Json JsonText JsonTextProofs Base Heap Registry Pickler Unpickler SpecJson SpecPlain SpecDepth PlainEncode Samples PropRestore.
From Coq Require Import List. Import ListNotations.
Open Scope nat_scope.

(** A tree of lists, dicts with string keys and atoms: whatever the options (unpicklable, make_refs,
    keys, warn, fail_safe, include_properties, ...), what was encoded before and whatever is
    registered, the text is that of json.dumps, and nothing is changed. *)
Theorem C53_plain_data :
  forall w k o h j v ls, tree h j v ls -> NoDup ls -> plain_keys (po_keys o) j = true ->
  po_readonly o = false -> (forall m, po_max_depth o = Some m -> (Z.of_nat (jdepth j) <= m)%Z) ->
  exists N, forall n s, N <= n -> p_heap s = h -> exists s', encode w k o n v s = (Ret (dumps j), s') /\ p_heap s' = h.
Proof. intros w k o h j v ls T ND K Or MD. exact (plain_top w k o h Or j v ls T ND K MD). Qed.
Print Assumptions C53_plain_data.

(** encode(decode(text)) == json.dumps(json.loads(text)) for documents without tags. *)
Theorem C53_transparent :
  forall w k po uo cl text j s n, loads text = Some j -> tag_free j = true -> (uo_keys uo = true -> no_json_keys j = true) ->
  plain_keys (po_keys po) j = true -> po_readonly po = false -> po_max_depth po = None -> length text <= n ->
  exists v s', decode w uo n cl text s = (Ret v, s') /\
    exists N, forall m, N <= m -> fst (encode w k po m v (new_pickler (u_heap s'))) = Ret (dumps j).
Proof.
  intros w k po uo cl text j s n L TF NK K Or MD F.
  destruct (C07_plain_json w uo n cl text j s L TF NK F) as (v & ls & s' & D & T & ND & _).
  exists v, s'. split; auto. destruct (C53_plain_data w k po _ j v ls T ND K Or) as (N & H); [rewrite MD; discriminate|].
  exists N. intros m Lm. destruct (H m (new_pickler (u_heap s')) Lm eq_refl) as (s2 & E & _). rewrite E. reflexivity.
Qed.
Print Assumptions C53_transparent.

Definition H_plain : heap :=
  [ ODict [(VStr (u "a"), VLoc 1); (VStr (u "b"), VLoc 2); (VStr (u "json://1"), VNone)]; OList [VInt 1; VLoc 3; VStr (u "x")]; OList []; ODict [] ].
Definition J_plain : json := JObj [(u "a", JList [JInt 1; JObj []; JStr (u "x")]); (u "b", JList []); (u "json://1", JNull)].
Example C53_case : exists ls, tree H_plain J_plain (VLoc 0) ls /\ NoDup ls /\ plain_keys false J_plain = true /\
  plain_keys true J_plain = false /\ jdepth J_plain = 3.
Proof.
  exists [0; 1; 3; 2]. split.
  - eapply (tr_obj _ 0 _ _ [1; 3; 2]); [reflexivity|]. eapply (fs_cons _ _ _ _ [1; 3] _ _ [2]).
    + eapply (tr_list _ 1 _ _ [3]); [reflexivity|]. eapply (trs_cons _ _ _ []); [constructor|].
      eapply (trs_cons _ _ _ [3] _ _ []); [eapply (tr_obj _ 3 _ _ []); [reflexivity|constructor]|]. eapply (trs_cons _ _ _ []); constructor.
    + eapply (fs_cons _ _ _ _ [2] _ _ []); [eapply (tr_list _ 2 _ _ []); [reflexivity|constructor]|].
      eapply (fs_cons _ _ _ _ []); constructor.
  - split; [repeat constructor; simpl; intuition discriminate|]. vm_compute. auto.
Qed.

(** False with handle_readonly: a key that is also the name of an attribute of the object given
    to encode, and cannot be assigned there, is dropped. *)
Definition K_ro : hooks :=
  {| k_reduce := k_reduce K0; k_getstate := k_getstate K0; k_newargs := k_newargs K0; k_newargs_ex := k_newargs_ex K0;
     k_initargs := k_initargs K0; k_iter := k_iter K0; k_attr := k_attr K0; k_dir := k_dir K0;
     k_props := k_props K0; k_eqdict := k_eqdict K0; k_members := fun _ => [u "items"; u "keys"]; k_repr := k_repr K0; k_str := k_str K0;
     k_call0 := k_call0 K0 |}.
Definition PO_ro : popts :=
  {| po_unpicklable := true; po_make_refs := true; po_keys := false; po_max_depth := None;
     po_warn := false; po_max_iter := None; po_b85 := false; po_fail_safe := None; po_props := false;
     po_readonly := true; po_root := VLoc 0; po_sort := false; po_ctx := None; po_numeric := false |}.
Definition H_ro : heap := [ ODict [(VStr (u "items"), VInt 1); (VStr (u "b"), VInt 2)] ].
Theorem C53_readonly_refuted :
  exists w k o h v j ls, tree h j v ls /\ NoDup ls /\ plain_keys false j = true /\ po_readonly o = true /\ po_root o = v /\
    enc w k o 9 h v = Ret (dumps (JObj [(u "b", JInt 2)])) /\ j = JObj [(u "items", JInt 1); (u "b", JInt 2)].
Proof.
  exists W0, K_ro, PO_ro, H_ro, (VLoc 0), (JObj [(u "items", JInt 1); (u "b", JInt 2)]), [0]. split.
  { eapply (tr_obj _ 0 _ _ []); [reflexivity|]. eapply (fs_cons _ _ _ _ []); [constructor|]. eapply (fs_cons _ _ _ _ []); constructor. }
  split; [repeat constructor; simpl; intuition discriminate|]. vm_compute. auto 10.
Qed.
Print Assumptions C53_readonly_refuted.
