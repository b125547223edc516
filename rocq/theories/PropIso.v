(** C10: the text does not depend on the addresses of the objects, and encoding a decoded
    graph gives the text again. *)
From Verif Require Import PyStr Tags Json JsonText JsonTextProofs Base Heap Registry LoadClass Pickler Unpickler SpecGraph SpecIso PGen PTerm PRel RTBase RTMain RTProps IsoProofs Samples PropEncode PropRoundtrip PropKeys.
Open Scope nat_scope.

(** C10.  Isomorphic graphs (R: which object corresponds to which) give the same text, or the
    same exception, with any options except handle_readonly and sorted keys.  User code has to answer alike, and with keys=False, max_depth or
    make_refs=False also [repr]. *)
Theorem C10_isomorphic :
  forall w o k k' h h' R r' n v v', one_to_one R -> heap_iso h h' R -> viso R v v' ->
  po_sort o = false -> po_readonly o = false ->
  same_hooks w k k' h R (viso R) (viso R) ->
  (po_keys o = false -> forall q q', viso R q q' -> is_key h q -> key_string k o q = key_string k' o q') ->
  (po_max_depth o = None /\ po_make_refs o = true \/ forall x x', viso (corr h h' R) x x' -> py_repr k x = py_repr k' x') ->
  fst (encode w k o n v (new_pickler h)) = fst (encode w k' (set_root r' o) n v' (new_pickler h')).
Proof. intros w o k k' h h' R r' n v v' ONE ISO VI Os Or HO KE RP. eapply iso_encode; eauto. Qed.
Print Assumptions C10_isomorphic.

(** The second half: encode(decode(encode(x))) == encode(x).  [k'] is what user code answers for
    the decoded objects. *)
Theorem C10_reencode :
  forall w k po uo classes h dm N v, rt_case w k po uo classes h dm N v ->
  settled w k (po_keys po) (class_table w classes) h v ->
  roundtrips w k po uo classes h v (fun h' b v' => forall k' r',
    (forall R, copied_by w k (po_keys po) h v h' b v' R ->
       let R0 := within_v w k (po_keys po) (class_table w classes) h v R in
       same_hooks w k k' h R0 (like h h' R0 false) (truth_like w h h' R0 false)) ->
    forall n, fst (encode w k' (set_root r' po) n v' (new_pickler h')) = fst (encode w k po n v (new_pickler h))).
Proof.
  intros w k po uo classes h dm N v HC SE. eapply roundtrips_use; [exact HC|]. intros h' b v' CP k' r' HO n.
  destruct CP as (R & RF & RJ & OM & VM). assert (CB : copied_by w k (po_keys po) h v h' b v' R) by (split; [split; auto|auto]).
  destruct HC as ((O1 & O2 & O3 & O4 & O5 & O6 & _) & SU & _).
  symmetry. eapply encode_copy; eauto.
Qed.
Print Assumptions C10_reencode.

(** Without user code nothing has to be assumed about answers. *)
Record no_hooks (k : hooks) : Prop := {
  nh_attr : forall l a, k_attr k l a = Exc EAttributeError;
  nh_props : forall l, k_props k l = [];
  nh_call : forall f, k_call0 k f = Ret VNone;    (* never asked: factories are classes *)
  nh_eq : forall l, k_eqdict k l = false
}.
Definition hookless (w : world) (c : nat) : Prop :=
  let ci := w_cls w c in
  c_reduce ci = false /\ c_getstate ci = false /\ c_newargs ci = false /\ c_newargs_ex ci = false /\ c_initargs ci = false /\
  c_slots ci = None /\ reg_lookup (w_sub w) (w_reg w) c (importable_name ci) = None /\
  (c_kind ci = KPlain \/ c_kind ci = KDict \/ c_kind ci = KList \/ c_kind ci = KSet) /\
  forall a, kept ci a = true -> kept ci (mangle ci a) = true.
Theorem C10_reencode_hookless :
  forall w k po uo classes h dm N v, rt_case w k po uo classes h dm N v -> no_hooks k ->
  (forall l i, reach w k (po_keys po) (class_table w classes) h v (VLoc l) -> hget h l = Some (OInst i) -> hookless w (i_cls i)) ->
  (forall l d, reach w k (po_keys po) (class_table w classes) h v (VLoc l) -> hget h l = Some (ODict d) -> escaped_last (po_keys po) d) ->
  roundtrips w k po uo classes h v (fun h' b v' => forall k' r', no_hooks k' -> (forall m, k_str k' (VMod m) = k_str k (VMod m)) ->
    forall n, fst (encode w k' (set_root r' po) n v' (new_pickler h')) = fst (encode w k po n v (new_pickler h))).
Proof.
  intros w k po uo classes h dm N v HC NH HL EL.
  assert (SE : settled w k (po_keys po) (class_table w classes) h v).
  { constructor; auto; intros l i; intros.
    - destruct (HL l i H H0) as (_ & _ & _ & _ & _ & _ & _ & KI & _).
      split; [|intros E; exfalso]; destruct KI as [KI|[KI|[KI|KI]]]; congruence.
    - destruct (HL l i H H0) as (_ & _ & _ & _ & _ & _ & _ & _ & MA). auto. }
  destruct (C10_reencode w k po uo classes h dm N v HC SE) as (text & n0 & m0 & E & D). exists text, n0, m0. split; auto.
  intros m t L. destruct (D m t L) as (v' & t' & D1 & D2 & D3). exists v', t'. split; auto. split; auto.
  intros k' r' NH' MS. apply D2. intros R CB R0.
  assert (AS : forall (P : cinfo -> bool) l l', asked w h R0 P l l' -> exists c, hookless w c /\ P (w_cls w c) = true).
  { intros P l l' ([_ RE] & i & G & X). exists (i_cls i). split; auto. eapply HL; eauto. }
  constructor;
    try (intros l l' X; destruct (AS _ l l' X) as (c & (Y1 & Y2 & Y3 & Y4 & Y5 & Y6 & _) & Y); congruence).
  - intros l l' n X. destruct (AS _ l l' X) as (c & (_ & _ & _ & _ & _ & _ & _ & KI & _) & Y). unfold is_iterator in Y.
    destruct KI as [KI|[KI|[KI|KI]]]; rewrite KI in Y; discriminate.
  - intros l l' _. rewrite (nh_eq k NH), (nh_eq k' NH'). reflexivity.
  - intros l l' X. destruct (AS _ l l' X) as (c & (_ & _ & _ & _ & _ & Y6 & _) & Y). unfold has_slots in Y. rewrite Y6 in Y. discriminate.
  - intros l l' a _. rewrite (nh_attr k NH), (nh_attr k' NH'). reflexivity.
  - intros l l' _. rewrite (nh_props k NH), (nh_props k' NH'). reflexivity.
  - intros f f' _. rewrite (nh_call k NH), (nh_call k' NH'). apply lk_flat. reflexivity.
  - intros m1. symmetry. apply MS.
  - intros hd ctx l l' data i [_ RE] G RL. destruct (HL l i RE G) as (_ & _ & _ & _ & _ & _ & NR & _). congruence.
  - intros l l' s m1 a x X. destruct (AS _ l l' X) as (c & (Y1 & _) & Y). congruence.
Qed.
Print Assumptions C10_reencode_hookless.

(** ** Cases *)
Definition pairs (ps : list (loc * loc)) (l l' : loc) : Prop := In (l, l') ps.
Definition R_swap := pairs [(0, 3); (1, 5); (2, 1); (3, 4); (4, 0)].
(** H_knot at other addresses. *)
Definition H_knot2 : heap :=
  [ ODict [(VStr (u "k"), VLoc 0); (VTuple [VLoc 3], VLoc 1)];
    OList [VLoc 3; VTuple [VInt 1; VLoc 1]; VLoc 1; VLoc 0];
    OList [];
    plain_inst cNode 5;
    OSet [VLoc 3; VTuple [VLoc 3; VInt 1]];
    ODict [(VStr (u "next"), VTuple [VTuple [VLoc 3; VLoc 1]]); (VStr (u "set"), VLoc 4)] ].
Ltac pcases H := unfold R_swap, pairs in H; cbn [In] in H; repeat (destruct H as [H|H]; [injection H as <- <-|]); [..|destruct H].
Ltac viso_tac := first [ apply vi_loc; unfold R_swap, pairs; cbn [In]; tauto | apply vi_flat; reflexivity
                       | apply vi_tuple; repeat (first [apply Forall2_nil | apply Forall2_cons; [viso_tac|]]) ].
Ltac visos_tac := repeat (first [apply Forall2_nil | apply Forall2_cons; [first [viso_tac|split; viso_tac]|]]).
Lemma swap_one : one_to_one R_swap.
Proof. split; intros a b c X Y; pcases X; unfold R_swap, pairs in Y; cbn [In] in Y; repeat (destruct Y as [Y|Y]; [congruence|]); destruct Y. Qed.
Lemma swap_iso : heap_iso H_knot H_knot2 R_swap.
Proof.
  intros l l' X; pcases X; (split; [|discriminate]).
  - apply oi_inst. constructor; try reflexivity; try (apply Forall2_nil); try exact I. split; [unfold R_swap, pairs; cbn [In]; tauto|eexists; reflexivity].
  - apply oi_dict. visos_tac.
  - apply oi_list. visos_tac.
  - apply oi_set. visos_tac.
  - apply oi_dict. visos_tac.
Qed.
Lemma hooks_K0 k k' h (R : loc -> loc -> Prop) (V S : val -> val -> Prop) : no_hooks k -> no_hooks k' -> (forall m, k_str k (VMod m) = k_str k' (VMod m)) -> V VNone VNone -> (forall l l', R l l' -> forall i, hget h l = Some (OInst i) -> c_reduce (w_cls W0 (i_cls i)) = false /\
    c_getstate (w_cls W0 (i_cls i)) = false /\ c_newargs (w_cls W0 (i_cls i)) = false /\ c_newargs_ex (w_cls W0 (i_cls i)) = false /\ c_initargs (w_cls W0 (i_cls i)) = false /\
  c_kind (w_cls W0 (i_cls i)) <> KIter /\ c_slots (w_cls W0 (i_cls i)) = None) ->
  same_hooks W0 k k' h R V S.
Proof.
  intros NH NH' KS VN H. constructor; auto;
    try (intros l l' (A & i & G & X); destruct (H l l' A i G) as (? & ? & ? & ? & ? & ? & ?); congruence).
  - intros l l' n (A & i & G & X). destruct (H l l' A i G) as (? & ? & ? & ? & ? & KI & ?). unfold is_iterator in X. destruct (c_kind (w_cls W0 (i_cls i))); congruence.
  - intros l l' _. rewrite (nh_eq k NH), (nh_eq k' NH'). reflexivity.
  - intros l l' (A & i & G & X). destruct (H l l' A i G) as (? & ? & ? & ? & ? & ? & SL). unfold has_slots in X. rewrite SL in X. discriminate.
  - intros l l' a _. rewrite (nh_attr k NH), (nh_attr k' NH'). reflexivity.
  - intros l l' _. rewrite (nh_props k NH), (nh_props k' NH'). reflexivity.
  - intros f f' _. rewrite (nh_call k NH), (nh_call k' NH'). exact VN.
  - intros hd ctx l l' data i _ _ X. discriminate X.
  - intros l l' s m a x (A & i & G & X). destruct (H l l' A i G) as (? & ? & ? & ? & ? & ? & ?); congruence.
Qed.
Lemma no_hooks_K0 : no_hooks K0.
Proof. constructor; reflexivity. Qed.
Example C10_isomorphic_case :
  one_to_one R_swap /\ heap_iso H_knot H_knot2 R_swap /\ viso R_swap (VLoc 0) (VLoc 3) /\
  same_hooks W0 K0 K0 H_knot R_swap (viso R_swap) (viso R_swap) /\
  (forall q q', viso R_swap q q' -> is_key H_knot q -> key_string K0 PO q = key_string K0 PO q') /\
  enc W0 K0 PO 20 H_knot2 (VLoc 3) = enc W0 K0 PO 20 H_knot (VLoc 0).
Proof.
  split; [exact swap_one|]. split; [exact swap_iso|]. split; [viso_tac|]. split.
  - apply hooks_K0; auto using no_hooks_K0; [apply vi_flat; reflexivity|]. intros l l' X i G. pcases X; cbn in G; try discriminate G. injection G as <-. vm_compute. repeat split; discriminate.
  - split; [|vm_compute; reflexivity]. intros q q' V _. destruct V as [v F|xs ys F|l l' C]; reflexivity.
Qed.

(** A dict with instances as keys and values, its decoded copy and the text of both. *)
Example C10_reencode_case :
  rt_case W0 K0 PO_keys UO_keys None H_ikeys 2 0 (VLoc 0) /\ no_hooks K0 /\
  (forall l i, reach W0 K0 true (class_table W0 None) H_ikeys (VLoc 0) (VLoc l) -> hget H_ikeys l = Some (OInst i) -> hookless W0 (i_cls i)) /\
  (forall l d, reach W0 K0 true (class_table W0 None) H_ikeys (VLoc 0) (VLoc l) -> hget H_ikeys l = Some (ODict d) -> escaped_last true d) /\
  exists t v s, enc W0 K0 PO_keys 20 H_ikeys (VLoc 0) = Ret t /\ dec W0 UO_keys 40 t = (Ret v, s) /\
    enc W0 K0 PO_keys 20 (u_heap s) v = Ret t /\ u_heap s <> H_ikeys.
Proof.
  split; [apply C16_instance_case|]. split; [exact no_hooks_K0|]. split; [|split].
  - intros l i _ G. assert (i_cls i = cNode).
    { do 6 (destruct l as [|l]; [cbn in G; try discriminate G; injection G as <-; reflexivity|]). cbn in G. destruct l; discriminate G. }
    rewrite H. repeat split; auto.
  - intros l d _ G.
    do 6 (destruct l as [|l]; [cbn in G; try discriminate G; injection G as <-; cbn [escaped_last is_escaped]; repeat split; auto; intros X; vm_compute in X; discriminate X|]). cbn in G. destruct l; discriminate G.
  - do 3 eexists. split; [vm_compute; reflexivity|]. split; [vm_compute; reflexivity|]. split; [vm_compute; reflexivity|]. vm_compute. discriminate.
Qed.

(** ** Where the address shows *)
(** The default repr shows the address. *)
Definition K_addr : hooks :=
  {| k_reduce := k_reduce K0; k_getstate := k_getstate K0; k_newargs := k_newargs K0; k_newargs_ex := k_newargs_ex K0; k_initargs := k_initargs K0;
     k_iter := k_iter K0; k_attr := k_attr K0; k_dir := k_dir K0; k_props := k_props K0; k_eqdict := k_eqdict K0; k_members := k_members K0;
     k_repr := fun v => match v with VLoc l => Ret (u "<m.Node object at " ++ string_of_Z (Z.of_nat l) ++ u ">") | _ => Ret (u "?") end;
     k_str := k_str K0; k_call0 := k_call0 K0 |}.
Definition R_addr := pairs [(0, 0); (1, 2); (2, 1)].
Definition H_addr (key : bool) : heap := [ (if key then ODict [(VLoc 1, VInt 1)] else OList [VLoc 1]); plain_inst cNode 2; ODict [] ].
Definition H_addr2 (key : bool) : heap := [ (if key then ODict [(VLoc 2, VInt 1)] else OList [VLoc 2]); ODict []; plain_inst cNode 1 ].
Ltac acases H := unfold R_addr, pairs in H; cbn [In] in H; repeat (destruct H as [H|H]; [injection H as <- <-|]); [..|destruct H].
Lemma addr_iso key : one_to_one R_addr /\ heap_iso (H_addr key) (H_addr2 key) R_addr /\ viso R_addr (VLoc 0) (VLoc 0) /\
  same_hooks W0 K_addr K_addr (H_addr key) R_addr (viso R_addr) (viso R_addr).
Proof.
  split; [|split; [|split]].
  - split; intros a b c X Y; acases X; unfold R_addr, pairs in Y; cbn [In] in Y; repeat (destruct Y as [Y|Y]; [congruence|]); destruct Y.
  - assert (V : viso R_addr (VLoc 1) (VLoc 2)) by (apply vi_loc; unfold R_addr, pairs; cbn [In]; tauto).
    intros l l' X; acases X; (split; [|destruct key; discriminate]); destruct key.
    + apply oi_dict. constructor; [split; [exact V|apply vi_flat; reflexivity]|constructor].
    + apply oi_list. constructor; [exact V|constructor].
    + apply oi_inst. constructor; try reflexivity; try (apply Forall2_nil); try exact I. split; [unfold R_addr, pairs; cbn [In]; tauto|eexists; reflexivity].
    + apply oi_inst. constructor; try reflexivity; try (apply Forall2_nil); try exact I. split; [unfold R_addr, pairs; cbn [In]; tauto|eexists; reflexivity].
    + apply oi_dict. constructor.
    + apply oi_dict. constructor.
  - apply vi_loc. unfold R_addr, pairs. cbn [In]. tauto.
  - apply hooks_K0; auto; try (constructor; reflexivity). intros l l' X i G. acases X; destruct key; cbn in G; try discriminate G; injection G as <-; vm_compute; repeat split; discriminate.
Qed.
(** C10 is false with keys=False for a dict whose key is an instance without [__repr__] of its
    own: the key in the text is the repr. *)
Theorem C10_key_refuted :
  exists w k h h' R v v' t t', one_to_one R /\ heap_iso h h' R /\ viso R v v' /\ same_hooks w k k h R (viso R) (viso R) /\
    enc w k PO 10 h v = Ret t /\ enc w k PO 10 h' v' = Ret t' /\ t <> t'.
Proof.
  exists W0, K_addr, (H_addr true), (H_addr2 true), R_addr, (VLoc 0), (VLoc 0). do 2 eexists.
  destruct (addr_iso true) as (A & B & C & D). split; auto. split; auto. split; auto. split; auto.
  split; [vm_compute; reflexivity|]. split; [vm_compute; reflexivity|]. discriminate.
Qed.
Print Assumptions C10_key_refuted.
(** Nor with max_depth: what is cut off is written as its repr. *)
Definition PO_depth0 : popts :=
  {| po_unpicklable := true; po_make_refs := true; po_keys := false; po_max_depth := Some 1%Z;
     po_warn := false; po_max_iter := None; po_b85 := false; po_fail_safe := None; po_props := false;
     po_readonly := false; po_root := VNone; po_sort := false; po_ctx := None; po_numeric := false |}.
Theorem C10_max_depth_refuted :
  exists w k h h' R v v' t t', one_to_one R /\ heap_iso h h' R /\ viso R v v' /\ same_hooks w k k h R (viso R) (viso R) /\
    enc w k PO_depth0 10 h v = Ret t /\ enc w k PO_depth0 10 h' v' = Ret t' /\ t <> t'.
Proof.
  exists W0, K_addr, (H_addr false), (H_addr2 false), R_addr, (VLoc 0), (VLoc 0). do 2 eexists.
  destruct (addr_iso false) as (A & B & C & D). split; auto. split; auto. split; auto. split; auto.
  split; [vm_compute; reflexivity|]. split; [vm_compute; reflexivity|]. discriminate.
Qed.
Print Assumptions C10_max_depth_refuted.
(** Equal sets that iterate in different orders (the order depends on the hashes, which for
    instances are their addresses and for strings change from run to run). *)
Theorem C10_set_order_refuted :
  exists w k xs ys t t', (forall x, In x xs <-> In x ys) /\ length xs = length ys /\
    enc w k PO 10 [OSet xs] (VLoc 0) = Ret t /\ enc w k PO 10 [OSet ys] (VLoc 0) = Ret t' /\ t <> t'.
Proof.
  exists W0, K0, [VStr (u "a"); VStr (u "b")], [VStr (u "b"); VStr (u "a")]. do 2 eexists.
  split; [intros x; simpl; tauto|]. split; [reflexivity|]. split; [vm_compute; reflexivity|]. split; [vm_compute; reflexivity|]. discriminate.
Qed.
Print Assumptions C10_set_order_refuted.
(** encode(decode(encode(x))) differs from encode(x), with keys=True: a string key that has to be
    escaped moves behind the others. *)
Definition H_esc : heap := [ ODict [(VStr (u "json://x"), VInt 1); (VStr (u "a"), VInt 2)] ].
Lemma supported_esc : supported W0 K0 true [] H_esc (VLoc 0).
Proof.
  apply (closed_supported W0 K0 true [] H_esc [VLoc 0; VStr (u "json://x"); VStr (u "a"); VInt 1; VInt 2]).
  - intros x I. cbn [In] in I. repeat (destruct I as [<-|I]; [try exact Logic.I|]); [|destruct I].
    eexists. split; [eapply sh_dict; [reflexivity|dok|ook]|incl_tac].
  - left. reflexivity.
  - intros x I. cbn [In] in I. repeat (destruct I as [<-|I]; [try exact Logic.I; try (vm_compute; auto; fail)|]); [|destruct I].
    split; [eexists; eapply sh_dict; [reflexivity|dok|ook]|].
    intros x E. exfalso. inversion E as [l0 i cs args kw x0 G|l0 i st G|l0 i hd pre vs x0 G|l0 i f args mkrec st li xs di d x0 G]; discriminate G.
Qed.
Theorem C10_escaped_key_refuted :
  exists w k h v t v' s t', rt_case w k PO_keys UO_keys None h 1 0 v /\ enc w k PO_keys 10 h v = Ret t /\
    dec w UO_keys 20 t = (Ret v', s) /\ enc w k PO_keys 10 (u_heap s) v' = Ret t' /\ t <> t'.
Proof.
  exists W0, K0, H_esc, (VLoc 0). do 4 eexists. split.
  - split; [repeat split|]. split; [exact supported_esc|]. split; [apply finite_sample; [reflexivity|lia|vm_compute; reflexivity]|]. split; vm_compute; auto.
  - split; [vm_compute; reflexivity|]. split; [vm_compute; reflexivity|]. split; [vm_compute; reflexivity|]. discriminate.
Qed.
Print Assumptions C10_escaped_key_refuted.
