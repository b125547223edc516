(** Properties of the documents made by the encoder: a predicate closed under the ways
    documents are put together holds for every document encode makes. *)
From Verif Require Import PyStr Tags Json JsonText B64 B85 Base Heap Registry Pickler PGen.
Open Scope nat_scope.
Local Open Scope monad_scope.

(** Handler scripts that build documents with P from documents with P. *)
Fixpoint script_doc (Vq : val -> Prop) (P : json -> Prop) (sc : fscript) : Prop :=
  match sc with
  | FDone (Some j) => P j
  | FDone None | FRaise _ => True
  | FFlatten reset v kk => reset = false /\ Vq v /\ forall j, P j -> script_doc Vq P (kk j)
  end.
(** Values met by the encoder: V in a heap, Vq answers of user code, Vc classes of instances. *)
Record val_closed (w : world) (k : hooks) (o : popts) (h0 : heap) (V : heap -> val -> Prop) (Vq : val -> Prop) (Vc : nat -> Prop) : Prop := {
  vc_heap : forall h l ob x, hev (w_cls w) h0 h -> V h (VLoc l) -> hget h l = Some ob -> In x (obj_vals ob) -> V h x;
  vc_fresh : forall h l its0 its, hev (w_cls w) h0 h -> V h (VLoc l) -> hget h l = Some (ODict its0) -> incl its its0 ->
    V (h ++ [ODict its]) (VLoc (length h));
  vc_mono : forall h h' v, hev (w_cls w) h0 h -> hev (w_cls w) h h' -> V h v -> V h' v;
  vc_tuple : forall h xs x, V h (VTuple xs) -> In x xs -> V h x;
  vc_cls : forall h l i, hev (w_cls w) h0 h -> V h (VLoc l) -> hget h l = Some (OInst i) -> Vc (i_cls i);
  vc_str : forall h s, V h (VStr s);
  vc_none : forall h, V h VNone;
  vc_Vq : forall h v, hev (w_cls w) h0 h -> Vq v -> V h v;
  vc_newargs_ex : forall l x, k_newargs_ex k l = Ret x -> Forall Vq x;
  vc_newargs : forall l x, k_newargs k l = Ret x -> Vq x;
  vc_initargs : forall l x, k_initargs k l = Ret x -> Vq x;
  vc_getstate : forall l x, k_getstate k l = Ret x -> Vq x;
  vc_reduce : forall l x, k_reduce k l = Ret (RTup x) -> Forall Vq x;
  vc_iter : forall l p x, k_iter k l p = Ret (Some x) -> Vq x;
  vc_attr : forall l a x, k_attr k l a = Ret x -> Vq x;
  vc_call0 : forall f x, k_call0 k f = Ret x -> Vq x;
  vc_getattr : po_unpicklable o = true -> forall m a x, w_getattr w m a = Ret x -> Vq x
}.
Lemma val_closed_any w k o h0 : val_closed w k o h0 (fun _ _ => True) (fun _ => True) (fun _ => True).
Proof. constructor; intros; auto; apply Forall_forall; auto. Qed.

Record doc_closed (w : world) (k : hooks) (o : popts) (h0 : heap) (V : heap -> val -> Prop) (Vq : val -> Prop) (Vc : nat -> Prop)
    (P : json -> Prop) (E : pystr -> json -> Prop) : Prop := {
  dc_prim : forall v j, prim_json v = Some j -> P j;
  dc_bytes : forall h b, V h (VBytes b) -> P (flatten_bytestring o b);
  dc_bytearray : forall h l b, hev (w_cls w) h0 h -> V h (VLoc l) -> hget h l = Some (OByteArray b) -> P (JObj [(BYTEARRAY, flatten_bytestring o b)]);
  dc_list : forall js, Forall P js -> P (JList js);
  dc_obj : forall ob, Forall (fun kv => E (fst kv) (snd kv)) ob -> P (JObj ob);
  dc_key : forall n j, is_reserved n = false -> P j -> E n j;
  dc_repr : forall v n j, po_keys o = false -> (forall s, v <> VStr s) -> key_string k o v = Ret n -> P j -> E n j;
  dc_json : forall j' j, po_keys o = true -> P j' -> P j -> E (JSON_KEY ++ dumps j') j;
  dc_prop : forall l a j, po_props o = true -> In a (k_props k l) -> P j -> E a j;
  dc_property : forall j, po_props o = true -> P j -> E PROPERTY j;
  dc_tag : forall t j, po_unpicklable o = true -> In t [OBJECT; TUPLE; SET_; STATE; SEQ; REDUCE] -> P j -> E t j;
  dc_newargsex : forall c j, Vc c -> c_newargs_ex (w_cls w c) = true -> P j -> E NEWARGSEX j;
  dc_newargs : forall c j, Vc c -> c_newargs (w_cls w c) = true -> P j -> E NEWARGS j;
  dc_initargs : forall c j, Vc c -> c_initargs (w_cls w c) = true -> P j -> E INITARGS j;
  dc_iter : forall c j, Vc c -> c_kind (w_cls w c) = KIter -> P j -> E ITERATOR j;
  dc_factory : forall c n j, Vc c -> c_kind (w_cls w c) = KDict -> fac_key n ->
    (P j \/ exists c1, j = mktyperef w c1) -> E n j;
  dc_dict : forall j, po_unpicklable o = true -> P j -> E (u "__dict__") j;
  dc_type : forall h c, V h (VType c) -> P (mktyperef w c);
  dc_fun : forall f, P (flatten_function w o f);
  dc_mod : forall m, po_unpicklable o = true -> P (JObj [(MODULE, JStr (w_mod w m ++ 47%N :: w_mod w m))]);
  dc_ref : forall n, po_unpicklable o = true -> po_make_refs o = true -> P (JObj [(ID, JInt (Z.of_nat n))]);
  dc_fail : forall f e j, po_fail_safe o = Some f -> f e = Ret j -> P j;
  dc_script : forall h ctx l n, script_doc Vq P (w_hflat w h ctx l (if po_unpicklable o then [(OBJECT, JStr n)] else []))
}.

Section doc.
  Variables (w : world) (k : hooks) (o : popts) (h0 : heap) (V : heap -> val -> Prop) (Vq : val -> Prop) (Vc : nat -> Prop)
    (P : json -> Prop) (E : pystr -> json -> Prop).
  Hypothesis Or : po_readonly o = false.
  Hypothesis Os : po_sort o = false.
  Hypothesis VC : val_closed w k o h0 V Vq Vc.
  Hypothesis DC : doc_closed w k o h0 V Vq Vc P E.
  Notation cls := (w_cls w).
  Notation Ck0 := (fun kv : val * json => P (snd kv)).
  Notation Ck Lk := (mkEvp Ck0 Lk (fun _ => True) (fun _ => True)).
  Notation tw Lk := (twp w False (fun _ => true) (Ck Lk) False).
  Notation EvR Lk := (EvR w False (Ck Lk)).

  Lemma script_doc_ok Lk sc : script_doc Vq P sc -> script_ok (Ck Lk) Vq P P sc.
  Proof. induction sc as [[j|]|e|r v kk IH]; simpl; auto. intros (-> & G & H). split; auto. Qed.
  Lemma P_str x : P (JStr x).
  Proof. apply (dc_prim _ _ _ _ _ _ _ _ _ DC (VStr x)). reflexivity. Qed.
  Ltac side := destruct VC, DC; try assumption; try (intros []; fail); try (intros; reflexivity); try exact (hooks_raise_any w k o); eauto using P_str.

  Definition T (n : nat) : Prop := forall Lk v s, locked_ok w (Ck Lk) s -> hev cls h0 (p_heap s) -> (0 <= p_depth s)%Z -> Forall Ck0 (p_cache s) -> V (p_heap s) v ->
    tw Lk (flatten w k o n v) s (fun j _ => P j).

  (** EvR keeps the cache entries good, given they were. *)
  Lemma EvR_cache Lk s s1 : EvR Lk s s1 -> Forall Ck0 (p_cache s) -> Forall Ck0 (p_cache s1).
  Proof. intros [(_ & _ & _ & C & _) _]. auto. Qed.
  Lemma rec_ok Lk n s : T n -> locked_ok w (Ck Lk) s -> hev cls h0 (p_heap s) -> (0 <= p_depth s)%Z -> Forall Ck0 (p_cache s) ->
    RecOK w False (fun _ => true) (Ck Lk) False h0 V P (flatten w k o n) s.
  Proof.
    intros IH Lo Hv D0 C0. split; auto. intros v s1 R1 Vv. pose proof (EvR_cache _ _ _ R1 C0).
    pose proof (locked_ok_ev _ _ _ _ _ R1 Lo). pose proof R1 as [(Hv1 & _ & D1 & _) _].
    apply IH; auto; [eapply hev_trans; eauto|lia].
  Qed.
  Lemma d_obj Lk n s v : T n -> locked_ok w (Ck Lk) s -> hev cls h0 (p_heap s) -> (0 <= p_depth s)%Z -> Forall Ck0 (p_cache s) -> V (p_heap s) v ->
    prim_json v = None -> tw Lk (flatten_obj w k o n (flatten w k o n) v) s (fun j _ => P j).
  Proof.
    intros IH Lo Hv D0 C0 Vv Hp. pose proof (rec_ok Lk n s IH Lo Hv D0 C0) as RO.
    assert (Eo : forall ob, Forall (fun kv => E (fst kv) (snd kv)) ob -> P (JObj ob)) by (apply (dc_obj _ _ _ _ _ _ _ _ _ DC)).
    assert (Pt : forall l a v j, po_props o = true -> In a (k_props k l) -> P j \/ prim_json v = Some j -> E a j).
    { intros l a v1 j Hpr I [H|H]; [eapply (dc_prop _ _ _ _ _ _ _ _ _ DC); eauto|].
      eapply (dc_prop _ _ _ _ _ _ _ _ _ DC); eauto. eapply (dc_prim _ _ _ _ _ _ _ _ _ DC); eauto. }
    assert (Pl : forall js, Forall P js -> P (JList js)) by apply (dc_list _ _ _ _ _ _ _ _ _ DC).
    assert (Tg : forall t j, po_unpicklable o = true -> In t [OBJECT; TUPLE; SET_; STATE; SEQ; REDUCE] -> P j -> E t j)
      by apply (dc_tag _ _ _ _ _ _ _ _ _ DC).
    assert (Pn : P JNull) by (apply (dc_prim _ _ _ _ _ _ _ _ _ DC VNone); reflexivity).
    assert (Sc : forall h ctx l n, script_ok (Ck Lk) Vq P P (w_hflat w h ctx l (if po_unpicklable o then [(OBJECT, JStr n)] else []))).
    { intros. apply script_doc_ok. apply (dc_script _ _ _ _ _ _ _ _ _ DC). }
    assert (Ob : forall j, po_unpicklable o = true -> E OBJECT (JStr j)) by (intros; apply Tg; auto using P_str; simpl; auto).
    apply (g_flatten_obj w k o False (fun _ => true) (Ck Lk) False h0) with
      (V := V) (Vq := Vq) (Vc := Vc) (D := P) (D' := P) (E1 := E) (E := E); side.
    intros Cy.
    apply (g_get_flattener w k o False (fun _ => true) (Ck Lk) False h0) with
      (V := V) (Vq := Vq) (Vc := Vc) (D := P) (D' := P) (E1 := E) (E := E); side.
    - intros. apply Tg; auto. simpl; auto.
    - intros. apply Tg; auto. simpl; auto 10.
    - intros. apply Tg; auto. simpl; auto 10.
    - intros t js Ou Ht Hj. apply Eo. constructor; auto. apply Tg; auto. { simpl. destruct Ht as [-> | ->]; auto. } apply Pl; auto.
    - intros xs x -> I. eauto.
  Qed.

  Lemma d_step n : T n -> T (S n).
  Proof.
    intros IH Lk v s Lo Hv D0 C0 Vv. cbn [flatten]. unfold flatten_step.
    assert (Im : tw Lk (flatten_impl w k o n (flatten w k o n) v) s (fun j _ => P j)).
    { assert (L : prim_json v = None -> tw Lk (push;;; j <- flatten_obj w k o n (flatten w k o n) v;; pop j) s (fun j _ => P j)).
      { intros Hp. apply tw_level with (Q := P); auto; [|intros []]. apply d_obj; auto. simpl; lia. }
      unfold flatten_impl. eapply tw_bind with (Q1 := fun x s1 => x = p_heap s /\ s1 = s); [apply tw_gets; auto|].
      intros x s1 _ [-> ->]. assert (Pp : forall j, prim_json v = Some j -> P j) by (intros j Hj; eapply (dc_prim _ _ _ _ _ _ _ _ _ DC); eauto).
      destruct v; cbn [prim_json] in *; try (apply tw_ret; auto; fail); try (apply L; auto; fail).
      - apply tw_ret. eapply (dc_bytes _ _ _ _ _ _ _ _ _ DC); eauto.
      - destruct (hget (p_heap s) l) as [[]|] eqn:G; try (apply L; auto; fail). apply tw_ret.
        eapply (dc_bytearray _ _ _ _ _ _ _ _ _ DC); eauto. }
    destruct (po_unpicklable o && po_make_refs o); auto.
    eapply tw_bind with (Q1 := fun c s1 => c = p_cache s /\ s1 = s); [apply tw_gets; auto|]. intros c s1 _ [-> ->].
    destruct (cache_get v (p_cache s)) eqn:Cg.
    { apply tw_ret. clear - C0 Cg. induction (p_cache s) as [|[a b] c IHc]; simpl in Cg; [discriminate|].
      inversion C0; subst. destruct (val_eqb v a); [inversion Cg; subst; auto|auto]. }
    eapply tw_bind; [exact Im|]. intros j s1 R1 Pj.
    eapply tw_bind with (Q1 := fun _ _ => True); [|intros; apply tw_ret; exact Pj]. apply tw_modify; auto.
    split; [|apply depth_same; auto]. split; [apply hev_refl|]. split; [exists []; rewrite app_nil_r; auto|]. split; [simpl; lia|].
    split; [|auto]. simpl. intros C. constructor; auto.
  Qed.
  Lemma d_all n : T n.
  Proof. induction n as [|n IH]; [|apply d_step; auto]. intros Lk v s _ _ _ _ _. intros []. Qed.

  (** The whole call: its document, and what it leaves of the heap however it ends. *)
  Lemma pickle_all n v s : p_heap s = h0 -> V h0 v ->
    match pickle w k o n true v s with
    | (Ret j, s') => P j /\ hev cls h0 (p_heap s')
    | (Exc _, s') => hev cls h0 (p_heap s')
    | (OOF, _) => True
    end.
  Proof.
    intros Hh Vv. destruct n as [|n]; [unfold pickle, pflatten; rewrite Os; exact Logic.I|].
    unfold pickle, pflatten. unfold bind at 1. unfold p_reset, modify.
    cbv beta iota. rewrite Os. unfold bind at 1, ret at 1. cbv beta iota.
    set (s0 := p_reset_st s).
    assert (Hs : p_heap s0 = h0) by exact Hh.
    pose (goal := fun x : res json * pst => match x with
      | (Ret j, s') => P j /\ hev cls h0 (p_heap s')
      | (Exc _, s') => hev cls h0 (p_heap s')
      | (OOF, _) => True
      end).
    change (goal (flatten w k o (S n) v s0)).
    assert (Im : goal (flatten_impl w k o n (flatten w k o n) v s0)).
    { assert (L : prim_json v = None -> goal ((push;;; j <- flatten_obj w k o n (flatten w k o n) v;; pop j) s0)).
      { intros Hp. pose proof (d_obj (fun _ => False) n (set_depth 0%Z s0) v (d_all n) ltac:(intros ? [])) as X.
        cbn [set_depth p_heap p_depth p_cache] in X.
        rewrite Hs in X. specialize (X (hev_refl _ _) (Z.le_refl _) (Forall_nil _) Vv Hp). unfold twp in X.
        unfold push, bind, modify. cbv beta iota. change (p_depth s0 + 1)%Z with 0%Z. fold (set_depth 0%Z s0) in *.
        destruct (flatten_obj w k o n (flatten w k o n) v (set_depth 0%Z s0)) as [[j1|e|] s1]; [| |exact Logic.I].
        - destruct X as [[(Hv & _) _] Pj]. cbn [set_depth p_heap] in Hv. rewrite Hs in Hv.
          unfold pop, bind, modify, ret. cbv beta iota. destruct (_ =? _)%Z; simpl; auto.
        - destruct X as [[(Hv & _) _] _]. cbn [set_depth p_heap] in Hv. rewrite Hs in Hv. exact Hv. }
      unfold flatten_impl, bind, gets. cbv beta iota.
      assert (Pp : forall j, prim_json v = Some j -> P j) by (intros j1 Hj; eapply (dc_prim _ _ _ _ _ _ _ _ _ DC); eauto).
      assert (Rt : forall j, P j -> goal (Ret j, s0)) by (intros j Hj; split; [auto|rewrite Hs; apply hev_refl]).
      destruct v; cbn [prim_json] in *; try (apply L; auto; fail); unfold ret; try (apply Rt; apply Pp; auto; fail).
      - apply Rt. eapply (dc_bytes _ _ _ _ _ _ _ _ _ DC); eauto.
      - destruct (hget (p_heap s0) l) as [[]|] eqn:G; try (apply L; auto; fail). apply Rt.
        apply (dc_bytearray _ _ _ _ _ _ _ _ _ DC h0 l b); auto; [apply hev_refl|rewrite <- Hs; exact G]. }
    cbn [flatten]. unfold flatten_step. destruct (po_unpicklable o && po_make_refs o); [apply Im|].
    unfold bind at 1, gets. cbv beta iota. cbn [s0 p_reset_st p_cache cache_get].
    unfold bind. destruct (flatten_impl w k o n (flatten w k o n) v s0) as [[j1|e|] s1] eqn:F; exact Im.
  Qed.
  Theorem pickle_doc n v s j s' : p_heap s = h0 -> V h0 v -> pickle w k o n true v s = (Ret j, s') -> P j.
  Proof. intros Hh Vv E0. pose proof (pickle_all n v s Hh Vv) as X. rewrite E0 in X. apply X. Qed.
  Lemma encode_doc n v s text s' : p_heap s = h0 -> V h0 v -> encode w k o n v s = (Ret text, s') ->
    exists j, text = dumps j /\ P j.
  Proof.
    intros Hh Vv. unfold encode, bind. destruct (pickle w k o n true v s) as [[j|e|] s1] eqn:Pk; [|discriminate|discriminate].
    unfold ret. intros H. inversion H as [[H1 H2]]. exists j. split; auto. eapply pickle_doc; eauto.
  Qed.
End doc.
