(** C73: a registration concerns only documents and graphs with the class in question. *)
From Verif Require Import PyStr Tags Json JsonText Base Heap Registry RegistryProofs LoadClass Pickler Unpickler RestoreProofs SpecNames NameProofs SpecScope RegSim RegCong Samples.
Open Scope nat_scope.

(** ** Lookups of other classes *)
Lemma tget_tset_other {K} (eqb : K -> K -> bool) a b h t : (forall x y, eqb x y = true <-> x = y) -> a <> b -> tget eqb a (tset eqb b h t) = tget eqb a t.
Proof. intros Q N. rewrite tget_tset by auto. destruct (eqb a b) eqn:E; auto. apply Q in E. contradiction. Qed.
Lemma tget_tpop_other {K} (eqb : K -> K -> bool) a b t : (forall x y, eqb x y = true <-> x = y) -> a <> b -> tget eqb a (tpop eqb b t) = tget eqb a t.
Proof.
  intros Q N. induction t as [|[k h] t IH]; cbn [tpop tget]; auto. destruct (eqb b k) eqn:E.
  - apply Q in E. subst k. destruct (eqb a b) eqn:E2; auto. apply Q in E2. contradiction.
  - cbn [tget]. rewrite IH. reflexivity.
Qed.
Lemma base_tset sub d c h t : sub d c = false -> base_find sub d (tset Nat.eqb c h t) = base_find sub d t.
Proof.
  intros N. induction t as [|[k x] t IH]; cbn [tset base_find]; [rewrite N; auto|]. destruct (Nat.eqb c k) eqn:E; cbn [base_find].
  - apply Nat.eqb_eq in E. subst k. rewrite N. reflexivity.
  - rewrite IH. reflexivity.
Qed.
Lemma base_tpop sub d c t : sub d c = false -> base_find sub d (tpop Nat.eqb c t) = base_find sub d t.
Proof.
  intros N. induction t as [|[k x] t IH]; cbn [tpop base_find]; auto. destruct (Nat.eqb c k) eqn:E; cbn [base_find].
  - apply Nat.eqb_eq in E. subst k. rewrite N. reflexivity.
  - rewrite IH. reflexivity.
Qed.
Lemma name_ops w ops n : (forall op, In op ops -> n <> importable_name (w_cls w (op_class op))) -> forall r, reg_get_name (then_ops w ops r) n = reg_get_name r n.
Proof.
  induction ops as [|op ops IH]; intros H r; [reflexivity|].
  change (then_ops w (op :: ops) r) with (then_ops w ops (then_ops w [op] r)). rewrite IH by (intros; apply H; right; auto).
  specialize (H op (or_introl eq_refl)). unfold reg_get_name.
  destruct op as [c h b|c]; cbn [then_ops fold_left reg_register reg_unregister r_handlers op_class] in *.
  - rewrite !tget_tset_other; auto using rkey_eqb_eq; intros E; inversion E; auto.
  - rewrite !tget_tpop_other; auto using rkey_eqb_eq; intros E; inversion E; auto.
Qed.
Lemma lookup_ops w ops d n : (forall op, In op ops -> elsewhere w op d n) -> forall r, reg_lookup (w_sub w) (then_ops w ops r) d n = reg_lookup (w_sub w) r d n.
Proof.
  intros H r. unfold reg_lookup. rewrite name_ops by (intros op I; apply (H op I)). f_equal. revert r.
  assert (X : forall r, reg_get_cls (w_sub w) (then_ops w ops r) d = reg_get_cls (w_sub w) r d).
  2: { intros r. rewrite X. reflexivity. }
  induction ops as [|op ops IH]; intros r; [reflexivity|].
  change (then_ops w (op :: ops) r) with (then_ops w ops (then_ops w [op] r)). rewrite IH by (intros; apply H; right; auto).
  destruct (H op (or_introl eq_refl)) as (N & _ & S). unfold reg_get_cls.
  destruct op as [c h b|c]; cbn [then_ops fold_left reg_register reg_unregister r_handlers r_base op_class] in *.
  - rewrite !tget_tset_other; auto using rkey_eqb_eq; try (intros E; inversion E; auto; fail).
    destruct b; auto. rewrite base_tset by exact S. reflexivity.
  - rewrite !tget_tpop_other; auto using rkey_eqb_eq; try (intros E; inversion E; auto; fail). rewrite base_tpop by exact S. reflexivity.
Qed.

(** C73, encode.  Any calls of register and unregister for classes of which (and, with base=True or
    unregister, of whose subclasses) there is no instance leave the text, the exception and the
    state of the encoder as they are: every graph, all options, all hooks. *)
Theorem C73_encode :
  forall w k o n v s ops,
  (forall op l i, In op ops -> hget (p_heap s) l = Some (OInst i) -> elsewhere w op (i_cls i) (importable_name (w_cls w (i_cls i)))) ->
  encode (with_registry w (then_ops w ops (w_reg w))) k o n v s = encode w k o n v s.
Proof.
  intros w k o n v s ops H. apply encode_scope. intros l i G. apply lookup_ops. intros op I. eapply H; eauto.
Qed.
Print Assumptions C73_encode.

(** C73, decode.  Likewise for classes that no py/object entry of the document is loaded as. *)
Theorem C73_decode :
  forall w o n classes text j s ops,
  part_handlers w -> loads text = Some j ->
  (forall op x v, In op ops -> value_in (u "py/object") j (JStr x) -> loadclass w (classes_of w classes) (JStr x) = Ret v ->
     match v with VType d => elsewhere w op d x | _ => x <> importable_name (w_cls w (op_class op)) end) ->
  decode (with_registry w (then_ops w ops (w_reg w))) o n classes text s = decode w o n classes text s.
Proof.
  intros w o n cl text j s ops H L A. eapply decode_scope; eauto. intros x v V LC.
  destruct v; try (apply name_ops; intros op I; specialize (A op x _ I V LC); exact A).
  apply lookup_ops. intros op I. specialize (A op x _ I V LC). exact A.
Qed.
Print Assumptions C73_decode.

(** A case: a Node with a list, a cycle and an instance of Other; handlers come and go for other
    classes, one of them for all its subclasses. *)
Definition scope_heap : heap :=
  [plain_inst cNode 1; ODict [(VStr (u "a"), VLoc 2); (VStr (u "b"), VLoc 3)]; OList [VInt 1; VLoc 0]; plain_inst cOther 4; ODict []].
Definition scope_ops : list rop := [OReg cHandled 5 true; OReg cSlots 6 false; OUnreg cHandled; OUnreg cState].
Definition scope_text : pystr :=
  u "{""py/object"": ""m.Node"", ""a"": [1, {""py/id"": 1}], ""b"": {""py/object"": ""m.Other""}, ""c"": {""py/object"": ""gone.X""}, ""d"": {""py/type"": ""m.Slots""}}".
Lemma elsewhere_dec w op d n :
  negb (Nat.eqb d (op_class op)) && negb (seqb n (importable_name (w_cls w (op_class op)))) &&
  (match op with OReg _ _ false => true | _ => negb (w_sub w d (op_class op)) end) = true -> elsewhere w op d n.
Proof.
  intros H. apply andb_true_iff in H as [H H3]. apply andb_true_iff in H as [H1 H2]. apply negb_true_iff in H1, H2.
  split; [intros E; subst; rewrite Nat.eqb_refl in H1; discriminate|]. split; [intros E; subst; rewrite seqb_refl in H2; discriminate|].
  destruct op as [c h []|c]; auto; apply negb_true_iff in H3; auto.
Qed.
Example C73_encode_case :
  forall op l i, In op scope_ops -> hget scope_heap l = Some (OInst i) -> elsewhere W0 op (i_cls i) (importable_name (w_cls W0 (i_cls i))).
Proof.
  intros op l i I G.
  assert (E : i_cls i = cNode \/ i_cls i = cOther).
  { destruct l as [|[|[|[|[|l]]]]]; cbn in G; try discriminate G; [left|right|destruct l; discriminate G]; injection G as <-; reflexivity. }
  destruct E as [-> | ->]; simpl in I; repeat (destruct I as [<-|I]; [apply elsewhere_dec; vm_compute; reflexivity|]); destruct I.
Qed.
(** A handler for the class itself or a superclass is another matter. *)
Example C73_encode_own :
  enc (with_registry W0 (then_ops W0 [OReg cOther 5 false] (w_reg W0))) K0 PO 50 scope_heap (VLoc 0) <> enc W0 K0 PO 50 scope_heap (VLoc 0).
Proof. vm_compute. discriminate. Qed.
Definition scope_doc : json := match loads scope_text with Some j => j | None => JNull end.
(** Documents whose py/object entries are among [names]. *)
Inductive names_from (names : list pystr) : json -> Prop :=
| nf_null : names_from names JNull
| nf_bool b : names_from names (JBool b)
| nf_int z : names_from names (JInt z)
| nf_float t : names_from names (JFloat t)
| nf_str t : names_from names (JStr t)
| nf_list l : (forall x, In x l -> names_from names x) -> names_from names (JList l)
| nf_obj (ob : jobj) : (forall kv, In kv ob -> (fst kv = u "py/object" -> forall x, snd kv = JStr x -> In x names) /\
                                      prefixb JSON_KEY (fst kv) = false /\ names_from names (snd kv)) -> names_from names (JObj ob).
Lemma names_from_part names a b : part a b -> names_from names b -> names_from names a.
Proof.
  induction 1; intros N; auto; try (constructor; fail).
  - inversion N; auto.
  - inversion N as [| | | | | |ob0 F]; subst. apply (F (k, x)); auto.
  - inversion N as [| | | | | |ob0 F]; subst. unfold keys in *. apply in_map_iff in H as (kv & <- & I). destruct (F kv I) as (_ & E & _). congruence.
Qed.
Lemma names_from_in names j x : names_from names j -> value_in (u "py/object") j (JStr x) -> In x names.
Proof.
  intros N (ob & [->|P] & I).
  - inversion N as [| | | | | |ob0 F]; subst. apply (F _ I); auto.
  - apply (names_from_part names) in P; auto. inversion P as [| | | | | |ob0 F]; subst. apply (F _ I); auto.
Qed.
Ltac nf := match goal with
  | |- names_from _ (JList _) => apply nf_list; intros ? Hx; simpl in Hx; repeat (destruct Hx as [<-|Hx]; [nf|]); destruct Hx
  | |- names_from _ (JObj _) => apply nf_obj; intros ? Hx; simpl in Hx;
      repeat (destruct Hx as [<-|Hx]; [split; [intros Ex ? Sx; first [discriminate Ex|discriminate Sx|injection Sx as <-; simpl; auto 10]|split; [reflexivity|cbn [snd]; nf]]|]); destruct Hx
  | |- _ => constructor
  end.
Example C73_decode_case :
  part_handlers W0 /\ loads scope_text = Some scope_doc /\
  (forall op x v, In op scope_ops -> value_in (u "py/object") scope_doc (JStr x) -> loadclass W0 (classes_of W0 None) (JStr x) = Ret v ->
     match v with VType d => elsewhere W0 op d x | _ => x <> importable_name (w_cls W0 (op_class op)) end).
Proof.
  split; [intros h ctx ob; exact I|]. split; [vm_compute; reflexivity|]. intros op x v I V L.
  apply (names_from_in [u "m.Node"; u "m.Other"; u "gone.X"]) in V.
  2: { vm_compute. nf. }
  simpl in V. destruct V as [<-|[<-|[<-|[]]]]; vm_compute in L; inversion L; subst v;
    (simpl in I; repeat (destruct I as [<-|I]; [first [apply elsewhere_dec; vm_compute; reflexivity|intros C; vm_compute in C; discriminate C]|])); destruct I.
Qed.
(** With a handler for Other the object is made by the handler. *)
Example C73_decode_own :
  existsb (fun e => match e with EvHandler 5 _ => true | _ => false end)
    (u_log (snd (dec (with_registry W0 (then_ops W0 [OReg cOther 5 false] (w_reg W0))) UO 400 scope_text))) = true /\
  existsb (fun e => match e with EvHandler _ _ => true | _ => false end) (u_log (snd (dec W0 UO 400 scope_text))) = false.
Proof. split; vm_compute; reflexivity. Qed.
