(** C78: further classes passed to decode make no difference. *)
From Verif Require Import PyStr Tags Json JsonText Base Heap Registry LoadClass Unpickler RestoreProofs SpecNames SpecScope CongProofs NameProofs LoadClassProofs SpecFurther ClsCong SpecGraph RTProps Samples PropRoundtrip.
Open Scope nat_scope.
Local Open Scope monad_scope.

Lemma last_field_is q : last_field q = q \/ exists a, q = a ++ DOT :: last_field q /\ ~ In DOT (last_field q).
Proof.
  unfold last_field.
  pose proof (split_on_nonnil DOT q) as NN. destruct (exists_last NN) as (l & x & E). rewrite E, last_last.
  assert (C : ~ In DOT x) by (apply (split_on_In_clean DOT q); rewrite E; apply in_or_app; right; left; auto).
  rewrite <- (join_split DOT q), E. destruct l as [|y l]; [left; reflexivity|]. right. exists (join_with DOT (y :: l)). split; auto.
  clear. revert y. induction l as [|z l IH]; intros y; [reflexivity|]. cbn [join_with app] in *. rewrite IH. cbn. rewrite <- app_assoc. reflexivity.
Qed.
Lemma last_field_app a n : ~ In DOT n -> last_field (a ++ DOT :: n) = n.
Proof. intros C. unfold last_field. rewrite split_dot_app, (split_on_clean DOT n C). apply last_last. Qed.
Lemma table_last w cl n : sget n (classes_of w cl) = last_binding n (given w cl).
Proof. destruct cl; [apply register_classes_last|reflexivity]. Qed.

Lemma reset_run (m m' : MU val) s : same_run (m s) (m' s) -> same_run ((v <- m ;; u_reset ;;; ret v) s) ((v <- m' ;; u_reset ;;; ret v) s).
Proof.
  unfold same_run, bind. destruct (m s) as [r t], (m' s) as [r' t']. cbn [fst snd]. intros (<- & E & F). destruct r; cbn; auto.
Qed.

(** C78.  For every text, world, options and every two classes arguments (a class, sequences, nested
    sequences, dicts, or none) that give the same class for every name the document asks for: decode
    does the same with both: value or exception, objects, calls. *)
Theorem C78_same_names :
  forall w o n text j a b s, part_handlers w -> loads text = Some j -> no_containers j ->
  (forall q, sought j q -> last_binding q (given w a) = last_binding q (given w b)) ->
  same_run (decode w o n a text s) (decode w o n b text s).
Proof.
  intros w o n text j a b s H L NC A. unfold decode. rewrite L.
  assert (X : forall q, dotted_in j q -> from_classes (classes_of w b) q = from_classes (classes_of w a) q).
  { intros q D. unfold from_classes. rewrite !table_last. rewrite <- (A q) by (exists q; auto).
    rewrite <- (A (last_field q)); auto. exists q. split; auto. destruct (last_field_is q) as [->|K]; auto. }
  assert (N : forall ob t x, object_in j ob -> dotted_tag t -> In (t, x) ob -> good (classes_of w a) (classes_of w b) x).
  { intros ob t x I D J. destruct (NC ob t I D) as [N1 N2]. destruct x; cbn [good]; auto; [|eapply N1; eauto|eapply N2; eauto].
    apply X. exists ob, t. auto. }
  pose proof (r_classes w o j _ _ H N n j (or_introl eq_refl)) as R.
  assert (S0 : alike (classes_of w a) (classes_of w b)
    (mkUst (u_heap s) [] [] (u_prox s) [] (classes_of w a) (u_log s)) (mkUst (u_heap s) [] [] (u_prox s) [] (classes_of w b) (u_log s))) by (split; reflexivity).
  assert (Y : forall c, unpickle w o n true c j s = (v <- restore w o n j ;; swap_proxies w ;;; ret v) (mkUst (u_heap s) [] [] (u_prox s) [] (classes_of w c) (u_log s)))
    by (intros [c|]; reflexivity).
  assert (Z : dsim (classes_of w a) (classes_of w b) (v <- restore w o n j ;; swap_proxies w ;;; ret v) (v <- restore w o n j ;; swap_proxies w ;;; ret v)).
  { apply d_bind; [exact R|]. intros v ? ? _. apply d_bind; [apply swap_classes|]. intros; apply d_ret. }
  destruct (Z _ _ S0) as [E [_ F]]. apply reset_run. rewrite !Y. unfold same_run. rewrite E, F. auto.
Qed.
Print Assumptions C78_same_names.

(** Classes whose names are not sought for can be added before or after the others, or alone. *)
Theorem C78_further :
  forall w o n text j c extra s, part_handlers w -> loads text = Some j -> no_containers j ->
  (forall q v, In (q, v) (bindings w extra) -> ~ sought j q) ->
  same_run (decode w o n (Some (CASeq [c; extra])) text s) (decode w o n (Some c) text s) /\
  same_run (decode w o n (Some (CASeq [extra; c])) text s) (decode w o n (Some c) text s) /\
  same_run (decode w o n (Some extra) text s) (decode w o n None text s).
Proof.
  intros w o n text j c extra s H L NC A.
  assert (B : forall q, sought j q -> last_binding q (bindings w extra) = None).
  { intros q Q. unfold last_binding. destruct (sget q (rev (bindings w extra))) as [v|] eqn:G; auto.
    apply sget_In in G. apply in_rev in G. destruct (A q v G Q). }
  split; [|split]; eapply C78_same_names; eauto; intros q Q; specialize (B q Q); unfold last_binding in *; cbn [given bindings flat_map];
    rewrite ?app_nil_r, ?rev_app_distr, ?sget_app, ?B; auto. destruct (sget q (rev (bindings w c))); auto.
Qed.
Print Assumptions C78_further.

(** A list where the name is due: TypeError instead of AttributeError once there are classes. *)
Theorem C78_malformed_refuted :
  exists text c, fst (decode W0 UO 40 None text (new_unpickler [])) = Exc EAttributeError /\
    fst (decode W0 UO 40 (Some c) text (new_unpickler [])) = Exc ETypeError.
Proof. exists (u "{""py/type"": []}"), (CAOne cNode). split; vm_compute; reflexivity. Qed.
Print Assumptions C78_malformed_refuted.

(** Documents whose dotted names are among [names], without texts inside keys. *)
Inductive dotted_from (names : list pystr) : json -> Prop :=
| df_null : dotted_from names JNull
| df_bool b : dotted_from names (JBool b)
| df_int z : dotted_from names (JInt z)
| df_float t : dotted_from names (JFloat t)
| df_str t : dotted_from names (JStr t)
| df_list l : (forall x, In x l -> dotted_from names x) -> dotted_from names (JList l)
| df_obj (ob : jobj) : (forall kv, In kv ob -> (dotted_tag (fst kv) -> exists x, snd kv = JStr x /\ In x names) /\
                                      prefixb JSON_KEY (fst kv) = false /\ dotted_from names (snd kv)) -> dotted_from names (JObj ob).
Lemma dotted_from_part names a b : RestoreProofs.part a b -> dotted_from names b -> dotted_from names a.
Proof.
  induction 1; intros N; auto; try (constructor; fail).
  - inversion N; auto.
  - inversion N as [| | | | | |ob0 F]; subst. apply (F (k, x)); auto.
  - inversion N as [| | | | | |ob0 F]; subst. unfold keys in *. apply in_map_iff in H as (kv & <- & I). destruct (F kv I) as (_ & E & _). congruence.
Qed.
Lemma dotted_from_in names j ob t x : dotted_from names j -> object_in j ob -> dotted_tag t -> In (t, x) ob -> exists y, x = JStr y /\ In y names.
Proof.
  intros N O D I. assert (Q : dotted_from names (JObj ob)) by (destruct O as [<-|P]; auto; eapply dotted_from_part; eauto).
  inversion Q as [| | | | | |ob0 F]; subst. apply (F _ I); auto.
Qed.
Ltac df := match goal with
  | |- dotted_from _ (JList _) => apply df_list; intros ? Hx; simpl in Hx; repeat (destruct Hx as [<-|Hx]; [df|]); destruct Hx
  | |- dotted_from _ (JObj _) => apply df_obj; intros ? Hx; simpl in Hx;
      repeat (destruct Hx as [<-|Hx]; [split; [first [intros [Ex|[Ex|Ex]]; vm_compute in Ex; discriminate Ex|intros _; eexists; split; [reflexivity|simpl; auto 10]]|split; [reflexivity|cbn [snd]; df]]|]); destruct Hx
  | |- _ => constructor
  end.
Definition further_text : pystr :=
  u "[{""py/object"": ""m.Node"", ""a"": {""py/type"": ""gone.Thing""}}, {""py/object"": ""m.Other"", ""b"": 1}]".
Definition further_doc : json := match loads further_text with Some j => j | None => JNull end.
(** classes=[Slots, {"x.Node": Dict, "gone": Node}] *)
Definition further_extra : carg := CASeq [CAOne cSlots; CADict [(inl (u "x.Node"), VType cDict); (inl (u "gone"), VType cNode)]].
Example C78_case :
  part_handlers W0 /\ loads further_text = Some further_doc /\ no_containers further_doc /\
  (forall q v, In (q, v) (bindings W0 further_extra) -> ~ sought further_doc q).
Proof.
  assert (N : dotted_from [u "m.Node"; u "gone.Thing"; u "m.Other"] further_doc) by (vm_compute; df).
  split; [intros h ctx ob; exact I|]. split; [vm_compute; reflexivity|]. split.
  - intros ob t O D. split; intros l I; destruct (dotted_from_in _ _ _ _ _ N O D I) as (y & E & _); discriminate E.
  - intros q v I (p & (ob & t & O & D & J) & E). destruct (dotted_from_in _ _ _ _ _ N O D J) as (y & [= <-] & K).
    assert (B : (seqb q p || seqb q (last_field p)) = true).
    { destruct E as [->|(a & -> & C)]; [rewrite seqb_refl; reflexivity|]. rewrite last_field_app, seqb_refl, orb_true_r; auto. }
    clear E. revert B. vm_compute in I, K.
    repeat (destruct K as [<-|K]; [repeat (destruct I as [I|I]; [injection I as <- <-; vm_compute; discriminate|]); destruct I|]). destruct K.
Qed.
(** A class given under the bare name, or under the name itself, is another matter. *)
Example C78_bare :
  fst (decode W0 UO 40 (Some (CADict [(inl (u "Thing"), VType cNode)])) (u "{""py/type"": ""gone.Thing""}") (new_unpickler [])) = Ret (VType cNode) /\
  fst (decode W0 UO 40 None (u "{""py/type"": ""gone.Thing""}") (new_unpickler [])) <> Ret (VType cNode).
Proof. split; vm_compute; [reflexivity|discriminate]. Qed.
