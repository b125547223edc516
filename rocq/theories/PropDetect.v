(** C51: encode runs the reduce method that pickle would run, and finds the other protocol methods. *)
From Verif Require Import PyStr Base Json Detect SpecDetect DetectProofs.
From Coq Require Import List. Import ListNotations.
Open Scope nat_scope.

(** For every hierarchy of classes: if pickle's [x.__reduce_ex__(2)] runs a method of class d
    other than object, encode runs the same method; if it runs object's default, encode calls
    neither.  (The instance itself carries neither name; time.struct_time is apart.) *)
Theorem C51_reduce_like_pickle :
  forall kl mro c_object c_dict c_list c_set c_tuple c_modtype c_defaultdict c_struct nonreducible x d name,
  wf_classes kl mro c_object -> In c_dict nonreducible ->
  (forall c nm a, nm = u "__reduce__" \/ nm = u "__reduce_ex__" -> sget nm (kl_dict (kl c)) = Some a -> a <> AOther false) ->
  from_collections kl mro c_defaultdict x \/ ~ container_like kl mro [c_dict; c_list; c_set; c_tuple; c_modtype] nonreducible x ->
  io_cls x <> c_struct ->
  (forall nm, nm = u "__reduce__" \/ nm = u "__reduce_ex__" -> shas nm (io_dict x) = false /\ smem nm (io_slots x) = false) ->
  pickle_runs kl mro c_object (io_cls x) d name ->
  (d <> c_object ->
   reduce_call kl mro c_object c_dict c_list c_set c_tuple c_modtype c_defaultdict c_struct nonreducible x = Some (TClass d name)) /\
  (d = c_object ->
   reduce_call kl mro c_object c_dict c_list c_set c_tuple c_modtype c_defaultdict c_struct nonreducible x = None).
Proof.
  intros kl mro c_object c_dict c_list c_set c_tuple c_modtype c_defaultdict c_struct nonreducible x d name WF DN TR K NS OWN P.
  apply (reducible_spec kl mro c_dict c_list c_set c_tuple c_modtype c_defaultdict nonreducible DN) in K.
  assert (TR' : forall c nm a, nm = u "__reduce__" \/ nm = u "__reduce_ex__" -> sget nm (kl_dict (kl c)) = Some a -> attr_truthy a = true)
    by (intros c nm a E G; specialize (TR c nm a E G); destruct a as [| | | |[|]]; auto; congruence).
  destruct (OWN _ (or_introl eq_refl)) as [D1 S1]. destruct (OWN _ (or_intror eq_refl)) as [D2 S2].
  rewrite (reduce_like_pickle kl mro c_object c_dict c_list c_set c_tuple c_modtype c_defaultdict c_struct nonreducible WF TR' x K NS D1 D2 S1 S2 d name P).
  split; intros E; [apply Nat.eqb_neq in E|apply Nat.eqb_eq in E]; rewrite E; reflexivity.
Qed.
Print Assumptions C51_reduce_like_pickle.
(** Pickle's rule gives an answer for every class, so the theorem above covers every such x. *)
Theorem C51_pickle_runs_something :
  forall kl mro c_object c, wf_classes kl mro c_object -> exists d name, pickle_runs kl mro c_object c d name.
Proof. intros kl mro c_object c WF. exact (pickle_always_runs kl mro c_object WF c). Qed.
Print Assumptions C51_pickle_runs_something.

(** The methods that are found by [has_method] ([__getnewargs__], [__getnewargs_ex__],
    [__getinitargs__]): what the class resolves the name to decides, if the instance does not
    carry the name: any kind of method counts, other objects (a callable, a property) do not. *)
Theorem C51_methods_found :
  forall kl mro c_object x name c a, wf_classes kl mro c_object -> sget name (io_dict x) = None ->
  finds kl (mro (io_cls x)) name c a ->
  (has_method kl mro x name = true <-> a = AFunction \/ a = AStatic \/ a = AClassmethod \/ a = ABuiltin).
Proof.
  intros kl mro c_object x name c a WF D F. rewrite (method_found kl mro c_object WF x name c a D F).
  destruct a; cbn; split; auto; try discriminate. intros [H|[H|[H|H]]]; discriminate.
Qed.
Print Assumptions C51_methods_found.
(** If the instance itself carries the name, that counts only together with a definition in
    the class: static methods always, otherwise a method that is bound as the class's
    definition would be; builtin methods count by themselves. *)
Theorem C51_own_methods :
  forall kl mro x name c og a, sget name (io_dict x) = Some a ->
  finds kl (mro (io_cls x)) name c og -> og <> AOther false ->
  (has_method kl mro x name = true <->
   a = IBuiltin \/
   (a <> IOther /\
    (og = AStatic \/ (og = AClassmethod /\ exists d, a = IBoundClass d /\ In d (mro (io_cls x))) \/
     (og <> AClassmethod /\ exists d, a = IBoundTo d /\ In d (mro (io_cls x)))))).
Proof.
  intros kl mro x name c og a G F N.
  assert (O : original kl name (mro (io_cls x)) = Some og).
  { destruct F as (l1 & l2 & E & D & A). rewrite E. clear E. induction l1 as [|y l1 IH]; cbn [app original].
    - rewrite D. destruct og as [| | | |[|]]; auto. congruence.
    - rewrite (A y (or_introl eq_refl)). apply IH. intros z I. apply A. right. exact I. }
  assert (IS : forall d, issub mro (io_cls x) d = true <-> In d (mro (io_cls x))).
  { intros d. unfold issub, nmem. rewrite existsb_exists. split.
    - intros (y & I & E). apply Nat.eqb_eq in E. subst. auto.
    - intros I. exists d. rewrite Nat.eqb_refl. auto. }
  unfold has_method, getattr_func. rewrite G. destruct a as [|d|d| |]; rewrite ?O.
  - split; [|intros [H|(_ & [H|[(_ & d & H & _)|(_ & d & H & _)]])]; try discriminate; subst; reflexivity].
    intros H. right. split; [discriminate|]. left. destruct og; congruence.
  - split.
    + intros H. right. split; [discriminate|]. destruct og; auto; try discriminate; right; right; (split; [discriminate|]);
        exists d; split; auto; apply IS; exact H.
    + intros [H|(_ & [H|[(_ & d' & H & _)|(H1 & d' & H & I)]])]; try discriminate; [subst; reflexivity|].
      inversion H; subst. destruct og; auto; try congruence; apply IS; auto.
  - split.
    + intros H. right. split; [discriminate|]. destruct og; auto; try discriminate. right. left. split; auto. exists d. split; auto. apply IS; auto.
    + intros [H|(_ & [H|[(H1 & d' & H & I)|(_ & d' & H & _)]])]; try discriminate; [subst; reflexivity|].
      inversion H; subst. apply IS; auto.
  - split; auto.
  - split; [discriminate|]. intros [H|[H _]]; [discriminate|congruence].
Qed.
Print Assumptions C51_own_methods.
Theorem C51_methods_absent :
  forall kl mro x name, sget name (io_dict x) = None ->
  (forall c, In c (mro (io_cls x)) -> sget name (kl_dict (kl c)) = None) -> has_method kl mro x name = false.
Proof. intros kl mro x name. exact (method_absent kl mro x name). Qed.
Print Assumptions C51_methods_absent.

(** The other containers are never asked, whatever their classes define. *)
Theorem C51_containers_not_asked :
  forall kl mro c_object c_dict c_list c_set c_tuple c_modtype c_defaultdict c_struct nonreducible x, In c_dict nonreducible ->
  ~ from_collections kl mro c_defaultdict x -> container_like kl mro [c_dict; c_list; c_set; c_tuple; c_modtype] nonreducible x ->
  reduce_call kl mro c_object c_dict c_list c_set c_tuple c_modtype c_defaultdict c_struct nonreducible x = None.
Proof.
  intros kl mro c_object c_dict c_list c_set c_tuple c_modtype c_defaultdict c_struct nonreducible x DN NF CL. unfold reduce_call, has_reduce.
  destruct (reducible_obj kl mro c_dict c_list c_set c_tuple c_modtype c_defaultdict nonreducible x) eqn:E; [|reflexivity].
  apply (reducible_spec kl mro c_dict c_list c_set c_tuple c_modtype c_defaultdict nonreducible DN) in E. destruct E; contradiction.
Qed.
Print Assumptions C51_containers_not_asked.

(** Classes: 0 object, 1 dict, 2 list, 3 set, 4 tuple, 5 module, 6 defaultdict, 7 struct_time,
    8 Base (defines __reduce__), 9 Derived(Base) (defines __getnewargs__), 10 Mixin (defines
    __reduce_ex__), 11 Both(Derived, Mixin), 12 Plain, 13 Stack (defines __getitem__, append and __reduce__). *)
Definition KL (c : nat) : klass :=
  match c with
  | 0 => mkKlass (u "builtins") [(u "__reduce__", ABuiltin); (u "__reduce_ex__", ABuiltin)]
  | 8 => mkKlass (u "m") [(u "__reduce__", AFunction)]
  | 9 => mkKlass (u "m") [(u "__getnewargs__", AFunction)]
  | 10 => mkKlass (u "m") [(u "__reduce_ex__", AFunction); (u "__getinitargs__", AOther true)]
  | 13 => mkKlass (u "m") [(u "__getitem__", AFunction); (u "append", AFunction); (u "__reduce__", AFunction)]
  | _ => mkKlass (u "m") []
  end.
Definition MRO (c : nat) : list nat :=
  match c with
  | 0 => [0]
  | 9 => [9; 8; 0]
  | 11 => [11; 9; 8; 10; 0]
  | c => [c; 0]
  end.
Definition NR : list nat := [0; 1; 2; 3; 4].
Definition call (x : iobj) : option target := reduce_call KL MRO 0 1 2 3 4 5 6 7 NR x.
Lemma wf_sample : wf_classes KL MRO 0.
Proof.
  split; [|split; [|split; eexists; reflexivity]].
  - assert (X : forall a l, ~ In 0 (a :: l) -> exists l', (a :: l) ++ [0] = l' ++ [0] /\ ~ In 0 l') by (intros a l H; exists (a :: l); auto).
    intros c. destruct c as [|c]; [exists []; split; [reflexivity|intros []]|].
    do 11 (destruct c as [|c]; [first [apply (X _ []); cbn; intuition discriminate | apply (X 9 [8]); cbn; intuition discriminate
      | apply (X 11 [9; 8; 10]); cbn; intuition discriminate]|]).
    apply (X _ []). cbn. intuition discriminate.
  - intros c. do 12 (destruct c as [|c]; [cbn; auto|]). cbn. auto.
Qed.
Example C51_case :
  wf_classes KL MRO 0 /\
  (let x := mkIobj 11 [(u "a", IOther)] [] in
   ~ container_like KL MRO [1; 2; 3; 4; 5] NR x /\ pickle_runs KL MRO 0 11 10 (u "__reduce_ex__") /\
   call x = Some (TClass 10 (u "__reduce_ex__")) /\ has_method KL MRO x (u "__getnewargs__") = true /\
   has_method KL MRO x (u "__getinitargs__") = false) /\
  (let x := mkIobj 9 [] [] in pickle_runs KL MRO 0 9 8 (u "__reduce__") /\ call x = Some (TClass 8 (u "__reduce__"))) /\
  call (mkIobj 12 [] []) = None.
Proof.
  split; [exact wf_sample|]. split; [|split; [|vm_compute; reflexivity]].
  - split; [|split; [|vm_compute; auto]].
    + intros [H|[(c & I1 & I2)|[[H|(c & I & H)] _]]].
      * cbn in H. intuition discriminate.
      * cbn in I1, I2. intuition congruence.
      * apply H. vm_compute. reflexivity.
      * cbn in I. repeat (destruct I as [<-|I]; [apply H; vm_compute; reflexivity|]). destruct I.
    + apply pr_ex with (a := AFunction); [|discriminate]. exists [11; 9; 8], [0]. split; [reflexivity|]. split; [vm_compute; reflexivity|].
      intros d I. cbn in I. repeat (destruct I as [<-|I]; [vm_compute; reflexivity|]). destruct I.
  - split; [|vm_compute; reflexivity]. apply pr_plain with (a := AFunction) (b := ABuiltin); [| |discriminate].
    + exists [9; 8], []. split; [reflexivity|]. split; [vm_compute; reflexivity|]. intros d I. cbn in I. repeat (destruct I as [<-|I]; [vm_compute; reflexivity|]). destruct I.
    + exists [9], [0]. split; [reflexivity|]. split; [vm_compute; reflexivity|]. intros d I. cbn in I. repeat (destruct I as [<-|I]; [vm_compute; reflexivity|]). destruct I.
Qed.
(** A list-like class: pickle runs its [__reduce__], encode does not. *)
Theorem C51_list_like_refuted :
  exists kl mro x d, wf_classes kl mro 0 /\ pickle_runs kl mro 0 (io_cls x) d (u "__reduce__") /\ d <> 0 /\
    ~ (exists c, In c [1; 2; 3; 4; 5] /\ In c (mro (io_cls x))) /\ reduce_call kl mro 0 1 2 3 4 5 6 7 NR x = None.
Proof.
  exists KL, MRO, (mkIobj 13 [] []), 13. split; [exact wf_sample|]. split; [|split; [discriminate|split; [|vm_compute; reflexivity]]].
  - apply pr_plain with (a := AFunction) (b := ABuiltin); [| |discriminate].
    + exists [13], []. split; [reflexivity|]. split; [vm_compute; reflexivity|]. intros d [<-|[]]. vm_compute. reflexivity.
    + exists [], [0]. split; [reflexivity|]. split; [vm_compute; reflexivity|]. intros d [].
  - intros (c & I1 & I2). cbn in I1, I2. intuition congruence.
Qed.
Print Assumptions C51_list_like_refuted.
(** An attribute of the instance called [__reduce__] is taken for the method; pickle takes the class's. *)
Theorem C51_instance_attribute_refuted :
  exists kl mro x, wf_classes kl mro 0 /\ pickle_runs kl mro 0 (io_cls x) 0 (u "__reduce_ex__") /\
    reduce_call kl mro 0 1 2 3 4 5 6 7 NR x = Some (TOwn (u "__reduce__")).
Proof.
  exists KL, MRO, (mkIobj 12 [(u "__reduce__", IFunction)] []). split; [exact wf_sample|]. split; [|vm_compute; reflexivity].
  apply pr_default with (a := ABuiltin) (b := ABuiltin); exists [12], []; (split; [reflexivity|]); (split; [vm_compute; reflexivity|]);
    intros d [<-|[]]; vm_compute; reflexivity.
Qed.
Print Assumptions C51_instance_attribute_refuted.
