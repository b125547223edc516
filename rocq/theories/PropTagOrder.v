(** C81: of several tags in an object of a document one counts, and the other entries are not looked at. *)
From Verif Require Import PyStr Tags Json JsonText B64 B85 Base Heap Registry LoadClass Unpickler SpecTagOrder Samples.
From Coq Require Import List. Import ListNotations.
Open Scope nat_scope.
Local Open Scope monad_scope.

Lemma absent (x : pystr) (ob : jobj) : ~ In x (map fst ob) -> shas x ob = false.
Proof. intros H. unfold shas. apply sget_None in H. rewrite H. reflexivity. Qed.
Lemma present (t : pystr) (v : json) (ob : jobj) : NoDup (map fst ob) -> In (t, v) ob -> sget t ob = Some v.
Proof.
  induction ob as [|[k x] ob IH]; simpl; intros ND I; [destruct I|].
  inversion ND as [|? ? Ni ND']; subst. destruct I as [E|I].
  - injection E as -> ->. rewrite seqb_refl. reflexivity.
  - destruct (seqb_spec t k) as [->|N].
    + exfalso. apply Ni. exact (in_map fst _ _ I).
    + auto.
Qed.
Lemma same_field (t : pystr) (v : json) (ob : jobj) : sget t ob = Some v -> sget t ob = sget t [(t, v)].
Proof. intros ->. simpl. rewrite seqb_refl. reflexivity. Qed.

Ltac read ob := unfold restore_step at 1;
  repeat match goal with
  | H : shas ?x ob = ?b |- context [shas ?y ob] => change (shas y ob) with (shas x ob); rewrite H; clear H
  end.
(** One step: the entries beside the tag that counts make no difference. *)
Lemma step_rest w o rec ob t v s : counts t ob -> t <> u "py/object" -> t <> u "py/type" ->
  sget t ob = Some v -> restore_step w o rec (JObj ob) s = restore_step w o rec (JObj [(t, v)]) s.
Proof.
  intros (before & after & E & _ & No) NO NT G.
  pose proof (same_field _ _ _ G) as F.
  assert (P : shas t ob = true) by (unfold shas; rewrite G; reflexivity).
  assert (A : forall x, In x before -> shas x ob = false) by (intros x I; apply absent; auto).
  clear No.
  repeat (destruct before as [|? before]; cbn [app] in E;
    [injection E as <- _ | injection E as <- E; pose proof (A _ (or_introl eq_refl)); 
                           pose proof (fun x I => A x (or_intror I)) as A'; clear A; rename A' into A]);
  try (exfalso; apply NO; reflexivity); try (exfalso; apply NT; reflexivity);
  try (destruct before; discriminate E).
  all: clear NO NT.
  - read ob. transitivity (restore_tuple rec [(TUPLE, v)] s); [|reflexivity].
    unfold restore_tuple, jfield. change (sget TUPLE ob = sget TUPLE [(TUPLE, v)]) in F. rewrite F. reflexivity.
  - read ob. transitivity (restore_set w rec [(SET_, v)] s); [|reflexivity].
    unfold restore_set, jfield. change (sget SET_ ob = sget SET_ [(SET_, v)]) in F. rewrite F. reflexivity.
  - read ob. transitivity (restore_base64 [(B64, v)] s); [|reflexivity].
    unfold restore_base64. change (sget B64 ob = sget B64 [(B64, v)]) in F. rewrite F. reflexivity.
  - read ob. transitivity (restore_base85 [(B85, v)] s); [|reflexivity].
    unfold restore_base85. change (sget B85 ob = sget B85 [(B85, v)]) in F. rewrite F. reflexivity.
  - read ob. transitivity (restore_bytearray [(BYTEARRAY, v)] s); [|reflexivity].
    unfold restore_bytearray. change (sget BYTEARRAY ob = sget BYTEARRAY [(BYTEARRAY, v)]) in F. rewrite F. reflexivity.
  - read ob. transitivity (restore_id [(ID, v)] s); [|reflexivity].
    unfold restore_id. change (sget ID ob = sget ID [(ID, v)]) in F. rewrite F. reflexivity.
  - read ob. transitivity (restore_iterator rec [(ITERATOR, v)] s); [|reflexivity].
    unfold restore_iterator, jfield. change (sget ITERATOR ob = sget ITERATOR [(ITERATOR, v)]) in F. rewrite F. reflexivity.
  - read ob. transitivity (restore_reduce w rec [(REDUCE, v)] s); [|reflexivity].
    unfold restore_reduce, jfield. change (sget REDUCE ob = sget REDUCE [(REDUCE, v)]) in F. rewrite F. reflexivity.
  - read ob. transitivity (restore_function w [(FUNCTION, v)] s); [|reflexivity].
    unfold restore_function, jfield. change (sget FUNCTION ob = sget FUNCTION [(FUNCTION, v)]) in F. rewrite F. reflexivity.
  - read ob. transitivity (restore_module w [(MODULE, v)] s); [|reflexivity].
    unfold restore_module, jfield. change (sget MODULE ob = sget MODULE [(MODULE, v)]) in F. rewrite F. reflexivity.
  - read ob. transitivity ((if uo_safe o then restore_repr_safe w [(REPR, v)] else restore_repr w [(REPR, v)]) s); [|reflexivity].
    unfold restore_repr_safe, restore_repr, jfield. change (sget REPR ob = sget REPR [(REPR, v)]) in F. rewrite F. reflexivity.
Qed.

(** Equal steps in a loop *)
Lemma bind_ext {A B} (m m' : MU A) (f f' : A -> MU B) s :
  m s = m' s -> (forall a s, f a s = f' a s) -> bind m f s = bind m' f' s.
Proof. intros E F. unfold bind. rewrite E. destruct (m' s) as [[a|e|] s']; auto. Qed.
Lemma catch_ext {A} (m m' : MU A) p h s : m s = m' s -> catch m p h s = catch m' p h s.
Proof. intros E. unfold catch. rewrite E. reflexivity. Qed.
Lemma mapM_ext {A B} (f : A -> MU B) l l' :
  Forall2 (fun a b => forall s, f a s = f b s) l l' -> forall s, mapM f l s = mapM f l' s.
Proof.
  induction 1 as [|a b l l' E _ IH]; intros s; [reflexivity|]. cbn [mapM].
  apply bind_ext; [auto|]. intros y s'. apply bind_ext; auto.
Qed.
Lemma foldM_ext {A B} (f : B -> A -> MU B) l l' :
  Forall2 (fun a b => forall acc s, f acc a s = f acc b s) l l' -> forall acc s, foldM f l acc s = foldM f l' acc s.
Proof.
  induction 1 as [|a b l l' E _ IH]; intros acc s; [reflexivity|]. cbn [foldM].
  apply bind_ext; auto.
Qed.

Section steps.
  Variables (w : world) (o : uopts) (rec : json -> MU val).
  Let like (a b : json) : Prop := forall s, rec a s = rec b s.
  Lemma list_like l l' s : Forall2 like l l' -> restore_list rec (JList l) s = restore_list rec (JList l') s.
  Proof.
    intros F. unfold restore_list. apply bind_ext; [reflexivity|]. intros p s1.
    apply bind_ext; [reflexivity|]. intros _ s2. cbn [jiter].
    change (bind (lift (Ret l)) (fun l => bind (mapM rec l) (fun children =>
      bind (match p with VLoc p => set_obj p (OList children) | _ => ret tt end) (fun _ =>
      bind (modify (fun s => us_swaps (u_swaps s ++ list_swaps p children) s)) (fun _ => ret p)))) s2 =
      bind (lift (Ret l')) (fun l => bind (mapM rec l) (fun children =>
      bind (match p with VLoc p => set_obj p (OList children) | _ => ret tt end) (fun _ =>
      bind (modify (fun s => us_swaps (u_swaps s ++ list_swaps p children) s)) (fun _ => ret p)))) s2).
    unfold bind at 1 5, lift. apply bind_ext; [|reflexivity]. apply mapM_ext. exact F.
  Qed.
  Lemma tuple_like l l' s : Forall2 like l l' ->
    restore_tuple rec [(TUPLE, JList l)] s = restore_tuple rec [(TUPLE, JList l')] s.
  Proof.
    intros F. unfold restore_tuple. apply catch_ext.
    change (bind (mapM rec l) (fun xs => ret (VTuple xs)) s = bind (mapM rec l') (fun xs => ret (VTuple xs)) s).
    apply bind_ext; [|reflexivity]. apply mapM_ext. exact F.
  Qed.
  Lemma set_like l l' s : Forall2 like l l' ->
    restore_set w rec [(SET_, JList l)] s = restore_set w rec [(SET_, JList l')] s.
  Proof.
    intros F. unfold restore_set. apply catch_ext.
    set (g := fun acc j => bind (rec j) _).
    change (bind (foldM g l []) (fun xs => alloc (OSet xs)) s = bind (foldM g l' []) (fun xs => alloc (OSet xs)) s).
    apply bind_ext; [|reflexivity]. apply foldM_ext.
    clear s. induction F as [|a b l l' E _ IH]; constructor; auto.
    intros acc s. unfold g. apply bind_ext; [auto|reflexivity].
  Qed.
  Lemma iterator_like l l' s : Forall2 like l l' ->
    restore_iterator rec [(ITERATOR, JList l)] s = restore_iterator rec [(ITERATOR, JList l')] s.
  Proof.
    intros F. unfold restore_iterator. apply catch_ext. apply bind_ext; [|reflexivity].
    exact (list_like _ _ s F).
  Qed.
  Lemma reduce_like l l' s : Forall2 like l l' ->
    restore_reduce w rec [(REDUCE, JList l)] s = restore_reduce w rec [(REDUCE, JList l')] s.
  Proof.
    intros F. unfold restore_reduce. apply bind_ext; [reflexivity|]. intros p s1.
    apply bind_ext; [reflexivity|]. intros _ s2. apply bind_ext; [|reflexivity]. apply catch_ext.
    change (bind (mapM rec l) (fun vs => ret (Some vs)) s2 = bind (mapM rec l') (fun vs => ret (Some vs)) s2).
    apply bind_ext; [|reflexivity]. apply mapM_ext. exact F.
  Qed.
  Lemma dict_like (ob ob' : jobj) s : Forall2 (fun a b => fst a = fst b /\ like (snd a) (snd b)) ob ob' ->
    restore_dict w o rec ob s = restore_dict w o rec ob' s.
  Proof.
    intros F. unfold restore_dict. apply bind_ext; [reflexivity|]. intros data s1.
    apply bind_ext; [reflexivity|]. intros _ s2. destruct data; try reflexivity.
    apply bind_ext; [|reflexivity].
    assert (X : forall {B} (f : B -> pystr * json -> MU B),
              (forall k x y acc s, like x y -> f acc (k, x) s = f acc (k, y) s) ->
              forall acc s, foldM f ob acc s = foldM f ob' acc s).
    { intros B f Hf. apply foldM_ext. clear - F Hf. induction F as [|[k x] [k' y] l l' [E L] _ IH]; constructor; auto.
      cbn [fst snd] in *. subst k'. intros acc s. apply Hf. exact L. }
    destruct (uo_keys o).
    - apply bind_ext.
      + apply X. intros k x y acc s3 L. cbn [fst snd]. destruct (prefixb JSON_KEY k); [reflexivity|].
        apply bind_ext; [apply L|reflexivity].
      + intros _ s3. apply X. intros k x y acc s4 L. cbn [fst snd].
        destruct (negb (prefixb JSON_KEY k)); [reflexivity|].
        apply bind_ext; [reflexivity|]. intros key s5. apply bind_ext; [apply L|reflexivity].
    - apply X. intros k x y acc s3 L. cbn [fst snd]. apply bind_ext; [apply L|reflexivity].
  Qed.
  Lemma untagged_step (ob : jobj) s : untagged ob -> restore_step w o rec (JObj ob) s = restore_dict w o rec ob s.
  Proof.
    intros U. unfold restore_step.
    repeat match goal with
    | |- context [shas ?x ob] =>
        rewrite (absent x ob (U x ltac:(unfold ranked; simpl; tauto)))
    end. reflexivity.
  Qed.
End steps.

Lemma fewer_restore w o n : forall j j', fewer j j' -> forall s, restore w o n j s = restore w o n j' s.
Proof.
  induction n as [|n IH]; [reflexivity|].
  intros j j' F. induction F as [j|a b c _ IH1 _ IH2|ob t v C NO NT ND I|l l' F|ob ob' U F|t l l' I F]; intros s.
  - reflexivity.
  - rewrite IH1. apply IH2.
  - cbn [restore]. apply (step_rest w o (restore w o n) ob t v s C NO NT). apply present; auto.
  - cbn [restore restore_step]. apply list_like. clear s. induction F; constructor; auto.
  - cbn [restore].
    assert (U' : untagged ob').
    { assert (E : map fst ob = map fst ob') by (clear - F; induction F as [|? ? ? ? [E _] _ IH]; simpl; congruence).
      unfold untagged. rewrite <- E. exact U. }
    rewrite (untagged_step w o _ ob s U), (untagged_step w o _ ob' s U'). apply dict_like.
    clear - F IH. induction F as [|? ? ? ? [E L] _ IHF]; constructor; auto.
  - assert (L : Forall2 (fun a b => forall s, restore w o n a s = restore w o n b s) l l')
      by (clear - F IH; induction F; constructor; auto).
    cbn [restore]. destruct I as [<-|[<-|[<-|[<-|[]]]]].
    + exact (tuple_like (restore w o n) l l' s L).
    + exact (set_like w (restore w o n) l l' s L).
    + exact (iterator_like (restore w o n) l l' s L).
    + exact (reduce_like w (restore w o n) l l' s L).
Qed.

(** C81.  Two documents, the second of which is the first without entries beside tags that count, decode to the
    same: the same result or error, the same objects, the same imports and calls. *)
Theorem C81_rest :
  forall w o n cl text text' j j' s, loads text = Some j -> loads text' = Some j' -> fewer j j' ->
  decode w o n cl text s = decode w o n cl text' s.
Proof.
  intros w o n cl text text' j j' s L L' F. unfold decode. rewrite L, L'.
  apply bind_ext; [|reflexivity]. unfold unpickle.
  apply bind_ext; [reflexivity|]. intros _ s1. apply bind_ext; [reflexivity|]. intros _ s2.
  apply bind_ext; [|reflexivity]. apply fewer_restore. exact F.
Qed.
Print Assumptions C81_rest.

(** An instance: [{"py/set": [1], "py/tuple": [{"py/b64": "YQ==", "n": 1, "py/object": "m.Node"}, 2], "a": 3}] in a
    list decodes like [{"py/tuple": [{"py/b64": "YQ=="}, 2]}]. *)
Definition c81_in : json := JObj [(u "py/b64", JStr (u "YQ==")); (u "n", JInt 1); (u "py/object", JStr (u "m.Node"))].
Definition c81_doc : json :=
  JList [JObj [(u "py/set", JList [JInt 1]); (u "py/tuple", JList [c81_in; JInt 2]); (u "a", JInt 3)]].
Definition c81_doc' : json :=
  JList [JObj [(u "py/tuple", JList [JObj [(u "py/b64", JStr (u "YQ=="))]; JInt 2])]].
Example C81_case :
  loads (dumps c81_doc) = Some c81_doc /\ loads (dumps c81_doc') = Some c81_doc' /\ fewer c81_doc c81_doc' /\
  exists l s', decode W0 UO (length (dumps c81_doc)) None (dumps c81_doc) (new_unpickler []) = (Ret (VLoc l), s') /\
    hget (u_heap s') l = Some (OList [VTuple [VBytes [Nb 97]; VInt 2]]).
Proof.
  split; [vm_compute; reflexivity|]. split; [vm_compute; reflexivity|]. split.
  - constructor. constructor; [|constructor].
    eapply fewer_trans.
    + apply (fewer_rest _ (u "py/tuple") (JList [c81_in; JInt 2])).
      * exists [], (tl ranked). split; [reflexivity|]. split; [right; left; reflexivity|]. intros x [].
      * discriminate.
      * discriminate.
      * repeat constructor; cbn; intuition discriminate.
      * right. left. reflexivity.
    + apply fewer_tag; [left; reflexivity|]. constructor; [|constructor; constructor].
      apply (fewer_rest _ (u "py/b64") (JStr (u "YQ=="))).
      * exists [u "py/tuple"; u "py/set"], (skipn 3 ranked). split; [reflexivity|]. split; [left; reflexivity|].
        intros x [<-|[<-|[]]]; cbn; intuition discriminate.
      * discriminate.
      * discriminate.
      * repeat constructor; cbn; intuition discriminate.
      * left. reflexivity.
  - do 2 eexists. split; vm_compute; reflexivity.
Qed.

(** The tags behind py/object. *)
Lemma not_behind_sget x (ob : jobj) : existsb (seqb x) behind_object = false -> sget x (without_behind ob) = sget x ob.
Proof.
  intros E. unfold without_behind. induction ob as [|[k v] ob IH]; [reflexivity|]. cbn [filter fst sget].
  destruct (seqb_spec x k) as [->|N].
  - rewrite E. cbn [negb sget]. rewrite seqb_refl. reflexivity.
  - destruct (negb (existsb (seqb k) behind_object)); cbn [sget]; [|exact IH].
    destruct (seqb_spec x k); [contradiction|exact IH].
Qed.
Lemma without_behind_sdel x (ob : jobj) : existsb (seqb x) behind_object = false ->
  without_behind (sdel x ob) = sdel x (without_behind ob).
Proof.
  intros E. unfold without_behind. induction ob as [|[k v] ob IH]; [reflexivity|]. cbn [filter fst sdel].
  destruct (seqb_spec x k) as [->|N].
  - rewrite E. cbn [negb sdel]. rewrite seqb_refl. reflexivity.
  - cbn [filter fst]. destruct (negb (existsb (seqb k) behind_object)); cbn [sdel]; [|exact IH].
    destruct (seqb_spec x k); [contradiction|]. f_equal. exact IH.
Qed.
Lemma behind_reserved k : existsb (seqb k) behind_object = true -> is_reserved k = true.
Proof.
  intros E. apply existsb_exists in E. destruct E as (x & I & S). apply seqb_eq in S. subst x.
  unfold behind_object in I. cbn [skipn ranked In] in I.
  repeat (destruct I as [<-|I]; [vm_compute; reflexivity|]). destruct I.
Qed.
(** Loops equal for the values that can come *)
Lemma bind_post {A B} (P : A -> Prop) (m : MU A) (f f' : A -> MU B) s :
  (forall a s', m s = (Ret a, s') -> P a) -> (forall a s, P a -> f a s = f' a s) -> bind m f s = bind m f' s.
Proof. intros H F. unfold bind. destruct (m s) as [[a|e|] s'] eqn:E; auto. eauto. Qed.

Section behind.
  Variables (w : world) (o : uopts) (rec : json -> MU val).
  Lemma from_dict_behind ob inst s : restore_from_dict w o rec (without_behind ob) inst s = restore_from_dict w o rec ob inst s.
  Proof.
    unfold restore_from_dict, without_behind. revert s. induction ob as [|[k v] ob IH]; intros s; [reflexivity|].
    cbn [filter fst]. destruct (existsb (seqb k) behind_object) eqn:E; cbn [negb foldM fst snd].
    - rewrite (behind_reserved k E). rewrite IH. reflexivity.
    - apply bind_ext; [reflexivity|]. intros [] s'. apply IH.
  Qed.
  Lemma vars_behind ob inst s :
    restore_object_instance_variables w o rec (without_behind ob) inst s = restore_object_instance_variables w o rec ob inst s.
  Proof.
    unfold restore_object_instance_variables. apply bind_ext; [apply from_dict_behind|]. intros _ s1.
    rewrite (not_behind_sget SEQ) by reflexivity. apply bind_ext; [reflexivity|]. intros _ s2.
    unfold restore_state, jfield. rewrite !(not_behind_sget STATE) by reflexivity. reflexivity.
  Qed.
  Lemma getargs_behind ob s : getargs w (without_behind ob) s = getargs w ob s.
  Proof.
    unfold getargs. rewrite (not_behind_sget NEWARGS), (not_behind_sget INITARGS), (not_behind_sget SEQ), (not_behind_sget OBJECT)
      by reflexivity. reflexivity.
  Qed.
  Lemma factory_behind ob s : loadfactory rec (without_behind ob) s =
    bind (loadfactory rec ob) (fun fo => ret (fst fo, without_behind (snd fo))) s.
  Proof.
    unfold loadfactory. rewrite (not_behind_sget DEFAULT_FACTORY), (not_behind_sget (u "default_factory")) by reflexivity.
    rewrite <- !without_behind_sdel by reflexivity.
    destruct (sget DEFAULT_FACTORY ob) as [f|].
    - unfold bind. destruct f; try reflexivity; destruct (rec _ s) as [[?|?|] ?]; reflexivity.
    - destruct (sget (u "default_factory") ob) as [f|]; [|reflexivity].
      unfold bind. destruct f; try reflexivity; destruct (rec _ s) as [[?|?|] ?]; reflexivity.
  Qed.
  Lemma factory_bind {B} ob (f : option val * jobj -> MU B) s : bind (loadfactory rec (without_behind ob)) f s =
    bind (loadfactory rec ob) (fun fo => f (fst fo, without_behind (snd fo))) s.
  Proof.
    unfold bind at 1. rewrite factory_behind. unfold bind. destruct (loadfactory rec ob s) as [[?|?|] ?]; reflexivity.
  Qed.
  Lemma instance_behind ob c name s : w_blank w c = true ->
    restore_object_instance w o rec (without_behind ob) (VType c) name s = restore_object_instance w o rec ob (VType c) name s.
  Proof.
    intros Bl. unfold restore_object_instance. apply bind_ext; [reflexivity|]. intros proxy s1.
    apply bind_ext; [reflexivity|]. intros _ s2.
    rewrite factory_bind. apply bind_ext; [reflexivity|]. intros [factory ob'] s3. cbn [fst snd].
    rewrite (not_behind_sget NEWARGSEX) by reflexivity.
    apply bind_ext.
    { destruct (sget NEWARGSEX ob'); [reflexivity|]. apply bind_ext; [apply getargs_behind|reflexivity]. }
    intros ak s4. apply bind_ext; [reflexivity|]. intros args s5. apply bind_ext; [reflexivity|]. intros kw s6.
    apply bind_ext; [reflexivity|]. intros first s7.
    apply (bind_post (fun m => exists v, m = Some v)).
    - intros a s8 E. destruct first as [v|]; [injection E as <- _; eauto|].
      unfold catch in E. rewrite Bl in E.
      match type of E with match ?m with _ => _ end = _ => destruct m as [[x|x|] y] eqn:M end.
      + injection E as <- <-. unfold bind in M.
        destruct (lift args s7) as [[?|?|] ?]; try discriminate M.
        unfold gets in M. destruct (u_callable _ _ _); [|discriminate M].
        match type of M with match ?m with _ => _ end = _ => destruct m as [[?|?|] ?] end; try discriminate M.
        injection M as <- _. eauto.
      + destruct (is_TypeError x); [|discriminate E]. unfold bind in E.
        match type of E with match ?m with _ => _ end = _ => destruct m as [[?|?|] ?] end; try discriminate E.
        injection E as <- _. eauto.
      + discriminate E.
    - intros m s8 (v & ->). apply bind_ext; [reflexivity|]. intros _ s9. apply bind_ext; [reflexivity|]. intros _ s10.
      apply bind_ext; [reflexivity|]. intros h s11. destruct (is_tuple w h v); [reflexivity|].
      apply bind_ext; [apply vars_behind|reflexivity].
  Qed.
End behind.

Lemma step_object w o rec ob name c s : counts (u "py/object") ob -> sget (u "py/object") ob = Some (JStr name) ->
  loadclass w (u_classes s) (JStr name) = Ret (VType c) ->
  reg_lookup (w_sub w) (w_reg w) c name = None -> w_blank w c = true ->
  restore_step w o rec (JObj ob) s = restore_step w o rec (JObj (without_behind ob)) s.
Proof.
  intros C G LC R Bl.
  assert (O : forall ob, counts (u "py/object") ob -> restore_step w o rec (JObj ob) s = restore_object w o rec ob s).
  { clear. intros ob (before & after & E & I & No).
    assert (Eb : before = firstn 7 ranked).
    { do 7 (destruct before as [|? before]; [discriminate E|]; cbn [app] in E; injection E as <- E).
      destruct before as [|? before]; [reflexivity|]. injection E as <- E.
      exfalso. cbn in E. repeat (destruct before as [|? before]; [discriminate E|]; cbn [app] in E; injection E as <- E).
      all: destruct before; discriminate E. }
    subst before. unfold restore_step.
    repeat match goal with
    | |- context [if shas ?x ob then _ else _] =>
        rewrite (absent x ob (No x ltac:(cbn [firstn ranked In]; tauto)))
    end.
    assert (P : shas OBJECT ob = true).
    { unfold shas. destruct (sget OBJECT ob) eqn:Q; [reflexivity|]. apply sget_None in Q. contradiction. }
    rewrite P. reflexivity. }
  assert (C' : counts (u "py/object") (without_behind ob)).
  { destruct C as (before & after & E & I & No). exists before, after. split; [exact E|]. split.
    - destruct (in_dec (list_eq_dec N.eq_dec) (u "py/object") (map fst (without_behind ob))) as [|N]; [assumption|].
      apply sget_None in N. rewrite not_behind_sget in N by reflexivity. congruence.
    - intros x Ix H. apply (No x Ix). clear - H. unfold without_behind in H. apply in_map_iff in H.
      destruct H as (e & <- & H). apply filter_In in H. apply in_map. tauto. }
  rewrite (O ob C), (O _ C'). unfold restore_object, jfield.
  rewrite (not_behind_sget OBJECT) by reflexivity. change (sget OBJECT ob = Some (JStr name)) in G. rewrite G.
  apply (bind_post (fun v => v = VType c)).
  - intros a s' E. unfold u_loadclass, bind, gets in E. rewrite LC in E.
    cbn in E. destruct (from_classes (u_classes s) name); injection E as <- _; reflexivity.
  - intros v s' ->. rewrite R. symmetry. apply instance_behind. exact Bl.
Qed.

(** C81 for objects: the tags behind py/object are ignored, shown at the top of the document, for a class that is
    found, has no handler, and of which blank instances can be made. *)
Theorem C81_object :
  forall w o n cl text text' ob name c s, loads text = Some (JObj ob) -> loads text' = Some (JObj (without_behind ob)) ->
  counts (u "py/object") ob -> sget (u "py/object") ob = Some (JStr name) ->
  loadclass w (match cl with Some a => register_classes w a [] | None => [] end) (JStr name) = Ret (VType c) ->
  reg_lookup (w_sub w) (w_reg w) c name = None -> w_blank w c = true ->
  decode w o n cl text s = decode w o n cl text' s.
Proof.
  intros w o n cl text text' ob name c s L L' C G LC R Bl. unfold decode. rewrite L, L'.
  apply bind_ext; [|reflexivity]. unfold unpickle.
  set (T := match cl with Some a => register_classes w a [] | None => [] end) in *.
  set (s1 := mkUst (u_heap s) [] [] (u_prox s) [] T (u_log s)).
  assert (X : forall (f : unit -> MU val), bind u_reset (fun _ => bind (match cl with
      | Some c => modify (fun s => us_classes (register_classes w c (u_classes s)) s) | None => ret tt end) f) s = f tt s1)
    by (intros f; unfold s1, T; destruct cl; reflexivity).
  rewrite !X. apply bind_ext; [|reflexivity].
  destruct n as [|n]; [reflexivity|]. cbn [restore].
  apply (step_object w o (restore w o n) ob name c s1); auto.
Qed.
Print Assumptions C81_object.

Definition c81_ob : jobj :=
  [(u "py/type", JStr (u "m.Other")); (u "py/object", JStr (u "m.Node")); (u "a", JInt 1);
   (u "py/reduce", JList [JObj [(u "py/function", JStr (u "os.system"))]])].
Example C81_object_case :
  loads (dumps (JObj c81_ob)) = Some (JObj c81_ob) /\
  without_behind c81_ob = [(u "py/object", JStr (u "m.Node")); (u "a", JInt 1)] /\
  loads (dumps (JObj (without_behind c81_ob))) = Some (JObj (without_behind c81_ob)) /\
  counts (u "py/object") c81_ob /\ loadclass W0 [] (JStr (u "m.Node")) = Ret (VType cNode) /\
  reg_lookup (w_sub W0) (w_reg W0) cNode (u "m.Node") = None /\ w_blank W0 cNode = true /\
  exists l i s', decode W0 UO (length (dumps (JObj c81_ob))) None (dumps (JObj c81_ob)) (new_unpickler []) = (Ret (VLoc l), s') /\
    hget (u_heap s') l = Some (OInst i) /\ i_cls i = cNode.
Proof.
  split; [vm_compute; reflexivity|]. split; [vm_compute; reflexivity|]. split; [vm_compute; reflexivity|].
  split; [exists (firstn 7 ranked), (skipn 8 ranked); split; [reflexivity|]; split; [right; left; reflexivity|];
          cbn; intros x H; intuition subst; discriminate|].
  split; [vm_compute; reflexivity|]. split; [vm_compute; reflexivity|]. split; [reflexivity|].
  do 3 eexists. split; [vm_compute; reflexivity|]. split; vm_compute; reflexivity.
Qed.

Lemma step_type w o rec ob name v s : counts (u "py/type") ob -> sget (u "py/type") ob = Some (JStr name) ->
  loadclass w (u_classes s) (JStr name) = Ret v -> v <> VNone ->
  restore_step w o rec (JObj ob) s = restore_step w o rec (JObj [(u "py/type", JStr name)]) s.
Proof.
  intros C G LC Nv.
  assert (O : restore_step w o rec (JObj ob) s = restore_type w ob s).
  { destruct C as (before & after & E & I & No).
    assert (Eb : before = firstn 8 ranked).
    { clear - E. do 8 (destruct before as [|? before]; [discriminate E|]; cbn [app] in E; injection E as <- E).
      destruct before as [|? before]; [reflexivity|]. injection E as <- E.
      exfalso. cbn in E. repeat (destruct before as [|? before]; [discriminate E|]; cbn [app] in E; injection E as <- E).
      all: destruct before; discriminate E. }
    subst before. unfold restore_step.
    repeat match goal with
    | |- context [if shas ?x ob then _ else _] =>
        rewrite (absent x ob (No x ltac:(cbn [firstn ranked In]; tauto)))
    end.
    assert (P : shas TYPE_ ob = true).
    { unfold shas. change TYPE_ with (u "py/type"). rewrite G. reflexivity. }
    rewrite P. reflexivity. }
  rewrite O. transitivity (restore_type w [(TYPE_, JStr name)] s); [|reflexivity].
  unfold restore_type, jfield. change (sget TYPE_ ob = Some (JStr name)) in G. rewrite G.
  change (sget TYPE_ [(TYPE_, JStr name)]) with (Some (JStr name)).
  apply (bind_post (fun x => x = v)).
  - intros a s' E. unfold u_loadclass, bind, gets in E. rewrite LC in E.
    cbn in E. destruct (from_classes (u_classes s) name); injection E as <- _; reflexivity.
  - intros x s' ->. destruct v; try reflexivity. contradiction.
Qed.

(** C81 for types: with a name that is found, everything beside py/type is ignored, shown at the top of the document. *)
Theorem C81_type :
  forall w o n cl text text' ob name v s, loads text = Some (JObj ob) ->
  loads text' = Some (JObj [(u "py/type", JStr name)]) ->
  counts (u "py/type") ob -> sget (u "py/type") ob = Some (JStr name) ->
  loadclass w (match cl with Some a => register_classes w a [] | None => [] end) (JStr name) = Ret v -> v <> VNone ->
  decode w o n cl text s = decode w o n cl text' s.
Proof.
  intros w o n cl text text' ob name v s L L' C G LC Nv. unfold decode. rewrite L, L'.
  apply bind_ext; [|reflexivity]. unfold unpickle.
  set (T := match cl with Some a => register_classes w a [] | None => [] end) in *.
  set (s1 := mkUst (u_heap s) [] [] (u_prox s) [] T (u_log s)).
  assert (X : forall (f : unit -> MU val), bind u_reset (fun _ => bind (match cl with
      | Some c => modify (fun s => us_classes (register_classes w c (u_classes s)) s) | None => ret tt end) f) s = f tt s1)
    by (intros f; unfold s1, T; destruct cl; reflexivity).
  rewrite !X. apply bind_ext; [|reflexivity].
  destruct n as [|n]; [reflexivity|]. cbn [restore].
  apply (step_type w o (restore w o n) ob name v s1); auto.
Qed.
Print Assumptions C81_type.
Definition c81_ty : jobj :=
  [(u "py/mod", JStr (u "os/os")); (u "py/type", JStr (u "m.Node")); (u "py/function", JStr (u "os.system"))].
Example C81_type_case :
  loads (dumps (JObj c81_ty)) = Some (JObj c81_ty) /\ counts (u "py/type") c81_ty /\
  loadclass W0 [] (JStr (u "m.Node")) = Ret (VType cNode) /\
  fst (decode W0 UO (length (dumps (JObj c81_ty))) None (dumps (JObj c81_ty)) (new_unpickler [])) = Ret (VType cNode).
Proof.
  split; [vm_compute; reflexivity|].
  split; [exists (firstn 8 ranked), (skipn 9 ranked); split; [reflexivity|]; split; [right; left; reflexivity|];
          cbn; intros x H; intuition subst; discriminate|].
  split; vm_compute; reflexivity.
Qed.

(** Not so for py/type: if there is no such class the whole object is returned as a dict. *)
Theorem C81_type_refuted :
  exists ob v text text', counts (u "py/type") ob /\ NoDup (map fst ob) /\ In (u "py/type", v) ob /\
    loads text = Some (JObj ob) /\ loads text' = Some (JObj [(u "py/type", v)]) /\
    exists l s1 l' s2, decode W0 UO (length text) None text (new_unpickler []) = (Ret (VLoc l), s1) /\
      decode W0 UO (length text) None text' (new_unpickler []) = (Ret (VLoc l'), s2) /\
      hget (u_heap s1) l <> hget (u_heap s2) l'.
Proof.
  exists [(u "py/type", JStr (u "no.Such")); (u "a", JInt 1)], (JStr (u "no.Such")).
  exists (dumps (JObj [(u "py/type", JStr (u "no.Such")); (u "a", JInt 1)])).
  exists (dumps (JObj [(u "py/type", JStr (u "no.Such"))])).
  split; [exists (firstn 8 ranked), (skipn 9 ranked); split; [reflexivity|]; split; [left; reflexivity|];
          cbn; intros x H; intuition subst; discriminate|].
  split; [repeat constructor; cbn; intuition discriminate|]. split; [left; reflexivity|].
  split; [vm_compute; reflexivity|]. split; [vm_compute; reflexivity|].
  do 4 eexists. split; [vm_compute; reflexivity|]. split; [vm_compute; reflexivity|]. vm_compute. discriminate.
Qed.
Print Assumptions C81_type_refuted.
