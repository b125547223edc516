(** Documents that name nothing decode to built-in data without running code (C72). *)
From Verif Require Import PyStr Tags Json JsonText B64 B85 Base Heap Registry LoadClass Unpickler UGen RestoreProofs CongProofs SpecNames SpecTame NameProofs.
Open Scope nat_scope.
Open Scope monad_scope.

Lemma data_tuple n l : data n (VTuple l) <-> Forall (data n) l.
Proof.
  induction l as [|x l IH]; [split; intros; [constructor|exact I]|].
  change (data n (VTuple (x :: l))) with (data n x /\ data n (VTuple l)). rewrite IH. split.
  - intros [A B]. constructor; auto.
  - intros F. inversion F; auto.
Qed.

Section tame.
  Variables (w : world) (o : uopts) (h0 : heap).
  Notation n0 := (length h0).
  Definition sw_data (x : swap) : Prop := data n0 (sw_obj x) /\ data n0 (sw_key x) /\ sw_method x = SetValue /\ data n0 (sw_proxy x).
  Record Inv (s : ust) : Prop := {
    inv_len : n0 <= length (u_heap s);
    inv_heap : only_data h0 (u_heap s);
    inv_objs : Forall (data n0) (u_objs s);
    inv_prox : forall v, In (Some v) (u_prox s) -> data n0 v;
    inv_swaps : Forall sw_data (u_swaps s) }.
  Definition tri {A} (m : MU A) (Q : A -> Prop) : Prop :=
    forall s, Inv s -> Inv (snd (m s)) /\ u_log (snd (m s)) = u_log s /\ (forall a, fst (m s) = Ret a -> Q a).

  Lemma t_ret A (a : A) (Q : A -> Prop) : Q a -> tri (ret a) Q.
  Proof. intros H s I. split; auto. split; auto. intros b E. inversion E; subst; auto. Qed.
  Lemma t_raise A e (Q : A -> Prop) : tri (raise e) Q.
  Proof. intros s I. split; auto. split; auto. discriminate. Qed.
  Lemma t_bind A B (m : MU A) (f : A -> MU B) (Q : A -> Prop) (R : B -> Prop) :
    tri m Q -> (forall a, Q a -> tri (f a) R) -> tri (bind m f) R.
  Proof.
    intros H F s I. destruct (H s I) as (I1 & L1 & Q1). unfold bind. destruct (m s) as [[a|e|] s1]; cbn [fst snd] in *.
    - destruct (F a (Q1 a eq_refl) s1 I1) as (I2 & L2 & Q2). split; auto. split; auto. congruence.
    - split; auto. split; auto. discriminate.
    - split; auto. split; auto. discriminate.
  Qed.
  Lemma t_catch A (m : MU A) p h (Q : A -> Prop) : tri m Q -> (forall e, tri (h e) Q) -> tri (catch m p h) Q.
  Proof.
    intros H F s I. destruct (H s I) as (I1 & L1 & Q1). unfold catch. destruct (m s) as [[a|e|] s1]; cbn [fst snd] in *; auto.
    destruct (p e); [|split; auto].
    destruct (F e s1 I1) as (I2 & L2 & Q2). split; auto. split; auto. congruence.
  Qed.
  Lemma t_lift A (r : res A) (Q : A -> Prop) : (forall a, r = Ret a -> Q a) -> tri (lift r) Q.
  Proof. intros H s I. split; auto. Qed.
  Lemma t_mapM A B (f : A -> MU B) l (Q : B -> Prop) : (forall x, In x l -> tri (f x) Q) -> tri (mapM f l) (Forall Q).
  Proof.
    induction l as [|x l IH]; intros H; simpl; [apply t_ret; constructor|].
    eapply t_bind; [apply H; left; auto|]. intros a Qa.
    eapply t_bind; [apply IH; intros; apply H; right; auto|]. intros b Qb. apply t_ret. constructor; auto.
  Qed.
  Lemma t_foldM A B (f : B -> A -> MU B) l (Q : B -> Prop) : (forall b x, In x l -> Q b -> tri (f b x) Q) ->
    forall b, Q b -> tri (foldM f l b) Q.
  Proof.
    induction l as [|x l IH]; intros H b Qb; simpl; [apply t_ret; auto|].
    eapply t_bind; [apply H; auto; left; auto|]. intros a Qa. apply IH; auto. intros; apply H; auto; right; auto.
  Qed.
  Lemma t_weak A (m : MU A) (Q R : A -> Prop) : (forall a, Q a -> R a) -> tri m Q -> tri m R.
  Proof. intros H T s I. destruct (T s I) as (A1 & A2 & A3). split; auto. Qed.

  Lemma t_alloc ob : data_obj n0 ob -> tri (alloc ob) (data n0).
  Proof.
    intros D s I. destruct I as [I1 [I2 I2'] I3 I4 I5]. unfold alloc. cbn [fst snd]. split; [|split; auto].
    - split; cbn; auto. { rewrite app_length. lia. }
      split; intros l.
      + intros L. rewrite hget_app_old by lia. auto.
      + intros ob' L G. destruct (Nat.eq_dec l (length (u_heap s))) as [->|N].
        * rewrite hget_app_new in G. inversion G; subst; auto.
        * apply hget_lt in G as G'. rewrite app_length in G'. cbn in G'. rewrite hget_app_old in G by lia. eauto.
    - intros a E. inversion E; subst. cbn. lia.
  Qed.
  Lemma t_set_obj l ob : n0 <= l -> data_obj n0 ob -> tri (set_obj l ob) (fun _ => True).
  Proof.
    intros L D s I. destruct I as [I1 [I2 I2'] I3 I4 I5]. unfold set_obj, modify. cbn [fst snd]. split; [|split; auto].
    split; cbn; auto. { rewrite hset_length. auto. }
    split; intros k.
    - intros K. rewrite hget_hset_other by lia. auto.
    - intros ob' K G. destruct (Nat.eq_dec l k) as [->|N].
      + apply hget_lt in G as G'. rewrite hset_length in G'. rewrite hget_hset_same in G by auto. inversion G; subst; auto.
      + rewrite hget_hset_other in G by auto. eauto.
  Qed.
  Lemma t_get_uobj l : n0 <= l -> tri (get_uobj l) (data_obj n0).
  Proof.
    intros L s I. unfold get_uobj, bind, gets. cbn. destruct (hget (u_heap s) l) as [ob|] eqn:E; cbn.
    - split; auto. split; auto. intros a [= <-]. eapply (inv_heap s I); eauto.
    - split; auto. split; auto. discriminate.
  Qed.
  Lemma t_umkref v : data n0 v -> tri (umkref v) (data n0).
  Proof.
    intros D s I. unfold umkref. destruct (idx_get v (u_idx s)); cbn [fst snd].
    - split; auto. split; auto. intros a [= <-]; auto.
    - split; [|split; auto; intros a [= <-]; auto]. destruct I as [I1 I2 I3 I4 I5]. split; cbn; auto.
      apply Forall_app. split; auto.
  Qed.
  Lemma t_new_proxy : tri new_proxy (fun v => exists n, v = VProxy n).
  Proof.
    intros s I. unfold new_proxy. cbn [fst snd]. split; [|split; auto; intros a [= <-]; eauto].
    destruct I as [I1 I2 I3 I4 I5]. split; cbn; auto. intros v J. apply in_app_or in J. destruct J as [J|[J|[]]]; auto. discriminate.
  Qed.
  Lemma list_set_In A (l : list A) n x y : In y (list_set l n x) -> y = x \/ In y l.
  Proof.
    revert n; induction l as [|a l IH]; intros n; simpl; auto. destruct n; simpl; intros [H|H]; auto.
    apply IH in H. tauto.
  Qed.
  Lemma t_proxy_reset p v : data n0 v -> tri (proxy_reset p v) (fun _ => True).
  Proof.
    intros D. destruct p; cbn [proxy_reset]; try apply t_raise. intros s I. unfold modify. cbn [fst snd].
    split; [|split; auto]. destruct I as [I1 I2 I3 I4 I5]. split; cbn; auto.
    intros x J. apply list_set_In in J. destruct J as [[= ->]|J]; auto.
  Qed.
  Lemma t_swapref p v : data n0 v -> tri (swapref p v) (fun _ => True).
  Proof.
    intros D s I. unfold swapref. destruct (idx_get p (u_idx s)); cbn [fst snd]; [|split; auto].
    split; [|split; auto]. destruct I as [I1 I2 I3 I4 I5]. split; cbn; auto.
    apply Forall_forall. intros x J. apply list_set_In in J. destruct J as [->|J]; auto. rewrite Forall_forall in I3. auto.
  Qed.
  Lemma t_add_swaps l : Forall sw_data l -> tri (modify (fun s => us_swaps (u_swaps s ++ l) s)) (fun _ => True).
  Proof.
    intros D s I. unfold modify. cbn [fst snd]. split; [|split; auto]. destruct I as [I1 I2 I3 I4 I5]. split; cbn; auto.
    apply Forall_app. auto.
  Qed.
  Lemma t_heap : tri (gets u_heap) (only_data h0).
  Proof. intros s I. split; auto. split; auto. intros a [= <-]. apply I. Qed.
  Lemma py_index_In A (l : list A) z x : py_index l z = Some x -> In x l.
  Proof.
    unfold py_index. destruct (0 <=? z)%Z; [apply nth_error_In|].
    destruct (0 <=? _)%Z; [apply nth_error_In|discriminate].
  Qed.
  Lemma dset_data k v d : data n0 k -> data n0 v -> data_obj n0 (ODict d) -> data_obj n0 (ODict (dset k v d)).
  Proof.
    intros K V. cbn [data_obj]. induction d as [|[k' v'] d IH]; simpl; intros F; [constructor; auto|].
    inversion F as [|? ? [A B] F']; subst. destruct (key_eqb k k'); constructor; auto.
  Qed.
  Lemma set_add_data v l : data n0 v -> Forall (data n0) l -> Forall (data n0) (set_add v l).
  Proof. intros D F. unfold set_add. destruct (existsb _ l); auto. apply Forall_app. auto. Qed.

  Section step.
    Variable rec : json -> MU val.
    Variable top : json.
    Hypothesis t_rec : forall j, part j top -> tri (rec j) (data n0).

    Lemma list_swaps_data p vs : data n0 p -> Forall (data n0) vs -> Forall sw_data (list_swaps p vs).
    Proof.
      intros P. unfold list_swaps. generalize 0%Z. induction vs as [|v vs IH]; intros z F; [constructor|].
      inversion F; subst. apply Forall_app. split; [|apply IH; auto].
      destruct (is_proxy v); constructor; auto. split; auto. split; [exact I|]. split; auto.
    Qed.
    Lemma t_restore_list j : (forall l x, jiter j = Ret l -> In x l -> part x top) -> tri (restore_list rec j) (data n0).
    Proof.
      intros H. unfold restore_list.
      eapply t_bind; [apply t_alloc; constructor|]. intros p P.
      eapply t_bind; [apply t_umkref; auto|]. intros _ _.
      eapply t_bind; [apply t_lift; intros l E; exact E|]. cbv beta. intros l E.
      eapply t_bind with (Q := Forall (data n0)); [apply t_mapM; intros x J; apply t_rec; eapply H; eauto|]. intros vs V.
      eapply t_bind with (Q := fun _ => True); [destruct p; try (apply t_ret; auto); apply t_set_obj; auto|]. intros _ _.
      eapply t_bind; [apply t_add_swaps, list_swaps_data; auto|]. intros _ _. apply t_ret; auto.
    Qed.
    Lemma t_oiter v : data n0 v -> tri (match v with VLoc l => alloc (OIter l) | _ => raise EUnmodelled end) (data n0).
    Proof. intros D. destruct v; try apply t_raise. apply t_alloc. exact D. Qed.
    Lemma t_iterator ob : JObj ob = top -> tri (restore_iterator rec ob) (data n0).
    Proof.
      intros T. unfold restore_iterator. apply t_catch.
      - eapply t_bind; [apply t_restore_list; intros; eapply jfield_part; eauto|]. intros v V. apply t_oiter, V.
      - intros _. eapply t_bind; [apply t_alloc; constructor|]. intros v V. apply t_oiter, V.
    Qed.
    Lemma t_set ob : JObj ob = top -> tri (restore_set w rec ob) (data n0).
    Proof.
      intros T. unfold restore_set. apply t_catch; [|intros _; apply t_alloc; constructor].
      eapply t_bind; [apply t_lift; intros l E; exact E|]. cbv beta. intros l E.
      eapply t_bind; [|intros xs X; apply t_alloc; exact X].
      apply t_foldM; [|constructor]. intros acc x J A.
      eapply t_bind; [apply t_rec; eapply jfield_part; eauto|]. intros v V.
      eapply t_bind; [apply t_heap|]. intros h _. destruct (hashable _ h v); [|apply t_raise].
      apply t_ret. apply set_add_data; auto.
    Qed.
    Lemma t_tuple ob : JObj ob = top -> tri (restore_tuple rec ob) (data n0).
    Proof.
      intros T. unfold restore_tuple. apply t_catch; [|intros _; apply t_ret; exact I].
      eapply t_bind; [apply t_lift; intros l E; exact E|]. cbv beta. intros l E.
      eapply t_bind with (Q := Forall (data n0)); [apply t_mapM; intros x J; apply t_rec; eapply jfield_part; eauto|].
      intros xs X. apply t_ret. apply data_tuple. exact X.
    Qed.
    Lemma t_pickled key : (prefixb JSON_KEY key = true -> forall j, loads (skipn (length JSON_KEY) key) = Some j -> part j top) ->
      tri (restore_pickled_key rec key) (data n0).
    Proof.
      intros H. unfold restore_pickled_key. destruct (prefixb JSON_KEY key); [|apply t_ret; exact I].
      destruct (loads _); [auto|apply t_raise].
    Qed.
    Lemma t_dict_assign l key v : n0 <= l -> data n0 key -> data n0 v -> tri (dict_assign w l key v) (fun _ => True).
    Proof.
      intros L K V. unfold dict_assign. eapply t_bind; [apply t_get_uobj; auto|]. intros ob D.
      eapply t_bind; [apply t_heap|]. intros h _. destruct ob; try apply t_raise.
      destruct (hashable _ h key); [|apply t_raise]. apply t_set_obj; auto. apply dset_data; auto.
    Qed.
    Lemma t_swap_if t key v : data n0 t -> data n0 key -> data n0 v -> tri (swap_if_proxy t key v SetValue) (fun _ => True).
    Proof.
      intros T K V. unfold swap_if_proxy. destruct (is_proxy v); [|apply t_ret; auto].
      apply t_add_swaps. constructor; auto. split; auto.
    Qed.
    Lemma t_dict ob : JObj ob = top -> tri (restore_dict w o rec ob) (data n0).
    Proof.
      intros T. pose proof (within_self top ob T) as PT. unfold restore_dict.
      eapply t_bind; [apply t_alloc; constructor|]. intros dv D.
      eapply t_bind with (Q := fun _ => True).
      { destruct (uo_v1 o); [apply t_ret; auto|]. eapply t_bind; [apply t_umkref; auto|]. intros. apply t_ret; auto. }
      intros _ _. destruct dv; try apply t_raise.
      eapply t_bind with (Q := fun _ => True); [|intros; apply t_ret; auto].
      assert (V : forall kv, In kv ob -> tri (rec (snd kv)) (data n0)) by (intros kv J; apply t_rec; eapply within_snd; eauto).
      destruct (uo_keys o).
      - eapply t_bind with (Q := fun _ => True); [|intros _ _]; (apply t_foldM; [|exact I]); intros _ kv J _.
        + destruct (prefixb _ _); [apply t_ret; auto|]. eapply t_bind; [apply V; auto|]. intros v Dv. apply t_dict_assign; auto. exact I.
        + destruct (negb _); [apply t_ret; auto|].
          eapply t_bind; [apply t_pickled; intros; eapply within_key; eauto|]. intros key Dk.
          eapply t_bind; [apply V; auto|]. intros v Dv. eapply t_bind; [apply t_dict_assign; auto|]. intros _ _. apply t_swap_if; auto.
      - apply t_foldM; [|exact I]. intros _ kv J _.
        eapply t_bind; [apply V; auto|]. intros v Dv. eapply t_bind; [apply t_dict_assign; auto; exact I|]. intros _ _. apply t_swap_if; auto. exact I.
    Qed.
    Lemma t_base64 ob : tri (restore_base64 ob) (data n0).
    Proof. unfold restore_base64. destruct (sget B64 ob) as [[]|]; try apply t_raise; apply t_ret; exact I. Qed.
    Lemma t_base85 ob : tri (restore_base85 ob) (data n0).
    Proof. unfold restore_base85. destruct (sget B85 ob) as [[]|]; try apply t_raise; apply t_ret; exact I. Qed.
    Lemma t_bytearray ob : tri (restore_bytearray ob) (data n0).
    Proof.
      unfold restore_bytearray. destruct (sget BYTEARRAY ob) as [[]|]; try apply t_raise.
      eapply t_bind with (Q := fun _ => True).
      - eapply t_weak with (Q := data n0); auto. destruct (shas B85 _); auto using t_base64, t_base85.
      - intros v _. destruct v; try apply t_raise. apply t_alloc. exact I.
    Qed.
    Lemma t_id ob : tri (restore_id ob) (data n0).
    Proof.
      unfold restore_id. cbv zeta. eapply t_bind with (Q := Forall (data n0)).
      - intros s J. split; auto. split; auto. intros a [= <-]. apply J.
      - intros objs F.
        assert (G : forall z, tri (match py_index objs z with Some v => ret v | None => ret (VIDProxy z) end) (data n0)).
        { intros z. destruct (py_index objs z) eqn:E; apply t_ret; [|exact I]. apply py_index_In in E. rewrite Forall_forall in F. auto. }
        destruct (sget ID ob) as [[]|]; auto; apply t_ret; exact I.
    Qed.
    Lemma t_fail_reduce p : tri (fail_reduce p) (data n0).
    Proof.
      unfold fail_reduce. eapply t_bind; [apply t_alloc; constructor|]. intros v V.
      eapply t_bind; [apply t_proxy_reset; auto|]. intros _ _.
      eapply t_bind; [apply t_swapref; auto|]. intros _ _. apply t_ret; auto.
    Qed.
    (** nothing can be called or constructed *)
    Lemma t_reduce_make f args : data n0 f -> data n0 args -> tri (reduce_make w f args) (fun r => r = None).
    Proof.
      intros F A. unfold reduce_make. eapply t_bind; [apply t_heap|]. intros h [_ Hh].
      destruct (is_newobj w f).
      - eapply t_bind with (Q := fun p => data n0 (fst p)).
        + apply t_lift. intros [c r] E. destruct args as [| | | |s| |[|x l]| | | | |l| |]; try discriminate E.
          * destruct s; inversion E; exact I.
          * inversion E; subst. apply data_tuple in A. inversion A; auto.
          * cbn [val_head_tail] in E. destruct (hget h l) as [[[|x xs]| | | | |]|] eqn:G; try discriminate E.
            inversion E; subst. pose proof (Hh l _ A G) as D. inversion D; auto.
        + intros [c r] D. cbn [fst] in D. destruct c; try apply t_raise. destruct D.
      - assert (U : u_callable w h f = false).
        { destruct f; try reflexivity; try (destruct F; fail). cbn. destruct (hget h l) as [[]|] eqn:G; auto.
          pose proof (Hh l _ F G) as D. destruct D. }
        rewrite U. cbn [negb]. apply t_ret. reflexivity.
    Qed.
    Lemma t_reduce ob : JObj ob = top -> tri (restore_reduce w rec ob) (data n0).
    Proof.
      intros T. unfold restore_reduce. eapply t_bind; [apply t_new_proxy|]. intros p [n ->].
      eapply t_bind; [apply t_umkref; exact I|]. intros _ _.
      eapply t_bind with (Q := fun r => match r with Some vs => Forall (data n0) vs | None => True end).
      { apply t_catch; [|intros; apply t_ret; exact I]. eapply t_bind; [apply t_lift; intros l E; exact E|]. cbv beta. intros l E.
        eapply t_bind with (Q := Forall (data n0)); [apply t_mapM; intros x J; apply t_rec; eapply jfield_part; eauto|]. intros vs V. apply t_ret; auto. }
      intros [vs|] V; [|apply t_fail_reduce].
      assert (V' : Forall (data n0) (vs ++ repeat VNone (6 - length vs))).
      { apply Forall_app. split; auto. apply Forall_forall. intros x J. apply repeat_spec in J. subst. exact I. }
      destruct (vs ++ repeat VNone (6 - length vs)) as [|f [|a [|st [|li [|di [|se [|]]]]]]]; try apply t_raise.
      inversion V' as [|? ? F V2]; subst. inversion V2 as [|? ? A V3]; subst.
      eapply t_bind; [apply t_reduce_make; auto|]. intros r ->. apply t_fail_reduce.
    Qed.
    Lemma t_step_top j0 : j0 = top -> names_nothing j0 -> tri (restore_step w o rec j0) (data n0).
    Proof.
      intros T N. unfold restore_step. destruct j0 as [| | | | |l|ob]; try (apply t_ret; exact I).
      - apply t_restore_list. intros l' x E J. rewrite <- T. inversion E; subst. apply part_item; auto.
      - assert (K : forall t, In t [OBJECT; TYPE_; FUNCTION; MODULE; REPR] -> shas t ob = false).
        { intros t J. destruct (shas t ob) eqn:E; auto. exfalso. apply jfield_In in E.
          eapply (N ob t); [left; reflexivity|exact E|exact J]. }
        rewrite (K OBJECT), (K TYPE_), (K FUNCTION), (K MODULE), (K REPR) by (cbn [In]; auto 10).
        repeat match goal with |- tri (if ?b then _ else _) _ => case_eq b; intros ? end;
          auto using t_tuple, t_set, t_base64, t_base85, t_bytearray, t_id, t_iterator, t_reduce, t_dict.
    Qed.
  End step.
  Lemma names_nothing_part j d : part d j -> names_nothing j -> names_nothing d.
  Proof.
    intros P N ob t x I. apply N. destruct I as [->|I]; right; auto. eapply part_trans; eauto.
  Qed.
  Lemma t_restore : forall n j, names_nothing j -> tri (restore w o n j) (data n0).
  Proof.
    induction n as [|n IH]; intros j N; [intros s I; split; auto; split; auto; discriminate|].
    cbn [restore]. eapply t_step_top with (top := j); auto. intros d P. apply IH. eapply names_nothing_part; eauto.
  Qed.
  Lemma t_run_swap x : sw_data x -> tri (run_swap w x) (fun _ => True).
  Proof.
    intros (D1 & D2 & M & D3). unfold run_swap. rewrite M. eapply t_bind with (Q := data n0).
    - intros s I. split; auto. split; auto. intros a [= <-]. unfold proxy_get. destruct (sw_proxy x); auto; try exact Logic.I.
      + destruct (nth_error (u_prox s) n) as [[v|]|] eqn:E; try exact Logic.I. apply (inv_prox s I). eapply nth_error_In; eauto.
      + destruct (py_index (u_objs s) z) eqn:E; try exact Logic.I. apply py_index_In in E. pose proof (inv_objs s I) as F. rewrite Forall_forall in F. auto.
    - intros v V. destruct (sw_obj x) as [| | | | | | | | | | |l| |]; try apply t_raise.
      eapply t_bind; [apply t_get_uobj; exact D1|]. intros ob D. destruct ob; try apply t_raise.
      + destruct (sw_key x); try apply t_raise. destruct (_ && _); [|apply t_raise]. apply t_set_obj; auto.
        apply Forall_forall. intros y J. apply list_set_In in J. destruct J as [->|J]; auto. cbn in D. rewrite Forall_forall in D. auto.
      + apply t_set_obj; auto. apply dset_data; auto.
  Qed.
  Lemma t_swap_proxies : tri (swap_proxies w) (fun _ => True).
  Proof.
    unfold swap_proxies. eapply t_bind with (Q := Forall sw_data).
    - intros s I. split; auto. split; auto. intros a [= <-]. apply I.
    - intros l F. eapply t_bind with (Q := fun _ => True).
      + apply t_foldM; auto. intros _ x J _. apply t_run_swap. rewrite Forall_forall in F. auto.
      + intros _ _ s I. unfold modify. cbn [fst snd]. split; [|split; auto]. destruct I as [I1 I2 I3 I4 I5]. split; cbn; auto.
  Qed.
  Lemma t_reset : tri u_reset (fun _ => True).
  Proof.
    intros s I. unfold u_reset, modify. cbn [fst snd]. split; [|split; auto]. destruct I as [I1 I2 I3 I4 I5]. split; cbn; auto.
  Qed.
  Lemma t_decode n cl text j : loads text = Some j -> names_nothing j -> tri (decode w o n cl text) (data n0).
  Proof.
    intros L N. unfold decode. rewrite L. eapply t_bind with (Q := data n0).
    - unfold unpickle. eapply t_bind; [apply t_reset|]. intros _ _.
      eapply t_bind with (Q := fun _ => True).
      { destruct cl; [|apply t_ret; auto]. intros s I. unfold modify. cbn [fst snd]. split; [|split; auto]. destruct I as [I1 I2 I3 I4 I5]. split; cbn; auto. }
      intros _ _. eapply t_bind; [apply t_restore; auto|]. intros v V. eapply t_bind; [apply t_swap_proxies|]. intros _ _. apply t_ret; auto.
    - intros v V. eapply t_bind; [apply t_reset|]. intros _ _. apply t_ret; auto.
  Qed.
End tame.
