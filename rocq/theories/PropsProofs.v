(** decode does not look at py/property entries, nor at the place of the entries with tags. *)
From Verif Require Import PyStr Tags Json JsonText B64 B85 Base Heap Registry LoadClass Unpickler UGen RestoreProofs SpecProps.
From Coq Require Import List Permutation. Import ListNotations.
Open Scope nat_scope.
Open Scope monad_scope.

(** ** Computations that leave the table of classes alone *)
Definition keeps A (m : MU A) : Prop := forall s, u_classes (snd (m s)) = u_classes s.
Lemma k_ret A (a : A) : keeps A (ret a). Proof. intros s. reflexivity. Qed.
Lemma k_raise A e : keeps A (raise e). Proof. intros s. reflexivity. Qed.
Lemma k_oof w : (forall A, keeps A oof) \/ no_oof w. Proof. left. intros A s. reflexivity. Qed.
Lemma k_bind A B (m : MU A) (f : A -> MU B) : keeps A m -> (forall a s s', m s = (Ret a, s') -> keeps B (f a)) -> keeps B (bind m f).
Proof.
  intros Hm Hf s. unfold bind. pose proof (Hm s) as E. destruct (m s) as [[a|e|] s1] eqn:Em; cbn [snd] in *; auto.
  rewrite <- E. exact (Hf a s s1 Em s1).
Qed.
Lemma k_catch A (m : MU A) p h : (forall e, is_TypeError e || is_AttributeError e = false -> p e = false) \/ (forall s, u_log (snd (m s)) = u_log s) ->
  keeps A m -> (forall e, keeps A (h e)) -> keeps A (catch m p h).
Proof.
  intros _ Hm Hh s. unfold catch. pose proof (Hm s) as E. destruct (m s) as [[a|e|] s1]; cbn [snd] in *; auto.
  destruct (p e); auto. rewrite <- E. apply Hh.
Qed.
Lemma k_gets A (f : ust -> A) : (forall L s, f (us_log L s) = f s) -> keeps A (gets f). Proof. intros _ s. reflexivity. Qed.
Lemma k_log e : keeps unit (log e). Proof. intros s. reflexivity. Qed.
Lemma k_plog w o e : plain_event w o e -> (forall x, e <> EvRaise x) -> keeps unit (log e). Proof. intros _ _ s. reflexivity. Qed.
Lemma k_raised A e : keeps A (raised e). Proof. intros s. reflexivity. Qed.
Lemma k_loadclass w j : keeps val (u_loadclass w j).
Proof.
  intros s. unfold u_loadclass, bind, gets, lift. destruct j; try reflexivity.
  unfold log, modify, ret. cbn. destruct (from_classes (u_classes s) s0); reflexivity.
Qed.
Lemma k_alloc ob : keeps val (alloc ob). Proof. intros s. reflexivity. Qed.
Lemma k_raw j : keeps val (raw j). Proof. intros s. unfold raw. destruct (alloc_json j (u_heap s)). reflexivity. Qed.
Lemma k_set_heap h : keeps unit (modify (us_heap h)). Proof. intros s. reflexivity. Qed.
Lemma k_set_obj l ob : keeps unit (set_obj l ob). Proof. intros s. reflexivity. Qed.
Lemma k_umkref v : keeps val (umkref v). Proof. intros s. unfold umkref. destruct (idx_get v (u_idx s)); reflexivity. Qed.
Lemma k_new_proxy : keeps val new_proxy. Proof. intros s. reflexivity. Qed.
Lemma k_set_prox n v : keeps unit (modify (fun s => us_prox (list_set (u_prox s) n v) s)). Proof. intros s. reflexivity. Qed.
Lemma k_swapref p v : keeps unit (swapref p v). Proof. intros s. unfold swapref. destruct (idx_get p (u_idx s)); reflexivity. Qed.
Lemma k_add_swaps l : keeps unit (modify (fun s => us_swaps (u_swaps s ++ l) s)). Proof. intros s. reflexivity. Qed.
#[local] Hint Resolve k_ret k_raise k_oof k_bind k_catch k_gets k_log k_plog k_raised k_loadclass k_alloc k_raw k_set_heap k_set_obj
  k_umkref k_new_proxy k_set_prox k_swapref k_add_swaps : kp.
Section keep.
  Variables (w : world) (o : uopts).
  Lemma restore_keeps : forall n j, keeps val (restore w o n j).
  Proof.
    induction n as [|n IH]; intros j; [intros s; reflexivity|].
    cbn [restore]. apply (P_step w o keeps (fun _ => True)) with (sm := fun _ _ => True); auto with kp.
    - intros. apply script_any.
  Qed.
  Lemma k_dict_assign l a b : keeps _ (dict_assign w l a b). Proof. eapply P_dict_assign; eauto with kp. Unshelve. all: exact o || exact w || exact JNull || exact (fun _ => True) || exact (fun _ => raise ETypeError). Qed.
  Lemma k_swap_if t key v m : keeps _ (swap_if_proxy t key v m). Proof. eapply P_swap_if_proxy; eauto with kp. Unshelve. all: exact o || exact w || exact JNull || exact (fun _ => True) || exact (fun _ => raise ETypeError). Qed.
  Lemma k_set_one a b c : keeps _ (set_one w o a b c). Proof. eapply P_set_one; eauto with kp. Unshelve. all: exact o || exact w || exact JNull || exact (fun _ => True) || exact (fun _ => raise ETypeError). Qed.
  Lemma k_do_append t v : keeps _ (do_append t v). Proof. eapply P_do_append; eauto with kp. Unshelve. all: exact o || exact w || exact JNull || exact (fun _ => True) || exact (fun _ => raise ETypeError). Qed.
  Lemma k_do_add t v : keeps _ (do_add w t v). Proof. eapply P_do_add; eauto with kp. Unshelve. all: exact o || exact w || exact JNull || exact (fun _ => True) || exact (fun _ => raise ETypeError). Qed.
  Lemma k_setstate a b c d : keeps _ (call_setstate w a b c d). Proof. eapply P_call_setstate; eauto with kp. Unshelve. all: exact o || exact w || exact JNull || exact (fun _ => True) || exact (fun _ => raise ETypeError). Qed.
  Lemma k_default_state a b : keeps _ (default_state w o a b). Proof. eapply P_default_state; eauto with kp. Unshelve. all: exact o || exact w || exact JNull || exact (fun _ => True) || exact (fun _ => raise ETypeError). Qed.
  Lemma k_fresh a b : keeps _ (fresh_inst w a b). Proof. eapply P_fresh_inst; eauto with kp. Unshelve. all: exact o || exact w || exact JNull || exact (fun _ => True) || exact (fun _ => raise ETypeError). Qed.
  Lemma k_call a b : keeps _ (do_call w a b). Proof. eapply P_do_call; eauto with kp. Unshelve. all: exact o || exact w || exact JNull || exact (fun _ => True) || exact (fun _ => raise ETypeError). Qed.
  Lemma k_set_attr a b c : keeps _ (set_attr w a b c). Proof. eapply P_set_attr; eauto with kp. Unshelve. all: exact o || exact w || exact JNull || exact (fun _ => True) || exact (fun _ => raise ETypeError). Qed.
  Lemma k_proxy_reset a b : keeps _ (proxy_reset a b). Proof. eapply P_proxy_reset; eauto with kp. Unshelve. all: exact o || exact w || exact JNull || exact (fun _ => True) || exact (fun _ => raise ETypeError). Qed.
  Lemma k_process_missing n : keeps _ (process_missing o n). Proof. apply (P_process_missing w o keeps (fun _ => True)); auto with kp. exists [(OBJECT, JStr n)]. simpl. auto. Qed.
  Lemma k_do_new a b c : keeps _ (do_new w a b c). Proof. eapply P_do_new; eauto with kp. Unshelve. all: exact o || exact w || exact (fun _ => True). Qed.
  Lemma k_lift A (r : res A) : keeps _ (lift r). Proof. intros s. reflexivity. Qed.
  Lemma k_new_attempt a b c d : keeps _ (new_attempt w a b c d).
  Proof.
    unfold new_attempt. apply k_bind; [apply k_lift|intros]. apply k_bind; [apply k_lift|intros].
    apply k_bind; [destruct b; [intros z; reflexivity|apply k_ret]|intros].
    destruct b as [v|]; [match goal with |- keeps _ (if ?x then _ else _) => destruct x end|]; try apply k_do_new.
    apply k_bind; [apply k_do_new|intros]. apply k_bind; [apply k_set_attr|intros]. apply k_ret.
  Qed.
  Lemma k_reduce_make a b : keeps _ (reduce_make w a b). Proof. eapply P_reduce_make; eauto with kp. Unshelve. all: exact o || exact w || exact JNull || exact (fun _ => True) || exact (fun _ => raise ETypeError). Qed.
  Lemma k_fail_reduce a : keeps _ (fail_reduce a). Proof. eapply P_fail_reduce; eauto with kp. Unshelve. all: exact o || exact w || exact JNull || exact (fun _ => True) || exact (fun _ => raise ETypeError). Qed.
  Lemma k_reduce_state a b c : keeps _ (reduce_state w a b c). Proof. eapply P_reduce_state; eauto with kp. Unshelve. all: exact o || exact w || exact JNull || exact (fun _ => True) || exact (fun _ => raise ETypeError). Qed.
  Lemma k_listitems a b : keeps _ (reduce_listitems w a b). Proof. eapply P_listitems; eauto with kp. Unshelve. all: exact o || exact w || exact JNull || exact (fun _ => True) || exact (fun _ => raise ETypeError). Qed.
  Lemma k_dictitems a b : keeps _ (reduce_dictitems w a b). Proof. eapply P_dictitems; eauto with kp. Unshelve. all: exact o || exact w || exact JNull || exact (fun _ => True) || exact (fun _ => raise ETypeError). Qed.
End keep.

(** ** Runs on two documents *)
Definition attr_entries (ob : jobj) : jobj := filter (fun kv => negb (is_reserved (fst kv))) ob.
(** The entries of the second object: those of the first one with one of py/property in front, or in
    another order, which does not change that of the entries without tags. *)
Definition moved (ob ob2 : jobj) : Prop :=
  (exists p, ob2 = (PROPERTY, p) :: ob) \/ NoDup (map fst ob) /\ Permutation ob ob2 /\ attr_entries ob = attr_entries ob2.
Inductive alike (w : world) (cl : list (pystr * val)) : json -> json -> Prop :=
| al_same j : alike w cl j j
| al_list l l' : Forall2 (alike w cl) l l' -> alike w cl (JList l) (JList l')
| al_obj ob ob' : plain_part w cl ob -> Forall2 (alike_entry w cl) ob ob' -> alike w cl (JObj ob) (JObj ob')
| al_moved ob ob' ob2 : plain_part w cl ob -> has_owner ob -> Forall2 (alike_entry w cl) ob ob' -> moved ob' ob2 ->
    alike w cl (JObj ob) (JObj ob2)
| al_step ob ob2 : ob <> [] -> ob2 <> [] ->
    (forall o rec s, u_classes s = cl -> restore_step w o rec (JObj ob) s = restore_step w o rec (JObj ob2) s) ->
    alike w cl (JObj ob) (JObj ob2)
with alike_entry (w : world) (cl : list (pystr * val)) : pystr * json -> pystr * json -> Prop :=
| ae_list t l l' : Forall2 (alike w cl) l l' -> alike_entry w cl (t, JList l) (t, JList l')
| ae_other t j j' : smem t list_tags = false \/ j = j' -> alike w cl j j' -> alike_entry w cl (t, j) (t, j').
Fixpoint props_alike w cl j j' (H : with_props w cl j j') : alike w cl j j' :=
  match H with
  | wp_same _ _ j => al_same w cl j
  | wp_list _ _ l l' F => al_list w cl l l' ((fix go l l' (F : Forall2 (with_props w cl) l l') : Forall2 (alike w cl) l l' :=
      match F with Forall2_nil _ => Forall2_nil _ | Forall2_cons x y a r => Forall2_cons x y (props_alike w cl x y a) (go _ _ r) end) l l' F)
  | wp_obj _ _ ob ob' P F => al_obj w cl ob ob' P ((fix go l l' (F : Forall2 (entry_props w cl) l l') : Forall2 (alike_entry w cl) l l' :=
      match F with Forall2_nil _ => Forall2_nil _ | Forall2_cons x y a r => Forall2_cons x y (entry_alike w cl x y a) (go _ _ r) end) ob ob' F)
  | wp_prop _ _ p ob ob' P Ho F => al_moved w cl ob ob' _ P Ho ((fix go l l' (F : Forall2 (entry_props w cl) l l') : Forall2 (alike_entry w cl) l l' :=
      match F with Forall2_nil _ => Forall2_nil _ | Forall2_cons x y a r => Forall2_cons x y (entry_alike w cl x y a) (go _ _ r) end) ob ob' F)
      (or_introl (ex_intro _ p eq_refl))
  end
with entry_alike w cl e e' (H : entry_props w cl e e') : alike_entry w cl e e' :=
  match H with
  | ep_list _ _ t l l' F => ae_list w cl t l l' ((fix go l l' (F : Forall2 (with_props w cl) l l') : Forall2 (alike w cl) l l' :=
      match F with Forall2_nil _ => Forall2_nil _ | Forall2_cons x y a r => Forall2_cons x y (props_alike w cl x y a) (go _ _ r) end) l l' F)
  | ep_other _ _ t j j' D W => ae_other w cl t j j' D (props_alike w cl j j' W)
  end.
Lemma sget_perm t (a b : jobj) : NoDup (map fst a) -> Permutation a b -> sget t a = sget t b.
Proof.
  intros N P. revert N. induction P as [|[k v] a b P IH|[k v] [k' v'] a|a b c P1 IH1 P2 IH2]; intros N; auto.
  - cbn [map fst] in N. inversion N; subst. cbn [sget]. rewrite IH; auto.
  - cbn [map fst] in N. inversion N as [|? ? N1 N2]; subst. cbn [sget]. destruct (seqb_spec t k') as [E1|], (seqb_spec t k) as [E2|]; auto. destruct N1. left. congruence.
  - rewrite IH1 by auto. apply IH2. apply (Permutation_NoDup (Permutation_map fst P1)). auto.
Qed.
Lemma sdel_perm t (a b : jobj) : NoDup (map fst a) -> Permutation a b -> Permutation (sdel t a) (sdel t b).
Proof.
  intros N P. revert N. induction P as [|[k v] a b P IH|[k v] [k' v'] a|a b c P1 IH1 P2 IH2]; intros N; auto.
  - cbn [map fst] in N. inversion N; subst. cbn [sdel]. destruct (seqb t k); auto.
  - cbn [map fst] in N. inversion N as [|? ? N1 N2]; subst. cbn [sdel]. destruct (seqb_spec t k') as [E1|N3], (seqb_spec t k) as [E2|N4]; auto.
    + destruct N1. left. congruence.
    + apply perm_swap.
  - eapply perm_trans; [apply IH1; auto|]. apply IH2. apply (Permutation_NoDup (Permutation_map fst P1)). auto.
Qed.
Lemma sdel_in t (a : jobj) x : In x (map fst (sdel t a)) -> In x (map fst a).
Proof. induction a as [|[k v] a IH]; cbn; auto. destruct (seqb t k); cbn; auto. tauto. Qed.
Lemma sdel_nodup t (a : jobj) : NoDup (map fst a) -> NoDup (map fst (sdel t a)).
Proof.
  induction a as [|[k v] a IH]; cbn; auto. intros N. inversion N; subst. destruct (seqb t k); auto. cbn. constructor; auto.
  intros X. apply sdel_in in X. contradiction.
Qed.
Lemma sdel_attrs t (a : jobj) : NoDup (map fst a) -> attr_entries (sdel t a) = sdel t (attr_entries a).
Proof.
  assert (X : forall a : jobj, ~ In t (map fst a) -> sdel t a = a).
  { clear a. induction a as [|[k v] a IH]; cbn [map fst sdel]; auto. intros N. destruct (seqb_spec t k) as [->|]; [destruct N; left; reflexivity|].
    f_equal. apply IH. intros Y. apply N. right. exact Y. }
  induction a as [|[k v] a IH]; cbn [map fst sdel]; auto. intros N. inversion N as [|? ? N1 N2]; subst. unfold attr_entries in *. cbn [filter fst].
  destruct (seqb_spec t k) as [->|Ne].
  - destruct (is_reserved k) eqn:R; cbn [negb].
    + symmetry. apply X. intros I. apply N1. apply in_map_iff in I as (q & <- & I). apply filter_In in I as (I & _). apply in_map. exact I.
    + cbn [sdel]. destruct (seqb_spec k k); [reflexivity|congruence].
  - cbn [filter fst]. destruct (is_reserved k) eqn:R; cbn [negb]; auto. cbn [sdel]. destruct (seqb_spec t k); [contradiction|]. f_equal. auto.
Qed.
Lemma f2_length A B (R : A -> B -> Prop) l l' : Forall2 R l l' -> length l = length l'.
Proof. induction 1; cbn; congruence. Qed.
Definition rr {A B} (R : A -> B -> Prop) (r : res A) (r' : res B) : Prop :=
  match r, r' with Ret a, Ret b => R a b | Exc e, Exc e' => e = e' | OOF, OOF => True | _, _ => False end.
Section two.
  Variables (w : world) (o : uopts) (cl : list (pystr * val)).
  Notation wp := (alike w cl).
  Notation ep := (alike_entry w cl).
  Definition rs {A B} (R : A -> B -> Prop) (m : MU A) (m' : MU B) : Prop := forall s, u_classes s = cl ->
    snd (m s) = snd (m' s) /\ u_classes (snd (m s)) = cl /\ rr R (fst (m s)) (fst (m' s)).
  Notation same := (rs eq).
  Lemma rs_bind A B A' B' (R : A -> A' -> Prop) (Q : B -> B' -> Prop) m m' f f' : rs R m m' ->
    (forall a a' s s', u_classes s = cl -> m s = (Ret a, s') -> R a a' -> rs Q (f a) (f' a')) -> rs Q (bind m f) (bind m' f').
  Proof.
    intros Hm Hf s C. destruct (Hm s C) as (E & K & X). unfold bind. destruct (m s) as [r s1] eqn:Em. destruct (m' s) as [r' s2].
    cbn [fst snd] in *. subst s2. destruct r as [a|e|], r' as [a'|e'|]; cbn [rr] in X; try (destruct X; fail); cbn [fst snd]; auto.
    apply (Hf a a' s s1 C Em X s1 K).
  Qed.
  Lemma rs_bind' A B A' B' (R : A -> A' -> Prop) (Q : B -> B' -> Prop) m m' f f' : rs R m m' ->
    (forall a a', R a a' -> rs Q (f a) (f' a')) -> rs Q (bind m f) (bind m' f').
  Proof. intros H1 H2. eapply rs_bind; eauto. Qed.
  Lemma rs_refl A (m : MU A) : keeps A m -> same m m.
  Proof. intros K s C. split; auto. split; [rewrite K; auto|]. destruct (fst (m s)); cbn; auto. Qed.
  Lemma rs_ret A B (R : A -> B -> Prop) a b : R a b -> rs R (ret a) (ret b).
  Proof. intros H s C. cbn. auto. Qed.
  Lemma rs_lift A B (R : A -> B -> Prop) r r' : rr R r r' -> rs R (lift r) (lift r').
  Proof. intros H s C. cbn. auto. Qed.
  Lemma rs_catch A (m m' : MU A) p f f' : same m m' -> (forall e, same (f e) (f' e)) -> same (catch m p f) (catch m' p f').
  Proof.
    intros Hm Hf s C. destruct (Hm s C) as (E & K & X). unfold catch. destruct (m s) as [r s1]. destruct (m' s) as [r' s2].
    cbn [fst snd] in *. subst s2. destruct r as [a|e|], r' as [a'|e'|]; cbn [rr] in X; try (destruct X; fail); subst; cbn [fst snd rr]; auto.
    destruct (p e'); [apply Hf; auto|cbn; auto].
  Qed.
  Lemma rs_mapM A A' B (R : A -> A' -> Prop) (f : A -> MU B) (f' : A' -> MU B) l l' : (forall a a', R a a' -> same (f a) (f' a')) ->
    Forall2 R l l' -> same (mapM f l) (mapM f' l').
  Proof.
    intros H F. induction F as [|a a' l l' Ha F IH]; cbn [mapM]; [apply rs_ret; auto|].
    eapply rs_bind'; [apply H; auto|]. intros b b' <-. eapply rs_bind'; [exact IH|]. intros bs bs' <-. apply rs_ret. auto.
  Qed.
  Lemma rs_foldM A A' B (R : A -> A' -> Prop) (f : B -> A -> MU B) (f' : B -> A' -> MU B) l l' : (forall b a a', R a a' -> same (f b a) (f' b a')) ->
    Forall2 R l l' -> forall b, same (foldM f l b) (foldM f' l' b).
  Proof.
    intros H F. induction F as [|a a' l l' Ha F IH]; intros b; cbn [foldM]; [apply rs_ret; auto|].
    eapply rs_bind'; [apply H; eauto|]. intros x y <-. apply IH.
  Qed.

  (** ** Objects *)
  Definition rob (ob ob2 : jobj) : Prop := exists ob', Forall2 ep ob ob' /\ (ob2 = ob' \/ moved ob' ob2).
  Lemma wp_refl_list l : Forall2 wp l l.
  Proof. induction l; constructor; auto. apply al_same. Qed.
  Lemma ep_wp t a b : ep (t, a) (t, b) -> wp a b.
  Proof. intros H. inversion H; subst; auto. apply al_list. auto. Qed.
  Definition orel (t : pystr) (x y : option json) : Prop := match x, y with Some a, Some b => ep (t, a) (t, b) | None, None => True | _, _ => False end.
  Lemma sget_rob t ob ob2 : t <> PROPERTY -> rob ob ob2 -> orel t (sget t ob) (sget t ob2).
  Proof.
    intros N (ob' & F & X).
    assert (G : orel t (sget t ob) (sget t ob')).
    { clear X. induction F as [|a b ob ob' H F IH]; [exact I|].
      assert (E : fst a = fst b) by (inversion H; reflexivity). destruct a as [ka ja], b as [kb jb]. cbn [fst snd] in *. subst kb. cbn [sget sdel].
      destruct (seqb_spec t ka) as [->|]; cbn; auto. }
    destruct X as [->|[(p & ->)|(Nd & P & _)]]; auto; [cbn [sget]; destruct (seqb_spec t PROPERTY); [contradiction|auto]|].
    rewrite <- (sget_perm t _ _ Nd P). exact G.
  Qed.
  Lemma shas_rob t ob ob2 : t <> PROPERTY -> rob ob ob2 -> shas t ob2 = shas t ob.
  Proof. intros N H. pose proof (sget_rob t ob ob2 N H) as G. unfold shas, orel in *. destruct (sget t ob), (sget t ob2); tauto. Qed.
  Lemma sdel_rob t ob ob2 : t <> PROPERTY -> rob ob ob2 -> rob (sdel t ob) (sdel t ob2).
  Proof.
    intros N (ob' & F & X). exists (sdel t ob'). split.
    - clear X. induction F as [|a b ob ob' H F IH]; cbn; auto.
      assert (E : fst a = fst b) by (inversion H; reflexivity). destruct a as [ka ja], b as [kb jb]. cbn [fst snd] in *. subst kb. cbn [sget sdel].
      destruct (seqb t ka); auto.
    - destruct X as [->|[(p & ->)|(Nd & P & A)]]; auto; right.
      + left. exists p. cbn [sdel]. destruct (seqb_spec t PROPERTY); [contradiction|auto].
      + right. split; [apply sdel_nodup; auto|]. split; [apply sdel_perm; auto|]. rewrite !sdel_attrs, A; auto.
        apply (Permutation_NoDup (Permutation_map fst P)). auto.
  Qed.
  Lemma list_entry t a b : smem t list_tags = true -> ep (t, a) (t, b) -> rr (Forall2 wp) (jiter a) (jiter b).
  Proof.
    intros T H. inversion H as [? l l' F|? ? ? [X|X] W]; subst; cbn [jiter rr]; auto; [congruence|].
    destruct (jiter b); cbn; auto. apply wp_refl_list.
  Qed.
  Lemma field_iter t ob ob2 : smem t list_tags = true -> t <> PROPERTY -> rob ob ob2 -> rr (Forall2 wp) (jiter (jfield t ob)) (jiter (jfield t ob2)).
  Proof.
    intros T N H. pose proof (sget_rob t ob ob2 N H) as G. unfold jfield, orel in *. destruct (sget t ob), (sget t ob2); try (destruct G; fail).
    - apply list_entry with t; auto.
    - reflexivity.
  Qed.
  Lemma field_wp t ob ob2 : t <> PROPERTY -> rob ob ob2 -> wp (jfield t ob) (jfield t ob2).
  Proof.
    intros N H. pose proof (sget_rob t ob ob2 N H) as G. unfold jfield, orel in *. destruct (sget t ob), (sget t ob2); try (destruct G; fail).
    - apply ep_wp with t; auto.
    - apply al_same.
  Qed.
  Lemma wp_truthy j j' : wp j j' -> jtruthy j' = jtruthy j.
  Proof.
    intros H. inversion H as [|l l' F|ob ob' Pp F|ob ob' ob2 Pp Ho F Mv|ob ob2 Ne Ne2 St]; subst; auto.
    - destruct F; reflexivity.
    - destruct F; reflexivity.
    - destruct F as [|a b l l' Ha F]; [destruct Ho as [Ho|Ho]; destruct Ho; reflexivity|].
      destruct Mv as [(p & ->)|(_ & P & _)]; [reflexivity|]. destruct ob2; [|reflexivity]. apply Permutation_sym, Permutation_nil in P. discriminate P.
    - destruct ob, ob2; try reflexivity; contradiction.
  Qed.

  Section step.
    Variable rec : json -> MU val.
    Hypothesis IH : forall j j', wp j j' -> same (rec j) (rec j').
    Lemma s_list j j' : rr (Forall2 wp) (jiter j) (jiter j') -> same (restore_list rec j) (restore_list rec j').
    Proof.
      intros H. unfold restore_list. eapply rs_bind'; [apply rs_refl, k_alloc|]. intros p p' <-.
      eapply rs_bind'; [apply rs_refl, k_umkref|]. intros q q' <-. eapply rs_bind'; [apply rs_lift; exact H|]. intros l l' F.
      eapply rs_bind'; [apply (rs_mapM _ _ _ wp); auto|]. intros c c' <-. apply rs_refl.
      apply k_bind; [destruct p; try apply k_ret; apply k_set_obj|intros]. apply k_bind; [apply k_add_swaps|intros]. apply k_ret.
    Qed.
    Lemma s_iterator ob ob2 : rob ob ob2 -> same (restore_iterator rec ob) (restore_iterator rec ob2).
    Proof.
      intros R. unfold restore_iterator. apply rs_catch.
      - eapply rs_bind'; [apply s_list; apply field_iter; auto; discriminate|]. intros p p' <-. apply rs_refl.
        destruct p; try apply k_raise. apply k_alloc.
      - intros e. apply rs_refl. apply k_bind; [apply k_alloc|intros]. destruct a; try apply k_raise. apply k_alloc.
    Qed.
    Lemma s_tuple ob ob2 : rob ob ob2 -> same (restore_tuple rec ob) (restore_tuple rec ob2).
    Proof.
      intros R. unfold restore_tuple. apply rs_catch; [|intros; apply rs_refl, k_ret].
      eapply rs_bind'; [apply rs_lift, field_iter; eauto; discriminate|]. intros l l' F.
      eapply rs_bind'; [apply (rs_mapM _ _ _ wp); auto|]. intros c c' <-. apply rs_refl, k_ret.
    Qed.
    Lemma s_set ob ob2 : rob ob ob2 -> same (restore_set w rec ob) (restore_set w rec ob2).
    Proof.
      intros R. unfold restore_set. apply rs_catch; [|intros; apply rs_refl, k_alloc].
      eapply rs_bind'; [apply rs_lift, field_iter; eauto; discriminate|]. intros l l' F.
      eapply rs_bind'; [apply (rs_foldM _ _ _ wp); [|exact F]|].
      - intros acc a a' H. eapply rs_bind'; [apply IH; auto|]. intros v v' <-. apply rs_refl.
        apply k_bind; [intros s; reflexivity|intros]. destruct (hashable (w_cls w) a0 v); [apply k_ret|apply k_raise].
      - intros c c' <-. apply rs_refl, k_alloc.
    Qed.
    Hypothesis Uk : uo_keys o = false.
    Lemma s_dict ob ob' : Forall2 ep ob ob' -> same (restore_dict w o rec ob) (restore_dict w o rec ob').
    Proof.
      intros F. unfold restore_dict. rewrite Uk. eapply rs_bind'; [apply rs_refl, k_alloc|]. intros p p' <-.
      eapply rs_bind'; [apply rs_refl; destruct (uo_v1 o); [apply k_ret|apply k_bind; [apply k_umkref|intros; apply k_ret]]|]. intros q q' _.
      destruct p; try (apply rs_refl, k_raise). eapply rs_bind'; [|intros z z' _; apply rs_refl, k_ret].
      apply (rs_foldM _ _ _ ep); auto. intros b [ka a] [kb a'] H. assert (ka = kb) by (inversion H; reflexivity). subst kb. cbn [fst snd].
      eapply rs_bind'; [apply IH; eapply ep_wp; eauto|]. intros v v' <-. apply rs_refl.
      apply k_bind; [apply k_dict_assign; exact o|intros]. apply k_swap_if.
    Qed.
    Lemma s_from_dict ob ob2 iv : rob ob ob2 -> same (restore_from_dict w o rec ob iv) (restore_from_dict w o rec ob2 iv).
    Proof.
      intros (ob' & F & X).
      assert (G : same (restore_from_dict w o rec ob iv) (restore_from_dict w o rec ob' iv)).
      { unfold restore_from_dict, restore_key. rewrite Uk. apply (rs_foldM _ _ _ ep); auto. intros b [ka a] [kb a'] H.
        assert (ka = kb) by (inversion H; reflexivity). subst kb. cbn [fst snd]. destruct (is_reserved ka); [apply rs_ret; auto|].
        eapply rs_bind'; [apply rs_ret; reflexivity|]. intros key key' <-.
        eapply rs_bind'; [apply IH; eapply ep_wp; eauto|]. intros v v' <-. apply rs_refl, k_set_one. }
      destruct X as [->|[(p & ->)|(Nd & P & A)]]; auto.
      assert (Y : forall (g : unit -> pystr * json -> MU unit) od b s, (forall z kv, is_reserved (fst kv) = true -> g z kv = ret tt) ->
        foldM g od b s = foldM g (attr_entries od) b s).
      { intros g od b s Hg. revert b s. induction od as [|[a x] od IHo]; intros b s; [reflexivity|].
        unfold attr_entries. cbn [filter fst]. fold (attr_entries od). destruct (is_reserved a) eqn:Ra; cbn [negb foldM].
        - rewrite (bind_eq _ _ s tt s) by (rewrite Hg by exact Ra; reflexivity). destruct b. apply IHo.
        - unfold bind. destruct (g b (a, x) s) as [[z|e|] s1]; auto. }
      assert (Z : forall od s, restore_from_dict w o rec od iv s = restore_from_dict w o rec (attr_entries od) iv s).
      { intros od s. apply Y. intros z kv Hk. rewrite Hk. reflexivity. }
      intros s Cs. rewrite (Z ob2), <- A, <- Z. apply G. exact Cs.
    Qed.
    Lemma s_state ob ob2 iv : rob ob ob2 -> same (restore_state w o rec ob iv) (restore_state w o rec ob2 iv).
    Proof.
      intros R. unfold restore_state. eapply rs_bind'; [apply IH, field_wp; auto; discriminate|]. intros v v' <-. apply rs_refl.
      apply k_bind; [intros s; reflexivity|intros h s s' _]. destruct (u_inst h iv), iv; try apply k_default_state.
      destruct (c_setstate _); [|apply k_default_state]. apply k_bind; [apply k_setstate; exact o|intros; apply k_ret].
    Qed.
    Lemma s_instvars ob ob2 iv : rob ob ob2 ->
      same (restore_object_instance_variables w o rec ob iv) (restore_object_instance_variables w o rec ob2 iv).
    Proof.
      intros R. unfold restore_object_instance_variables. eapply rs_bind'; [apply s_from_dict; auto|]. intros z z' _.
      eapply rs_bind'.
      - pose proof (sget_rob SEQ ob ob2 ltac:(discriminate) R) as G. unfold orel in G. destruct (sget SEQ ob) as [a|], (sget SEQ ob2) as [b|]; try (destruct G; fail).
        + eapply rs_bind'; [apply rs_refl; intros s; reflexivity|]. intros h h' <-.
          destruct (seq_method w h iv); [| |apply rs_ret; reflexivity].
          * eapply rs_bind'; [apply rs_lift; apply (list_entry SEQ); auto|]. intros l l' F. apply (rs_foldM _ _ _ wp); auto. intros x y y' Hy.
            eapply rs_bind'; [apply IH; auto|]. intros v v' <-. apply rs_refl, k_do_append.
          * eapply rs_bind'; [apply rs_lift; apply (list_entry SEQ); auto|]. intros l l' F. apply (rs_foldM _ _ _ wp); auto. intros x y y' Hy.
            eapply rs_bind'; [apply IH; auto|]. intros v v' <-. apply rs_refl, k_do_add; exact o.
        + apply rs_ret. reflexivity.
      - intros q q' _. pose proof (sget_rob STATE ob ob2 ltac:(discriminate) R) as G. unfold orel in G.
        destruct (sget STATE ob), (sget STATE ob2); try (destruct G; fail); [apply s_state; auto|apply rs_ret; reflexivity].
    Qed.
    Lemma s_args j j' : wp j j' -> same (restore_args w rec j) (restore_args w rec j').
    Proof.
      intros H. unfold restore_args. rewrite (wp_truthy _ _ H). destruct (jtruthy j) eqn:T.
      - eapply rs_bind'; [apply IH; auto|]. intros v v' <-. apply rs_refl. intros s. reflexivity.
      - apply rs_ret. inversion H; reflexivity.
    Qed.
    Lemma s_kwargs j j' : wp j j' -> same (restore_kwargs w rec j) (restore_kwargs w rec j').
    Proof.
      intros H. unfold restore_kwargs. rewrite (wp_truthy _ _ H). destruct (jtruthy j) eqn:T.
      - eapply rs_bind'; [apply IH; auto|]. intros v v' <-. apply rs_refl. intros s. reflexivity.
      - apply rs_ret. inversion H; reflexivity.
    Qed.
    Lemma s_loadfactory ob ob2 : rob ob ob2 -> rs (fun x y => fst x = fst y /\ rob (snd x) (snd y)) (loadfactory rec ob) (loadfactory rec ob2).
    Proof.
      intros R. unfold loadfactory.
      assert (G : forall f f' od od2, match f, f' with Some a, Some b => wp a b | None, None => True | _, _ => False end -> rob od od2 ->
        rs (fun x y : option val * jobj => fst x = fst y /\ rob (snd x) (snd y))
          (match f with Some JNull | None => ret (None, od) | Some j => v <- rec j ;; ret (Some v, od) end)
          (match f' with Some JNull | None => ret (None, od2) | Some j => v <- rec j ;; ret (Some v, od2) end)).
      { intros f f' od od2 H Rd. destruct f as [a|], f' as [b|]; try (destruct H; fail); [|apply rs_ret; auto].
        assert (X : rs (fun x y : option val * jobj => fst x = fst y /\ rob (snd x) (snd y))
          (v <- rec a ;; ret (Some v, od)) (v <- rec b ;; ret (Some v, od2))).
        { eapply rs_bind'; [apply IH; exact H|]. intros v v' <-. apply rs_ret. auto. }
        inversion H; subst; auto. destruct b; auto. apply rs_ret. auto. }
      pose proof (sget_rob DEFAULT_FACTORY ob ob2 ltac:(discriminate) R) as G1. unfold orel in G1.
      destruct (sget DEFAULT_FACTORY ob) as [a|], (sget DEFAULT_FACTORY ob2) as [b|]; try (destruct G1; fail).
      - apply (G (Some a) (Some b)); [eapply ep_wp; eauto|apply sdel_rob; auto; discriminate].
      - pose proof (sget_rob (u "default_factory") ob ob2 ltac:(discriminate) R) as G2. unfold orel in G2.
        destruct (sget (u "default_factory") ob) as [a|], (sget (u "default_factory") ob2) as [b|]; try (destruct G2; fail).
        + apply (G (Some a) (Some b)); [eapply ep_wp; eauto|apply sdel_rob; auto; discriminate].
        + apply (G None None); auto.
    Qed.
    Lemma s_getargs ob ob2 : rob ob ob2 -> rs wp (getargs w ob) (getargs w ob2).
    Proof.
      intros R. unfold getargs.
      pose proof (sget_rob NEWARGS ob ob2 ltac:(discriminate) R) as G1. unfold orel in G1.
      destruct (sget NEWARGS ob) as [a|], (sget NEWARGS ob2) as [b|]; try (destruct G1; fail); [apply rs_ret; eapply ep_wp; eauto|].
      pose proof (sget_rob INITARGS ob ob2 ltac:(discriminate) R) as G2. unfold orel in G2.
      destruct (sget INITARGS ob) as [a|], (sget INITARGS ob2) as [b|]; try (destruct G2; fail); [apply rs_ret; eapply ep_wp; eauto|].
      pose proof (sget_rob SEQ ob ob2 ltac:(discriminate) R) as G3. unfold orel in G3.
      destruct (sget SEQ ob) as [a|], (sget SEQ ob2) as [b|]; try (destruct G3; fail); [|apply rs_ret, al_same].
      pose proof (sget_rob OBJECT ob ob2 ltac:(discriminate) R) as G4. unfold orel in G4.
      destruct (sget OBJECT ob) as [x|], (sget OBJECT ob2) as [y|]; try (destruct G4; fail); [|apply rs_ret, al_same].
      assert (X : same (u_loadclass w x) (u_loadclass w y)).
      { apply ep_wp in G4. inversion G4; subst; try (apply rs_refl, k_loadclass); intros s Cs; unfold u_loadclass, bind, gets, lift, ret; cbn; auto. }
      eapply rs_bind'; [exact X|]. intros t t' <-. destruct t; try apply rs_ret, al_same.
      destruct (c_fields _); [|apply rs_ret, al_same]. eapply rs_bind'; [apply rs_lift, (list_entry SEQ); eauto|]. intros l l' F.
      rewrite <- (f2_length _ _ _ _ _ F). destruct (Nat.eqb _ _); apply rs_ret; [eapply ep_wp; eauto|apply al_same].
    Qed.
    Lemma s_unpack t a b : smem t list_tags = true -> ep (t, a) (t, b) -> rr (fun x y => wp (fst x) (fst y) /\ wp (snd x) (snd y)) (junpack2 a) (junpack2 b).
    Proof.
      intros T H. pose proof (list_entry t a b T H) as G. unfold junpack2 in *.
      destruct (jiter a) as [l|e|], (jiter b) as [l'|e'|]; cbn [rr] in G; try (destruct G; fail); cbn [rr]; auto.
      destruct G as [|x x' la la' Hx [|y y' lb lb' Hy [|]]]; cbn [rr]; auto.
    Qed.
    Lemma s_object_instance ob ob2 c name : rob ob ob2 -> w_blank w c = true ->
      same (restore_object_instance w o rec ob (VType c) name) (restore_object_instance w o rec ob2 (VType c) name).
    Proof.
      intros R Wb. unfold restore_object_instance. eapply rs_bind'; [apply rs_refl, k_new_proxy|]. intros proxy ? <-.
      eapply rs_bind'; [apply rs_refl, k_umkref|]. intros _u _u' _. eapply rs_bind'; [apply s_loadfactory; exact R|].
      intros [fac od] [fac' od2] [Ef Rd]. cbn [fst snd] in Ef, Rd. subst fac'.
      eapply (rs_bind' _ _ _ _ (fun x y => wp (fst x) (fst y) /\ wp (snd x) (snd y))).
      { pose proof (sget_rob NEWARGSEX od od2 ltac:(discriminate) Rd) as G. unfold orel in G.
        destruct (sget NEWARGSEX od) as [a|], (sget NEWARGSEX od2) as [b|]; try (destruct G; fail).
        - eapply rs_bind'; [apply rs_lift, (s_unpack NEWARGSEX); auto|]. intros [x y] [x' y'] [H1 H2]. apply rs_ret. auto.
        - eapply rs_bind'; [apply s_getargs; exact Rd|]. intros x x' H. apply rs_ret. split; auto. apply al_same. }
      intros ak ak' [H1 H2]. eapply rs_bind'; [apply s_args; exact H1|]. intros args ? <-.
      eapply rs_bind'; [apply s_kwargs; exact H2|]. intros kw ? <-.
      eapply rs_bind'.
      { apply rs_refl. apply k_catch; [left; intros e0 He0; apply orb_false_elim in He0; tauto| |intros; apply k_ret]. apply k_bind; [apply (k_new_attempt w o)|intros; apply k_ret]. }
      intros first ? <-. eapply rs_bind.
      { apply rs_refl. destruct first; [apply k_ret|]. apply k_catch; [left; intros e0 He0; apply orb_false_elim in He0; tauto| |intros; rewrite Wb; apply k_bind; [apply k_fresh|intros; apply k_ret]].
        apply k_bind; [apply k_lift|intros]. apply k_bind; [intros s0; reflexivity|intros]. destruct (u_callable _ _ _); [|apply k_raise].
        apply k_bind; [apply (k_call w o)|intros; apply k_ret]. }
      intros made ? s1 s2 C1 Em <-. destruct made as [inst|].
      - eapply rs_bind'; [apply rs_refl, k_proxy_reset|]. intros _1 _1' _. eapply rs_bind'; [apply rs_refl, k_swapref|]. intros _2 _2' _.
        eapply rs_bind'; [apply rs_refl; intros s0; reflexivity|]. intros h ? <-. destruct (is_tuple w h inst); [apply rs_ret; reflexivity|].
        eapply rs_bind'; [apply s_instvars; exact Rd|]. intros inst2 ? <-. apply rs_refl.
        apply k_bind; [intros s0; reflexivity|]. intros pf sa sb _. destruct pf; [|apply k_ret]. apply k_bind; [apply k_set_attr|intros; apply k_ret].
      - exfalso. destruct first; [discriminate Em|]. unfold catch in Em.
        match type of Em with match ?m with _ => _ end = _ => destruct m as [[r|e|] sx] eqn:Ey end; try discriminate Em.
        + injection Em as -> ->. apply bind_ret_inv in Ey. destruct Ey as (a & sy & _ & Ey). apply bind_ret_inv in Ey. destruct Ey as (h & sz & _ & Ey).
          destruct (u_callable _ _ _); [|discriminate Ey]. apply bind_ret_inv in Ey. destruct Ey as (v & sv & _ & Ey). discriminate Ey.
        + destruct (is_TypeError e); [|discriminate Em]. rewrite Wb in Em. apply bind_ret_inv in Em. destruct Em as (v & sv & _ & Em). discriminate Em.
    Qed.
    Lemma s_object ob ob2 : rob ob ob2 -> class_there w cl ob -> shas OBJECT ob = true -> same (restore_object w o rec ob) (restore_object w o rec ob2).
    Proof.
      intros R Ct Hs. unfold shas in Hs. destruct (sget OBJECT ob) as [j|] eqn:Ej; [|discriminate].
      destruct (Ct j Ej) as (name & c & -> & Lc & Rl & Wb).
      pose proof (sget_rob OBJECT ob ob2 ltac:(discriminate) R) as G. unfold orel in G. rewrite Ej in G.
      destruct (sget OBJECT ob2) as [j2|] eqn:Ej2; [|destruct G]. apply ep_wp in G. inversion G; subst.
      unfold restore_object, jfield. rewrite Ej, Ej2. eapply rs_bind; [apply rs_refl, k_loadclass|].
      intros cv ? s s' C Em <-. unfold u_loadclass in Em. apply bind_ret_inv in Em. destruct Em as (cl' & sa & Ea & Em).
      assert (cl' = cl) as -> by (unfold gets in Ea; congruence). apply bind_ret_inv in Em. destruct Em as (z & sb & _ & Em).
      unfold lift in Em. rewrite Lc in Em. assert (cv = VType c) as -> by congruence. rewrite Rl. apply s_object_instance; auto.
    Qed.
    Lemma s_reduce ob ob2 : rob ob ob2 -> same (restore_reduce w rec ob) (restore_reduce w rec ob2).
    Proof.
      intros R. unfold restore_reduce. eapply rs_bind'; [apply rs_refl, k_new_proxy|]. intros proxy ? <-.
      eapply rs_bind'; [apply rs_refl, k_umkref|]. intros _u _u' _. eapply rs_bind'.
      { apply rs_catch; [|intros; apply rs_ret; reflexivity]. eapply rs_bind'; [apply rs_lift, field_iter; eauto; discriminate|]. intros l l' F.
        eapply rs_bind'; [apply (rs_mapM _ _ _ wp); [exact IH|exact F]|]. intros vs ? <-. apply rs_ret. reflexivity. }
      intros rvo ? <-. apply rs_refl. destruct rvo as [vs|]; [|apply k_fail_reduce].
      destruct (vs ++ repeat VNone (6 - length vs)) as [|f [|args [|st [|li [|di [|se [|]]]]]]]; try apply k_raise.
      apply k_bind; [apply k_reduce_make; try exact o|]. intros mk sa sb _. destruct mk; [|apply k_fail_reduce; try exact o].
      apply k_bind; [apply k_reduce_state; try exact o|intros]. apply k_bind; [apply k_listitems; try exact o|intros]. apply k_bind; [apply k_dictitems; try exact o|intros].
      apply k_bind; [apply k_proxy_reset|intros]. apply k_bind; [apply k_swapref|intros]. apply k_ret.
    Qed.
    Hypothesis Krec : forall j, keeps _ (rec j).
    Hypothesis Kstep : forall j, keeps _ (restore_step w o rec j).
    Lemma s_step j j' : wp j j' -> same (restore_step w o rec j) (restore_step w o rec j').
    Proof.
      assert (X : forall ob ob2, rob ob ob2 -> plain_part w cl ob -> (Forall2 ep ob ob2 \/ has_owner ob) ->
        same (restore_step w o rec (JObj ob)) (restore_step w o rec (JObj ob2))).
      { intros ob ob2 R [Ct Pt] Ho.
        assert (Ab : forall t, In t [u "py/b64"; u "py/b85"; u "py/bytea"; u "py/id"; u "py/type"; u "py/function"; u "py/mod"; u "py/repr"] -> shas t ob = false).
        { intros t Ht. unfold shas. rewrite (Pt t Ht). reflexivity. }
        unfold restore_step.
        repeat (rewrite (shas_rob _ ob ob2); [|discriminate|exact R]).
        rewrite (Ab B64), (Ab B85), (Ab BYTEARRAY), (Ab ID), (Ab TYPE_), (Ab FUNCTION), (Ab MODULE), (Ab REPR) by (cbn [In]; repeat (first [left; reflexivity|right])).
        destruct (shas TUPLE ob); [apply s_tuple; auto|]. destruct (shas SET_ ob); [apply s_set; auto|].
        destruct (shas ITERATOR ob); [apply s_iterator; auto|]. destruct (shas OBJECT ob) eqn:EO; [apply s_object; auto|].
        destruct (shas REDUCE ob) eqn:ER; [apply s_reduce; auto|].
        destruct Ho as [F|[Ho|Ho]]; [apply s_dict; auto|..]; exfalso; apply Ho.
        - unfold shas in EO. change OBJECT with (u "py/object") in EO. destruct (sget (u "py/object") ob); [discriminate|reflexivity].
        - unfold shas in ER. change REDUCE with (u "py/reduce") in ER. destruct (sget (u "py/reduce") ob); [discriminate|reflexivity]. }
      intros H. inversion H as [|l l' F|ob ob' Pp F|ob ob' ob2 Pp Ho F Mv|ob ob2 Ne Ne2 St]; subst.
      - apply rs_refl, Kstep.
      - cbn [restore_step]. apply s_list. exact F.
      - apply X; auto. exists ob'. auto.
      - apply X; auto. exists ob'. split; auto.
      - intros s C. rewrite <- (St o rec s C). apply (rs_refl _ _ (Kstep (JObj ob)) s C).
    Qed.
  End step.
  Theorem alike_same (Uk : uo_keys o = false) n : forall j j', wp j j' -> same (restore w o n j) (restore w o n j').
  Proof.
    induction n as [|n IHn]; intros j j' H.
    - apply rs_refl. intros s. reflexivity.
    - cbn [restore]. apply s_step; auto. intros z. exact (restore_keeps w o (S n) z).
  Qed.
End two.
Theorem props_same (w : world) (o : uopts) (cl : list (pystr * val)) (Uk : uo_keys o = false) n j j' :
  with_props w cl j j' -> rs cl eq (restore w o n j) (restore w o n j').
Proof. intros H. apply alike_same; auto. apply props_alike. exact H. Qed.
