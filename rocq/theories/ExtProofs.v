(** What remains of a block of registrations after a block of removals. *)
From Verif Require Import PyStr Json Base Heap Registry RegistryProofs Ext.
From Coq Require Import List Bool. Import ListNotations.
Open Scope nat_scope.

Section tbl.
  Context {K : Type} (eqb : K -> K -> bool) (eqb_eq : forall a b, eqb a b = true <-> a = b).
  Lemma tset_app k h t e : tget eqb k t = None -> tset eqb k h (t ++ e) = t ++ tset eqb k h e.
  Proof.
    induction t as [|[a y] t IH]; simpl; auto. destruct (eqb k a) eqn:E; [discriminate|]. intros X. rewrite IH; auto.
  Qed.
  Lemma tpop_app k t e : tget eqb k t = None -> tpop eqb k (t ++ e) = t ++ tpop eqb k e.
  Proof.
    induction t as [|[a y] t IH]; simpl; auto. destruct (eqb k a) eqn:E; [discriminate|]. intros X. rewrite IH; auto.
  Qed.
  Lemma tpop_gone k e : NoDup (map fst e) -> ~ In k (map fst (tpop eqb k e)).
  Proof.
    intros ND I. assert (X : tget eqb k (tpop eqb k e) = None).
    { rewrite (tget_tpop eqb eqb_eq) by exact ND. rewrite (proj2 (eqb_eq k k) eq_refl). reflexivity. }
    apply (tget_None eqb eqb_eq) in X. contradiction.
  Qed.
  Lemma tget_app_l k t e : tget eqb k e = None -> tget eqb k (t ++ e) = tget eqb k t.
  Proof. intros X. induction t as [|[a y] t IH]; simpl; auto. destruct (eqb k a); auto. Qed.
End tbl.

(** r' is r with further entries, all for classes of K (and their names). *)
Definition more (cls : nat -> cinfo) (K : list nat) (r r' : registry) : Prop :=
  exists e b, r_handlers r' = r_handlers r ++ e /\ r_base r' = r_base r ++ b /\ NoDup (map fst e) /\ NoDup (map fst b) /\
    (forall c, In (RCls c) (map fst e) -> In c K) /\
    (forall n, In (RName n) (map fst e) -> exists c, In c K /\ n = importable_name (cls c)) /\
    (forall c, In c (map fst b) -> In c K).
(** none of the classes of K has an entry in r *)
Definition untouched (cls : nat -> cinfo) (K : list nat) (r : registry) : Prop :=
  forall c, In c K -> tget rkey_eqb (RCls c) (r_handlers r) = None /\
    tget rkey_eqb (RName (importable_name (cls c))) (r_handlers r) = None /\ tget Nat.eqb c (r_base r) = None.

Section steps.
  Variables (cls : nat -> cinfo) (K : list nat) (r : registry).
  Hypothesis U : untouched cls K r.
  Lemma more_refl L : more cls L r r.
  Proof. exists [], []. rewrite !app_nil_r. repeat split; try constructor; intros ? []. Qed.
  Lemma more_register r' c h : In c K -> more cls K r r' -> more cls K r (reg_register cls r' c h true).
  Proof.
    intros I (e & b & E1 & E2 & N1 & N2 & C1 & C2 & C3). destruct (U c I) as (U1 & U2 & U3).
    exists (tset rkey_eqb (RCls c) h (tset rkey_eqb (RName (importable_name (cls c))) h e)), (tset Nat.eqb c h b).
    cbn [reg_register r_handlers r_base]. rewrite E1, E2.
    rewrite !(tset_app rkey_eqb), (tset_app Nat.eqb) by assumption. split; [reflexivity|]. split; [reflexivity|].
    split; [apply tset_NoDup; [apply rkey_eqb_eq|]; apply tset_NoDup; [apply rkey_eqb_eq|exact N1]|].
    split; [apply tset_NoDup; [apply Nat.eqb_eq|exact N2]|]. split; [|split].
    - intros c'. rewrite !(tset_keys rkey_eqb rkey_eqb_eq). intros [X|[X|X]]; [injection X as ->; exact I|discriminate|auto].
    - intros n. rewrite !(tset_keys rkey_eqb rkey_eqb_eq). intros [X|[X|X]]; [discriminate|injection X as ->; eauto|auto].
    - intros c'. rewrite (tset_keys Nat.eqb Nat.eqb_eq). intros [->|X]; auto.
  Qed.
  Lemma more_reg_all l : incl (map fst l) K -> forall r', more cls K r r' -> more cls K r (reg_all cls l r').
  Proof.
    induction l as [|[c h] l IH]; intros I r' M; [exact M|]. cbn [reg_all fold_left fst snd]. apply IH.
    - intros x Hx. apply I. right. exact Hx.
    - apply more_register; [apply I; left; reflexivity|exact M].
  Qed.
  Definition without (c : nat) (L : list nat) : list nat := filter (fun x => negb (Nat.eqb c x)) L.
  Lemma more_unregister L r' c : incl L K -> In c K -> more cls L r r' -> more cls (without c L) r (reg_unregister cls r' c).
  Proof.
    intros IL I (e & b & E1 & E2 & N1 & N2 & C1 & C2 & C3). destruct (U c I) as (U1 & U2 & U3).
    exists (tpop rkey_eqb (RName (importable_name (cls c))) (tpop rkey_eqb (RCls c) e)), (tpop Nat.eqb c b).
    cbn [reg_unregister r_handlers r_base]. rewrite E1, E2. rewrite !(tpop_app rkey_eqb), (tpop_app Nat.eqb) by assumption.
    split; [reflexivity|]. split; [reflexivity|].
    assert (N1' : NoDup (map fst (tpop rkey_eqb (RCls c) e))) by (apply tpop_NoDup; exact N1).
    split; [apply tpop_NoDup; exact N1'|]. split; [apply tpop_NoDup; exact N2|].
    assert (W : forall x, In x L -> x <> c -> In x (without c L)).
    { intros x Ix Dx. unfold without. apply filter_In. split; [exact Ix|]. destruct (Nat.eqb c x) eqn:E; [apply Nat.eqb_eq in E; congruence|reflexivity]. }
    split; [|split].
    - intros c' X. apply tpop_keys in X. apply W; [apply C1; apply tpop_keys in X; exact X|]. intros ->. exact (tpop_gone rkey_eqb rkey_eqb_eq _ _ N1 X).
    - intros n X. destruct (C2 n) as (c' & Ic & En); [apply tpop_keys in X; apply tpop_keys in X; exact X|]. exists c'. split; [|exact En]. apply W; [exact Ic|].
      intros ->. subst n. exact (tpop_gone rkey_eqb rkey_eqb_eq _ _ N1' X).
    - intros c' X. apply W; [apply C3; apply tpop_keys in X; exact X|]. intros ->. exact (tpop_gone Nat.eqb Nat.eqb_eq _ _ N2 X).
  Qed.
  Fixpoint without_all (l L : list nat) : list nat := match l with [] => L | c :: l => without_all l (without c L) end.
  Lemma more_unreg_all l : incl l K -> forall L r', incl L K -> more cls L r r' -> more cls (without_all l L) r (unreg_all cls l r').
  Proof.
    induction l as [|c l IH]; intros I L r' IL M; [exact M|]. cbn [unreg_all fold_left without_all]. apply IH.
    - intros x Hx. apply I. right. exact Hx.
    - intros x Hx. apply IL. unfold without in Hx. apply filter_In in Hx. tauto.
    - apply more_unregister; auto. apply I. left. reflexivity.
  Qed.
  Lemma without_all_in l : forall L x, In x (without_all l L) -> In x L /\ ~ In x l.
  Proof.
    induction l as [|c l IH]; intros L x I; [split; [exact I|intros []]|]. cbn [without_all] in I. apply IH in I as [I N].
    unfold without in I. apply filter_In in I as [I E]. apply negb_true_iff, Nat.eqb_neq in E. split; auto. intros [X|X]; auto.
  Qed.
  (** Lookups that the further entries do not answer. *)
  Lemma more_lookup L r' sub c n : more cls L r r' -> ~ In c L -> (forall x, In x L -> sub c x = false) ->
    (forall x, In x L -> n <> importable_name (cls x)) -> reg_lookup sub r' c n = reg_lookup sub r c n.
  Proof.
    intros (e & b & E1 & E2 & N1 & N2 & C1 & C2 & C3) HC HS HN. unfold reg_lookup, reg_get_cls, reg_get_name. rewrite E1, E2.
    rewrite !(tget_app_l rkey_eqb).
    - assert (B : base_find sub c (r_base r ++ b) = base_find sub c (r_base r)).
      { generalize (r_base r). intros t. induction t as [|[a y] t IH]; simpl.
        - clear - C3 HS. induction b as [|[a y] b IH]; simpl; auto. rewrite (HS a) by (apply C3; left; reflexivity). apply IH. intros x X. apply C3. right. exact X.
        - rewrite IH. reflexivity. }
      rewrite B. reflexivity.
    - apply (tget_None rkey_eqb rkey_eqb_eq). intros X. destruct (C2 n X) as (x & Ix & En). exact (HN x Ix En).
    - apply (tget_None rkey_eqb rkey_eqb_eq). intros X. exact (HC (C1 c X)).
  Qed.
End steps.
