(** C25: the handler registry against a history-based specification. *)
From Verif Require Import PyStr Json Base Heap Registry Samples.
Open Scope nat_scope.

(** Calls made on the registry, oldest first. *)
Inductive rop : Type :=
| OReg (c h : nat) (base : bool)     (* register(c, h, base) *)
| OUnreg (c : nat).                  (* unregister(c) *)
Definition rrun (cls : nat -> cinfo) (ops : list rop) : registry :=
  fold_left (fun r op => match op with
                         | OReg c h b => reg_register cls r c h b
                         | OUnreg c => reg_unregister cls r c
                         end) ops (mkReg [] []).

(** Specification: scan the history from the newest call. *)
Fixpoint newest (f : rop -> option (option nat)) (rev_ops : list rop) : option nat :=
  match rev_ops with
  | [] => None
  | op :: r => match f op with Some x => x | None => newest f r end
  end.
(** the newest call about class c decides *)
Definition about_class (c : nat) (op : rop) : option (option nat) :=
  match op with
  | OReg c' h _ => if Nat.eqb c c' then Some (Some h) else None
  | OUnreg c' => if Nat.eqb c c' then Some None else None
  end.
(** the newest call about any class of that importable name decides *)
Definition about_name (cls : nat -> cinfo) (n : pystr) (op : rop) : option (option nat) :=
  match op with
  | OReg c' h _ => if seqb n (importable_name (cls c')) then Some (Some h) else None
  | OUnreg c' => if seqb n (importable_name (cls c')) then Some None else None
  end.
(** the newest base=True registration or removal of class c decides *)
Definition about_base (c : nat) (op : rop) : option (option nat) :=
  match op with
  | OReg c' h true => if Nat.eqb c c' then Some (Some h) else None
  | OReg _ _ false => None
  | OUnreg c' => if Nat.eqb c c' then Some None else None
  end.
Definition registered (ops : list rop) (c : nat) : option nat := newest (about_class c) (rev ops).
Definition registered_name (cls : nat -> cinfo) (ops : list rop) (n : pystr) : option nat :=
  newest (about_name cls n) (rev ops).
Definition registered_base (ops : list rop) (c : nat) : option nat := newest (about_base c) (rev ops).

Section tbl.
  Context {K : Type} (eqb : K -> K -> bool) (eqb_eq : forall a b, eqb a b = true <-> a = b).
  Lemma eqb_rfl a : eqb a a = true. Proof. apply eqb_eq; auto. Qed.
  Lemma tget_tset a b h t : tget eqb a (tset eqb b h t) = if eqb a b then Some h else tget eqb a t.
  Proof.
    induction t as [|[k' h'] t IH]; simpl.
    - destruct (eqb a b); auto.
    - destruct (eqb b k') eqn:E; simpl.
      + apply eqb_eq in E. subst k'. destruct (eqb a b); auto.
      + rewrite IH. destruct (eqb a k') eqn:E2; auto.
        apply eqb_eq in E2. subst k'. destruct (eqb a b) eqn:E3; auto.
        apply eqb_eq in E3. subst. rewrite eqb_rfl in E. discriminate.
  Qed.
  Lemma tset_keys b h t x : In x (map fst (tset eqb b h t)) <-> x = b \/ In x (map fst t).
  Proof.
    induction t as [|[k' h'] t IH]; simpl; [intuition|].
    destruct (eqb b k') eqn:E; simpl.
    - apply eqb_eq in E. subst. intuition.
    - rewrite IH. intuition.
  Qed.
  Lemma tset_NoDup b h t : NoDup (map fst t) -> NoDup (map fst (tset eqb b h t)).
  Proof.
    induction t as [|[k' h'] t IH]; simpl; intros N; [constructor; auto; constructor|].
    inversion N; subst. destruct (eqb b k') eqn:E; simpl; constructor; auto.
    intros C. apply tset_keys in C. destruct C as [->|C]; [|contradiction].
    rewrite eqb_rfl in E. discriminate.
  Qed.
  Lemma tpop_keys b t x : In x (map fst (tpop eqb b t)) -> In x (map fst t).
  Proof. induction t as [|[k' h'] t IH]; simpl; auto. destruct (eqb b k'); simpl; intuition. Qed.
  Lemma tpop_NoDup b t : NoDup (map fst t) -> NoDup (map fst (tpop eqb b t)).
  Proof.
    induction t as [|[k' h'] t IH]; simpl; intros N; auto. inversion N; subst.
    destruct (eqb b k'); auto. simpl. constructor; auto. intros C. apply tpop_keys in C. auto.
  Qed.
  Lemma tget_None a t : tget eqb a t = None <-> ~ In a (map fst t).
  Proof.
    induction t as [|[k' h'] t IH]; simpl; [tauto|].
    destruct (eqb a k') eqn:E.
    - apply eqb_eq in E. subst. split; [discriminate|]. intros H; exfalso; auto.
    - rewrite IH. split; [|tauto]. intros H [->|C]; auto. rewrite eqb_rfl in E. discriminate.
  Qed.
  Lemma tget_tpop a b t : NoDup (map fst t) ->
    tget eqb a (tpop eqb b t) = if eqb a b then None else tget eqb a t.
  Proof.
    induction t as [|[k' h'] t IH]; simpl; intros N.
    - destruct (eqb a b); auto.
    - inversion N; subst. destruct (eqb b k') eqn:E; simpl.
      + apply eqb_eq in E. subst k'. destruct (eqb a b) eqn:E2; auto.
        apply eqb_eq in E2. subst. apply tget_None. auto.
      + rewrite IH; auto. destruct (eqb a k') eqn:E2; auto.
        apply eqb_eq in E2. subst k'. destruct (eqb a b) eqn:E3; auto.
        apply eqb_eq in E3. subst. rewrite eqb_rfl in E. discriminate.
  Qed.
  Lemma tget_In a h t : NoDup (map fst t) -> (tget eqb a t = Some h <-> In (a, h) t).
  Proof.
    induction t as [|[k' h'] t IH]; simpl; intros N; [split; [discriminate|tauto]|].
    inversion N; subst. destruct (eqb a k') eqn:E.
    - apply eqb_eq in E. subst k'. split.
      + intros E. injection E as ->. auto.
      + intros [E|E]; [congruence|]. exfalso. apply H1. apply (in_map fst) in E. auto.
    - rewrite IH; auto. split; auto. intros [E2|E2]; auto.
      injection E2 as -> ->. rewrite eqb_rfl in E. discriminate.
  Qed.
End tbl.

Section spec.
  Variable cls : nat -> cinfo.
  Notation run := (rrun cls).
  Lemma rrun_snoc ops op : run (ops ++ [op]) = match op with
                         | OReg c h b => reg_register cls (run ops) c h b
                         | OUnreg c => reg_unregister cls (run ops) c
                         end.
  Proof. unfold rrun. rewrite fold_left_app. reflexivity. Qed.

  Lemma rrun_NoDup ops : NoDup (map fst (r_handlers (run ops))) /\ NoDup (map fst (r_base (run ops))).
  Proof.
    induction ops as [|op ops IH] using rev_ind; [split; constructor|].
    rewrite rrun_snoc. destruct IH as [I1 I2]. destruct op as [c h b|c]; simpl.
    - split.
      + apply tset_NoDup; [apply rkey_eqb_eq|]. apply tset_NoDup; [apply rkey_eqb_eq|]. auto.
      + destruct b; auto. apply tset_NoDup; [apply Nat.eqb_eq|]. auto.
    - split.
      + apply tpop_NoDup. apply tpop_NoDup. auto.
      + apply tpop_NoDup. auto.
  Qed.

  Lemma direct_spec ops c : tget rkey_eqb (RCls c) (r_handlers (run ops)) = registered ops c.
  Proof.
    unfold registered. induction ops as [|op ops IH] using rev_ind; [reflexivity|].
    rewrite rrun_snoc, rev_app_distr. simpl.
    destruct (rrun_NoDup ops) as [N _].
    destruct op as [c' h b|c']; simpl.
    - rewrite (tget_tset rkey_eqb rkey_eqb_eq). simpl.
      rewrite (tget_tset rkey_eqb rkey_eqb_eq). simpl. destruct (Nat.eqb c c'); auto.
    - rewrite (tget_tpop rkey_eqb rkey_eqb_eq); [|apply tpop_NoDup; auto].
      simpl. rewrite (tget_tpop rkey_eqb rkey_eqb_eq); auto. simpl. destruct (Nat.eqb c c'); auto.
  Qed.
  Lemma name_spec ops n : reg_get_name (run ops) n = registered_name cls ops n.
  Proof.
    unfold registered_name, reg_get_name. induction ops as [|op ops IH] using rev_ind; [reflexivity|].
    rewrite rrun_snoc, rev_app_distr. simpl.
    destruct (rrun_NoDup ops) as [N _].
    destruct op as [c' h b|c']; simpl.
    - rewrite (tget_tset rkey_eqb rkey_eqb_eq). simpl.
      rewrite (tget_tset rkey_eqb rkey_eqb_eq). simpl.
      destruct (seqb n (importable_name (cls c'))); auto.
    - rewrite (tget_tpop rkey_eqb rkey_eqb_eq); [|apply tpop_NoDup; auto].
      simpl. rewrite (tget_tpop rkey_eqb rkey_eqb_eq); auto. simpl.
      destruct (seqb n (importable_name (cls c'))); auto.
  Qed.
  Lemma base_spec ops c : tget Nat.eqb c (r_base (run ops)) = registered_base ops c.
  Proof.
    unfold registered_base. induction ops as [|op ops IH] using rev_ind; [reflexivity|].
    rewrite rrun_snoc, rev_app_distr. simpl.
    destruct (rrun_NoDup ops) as [_ N].
    destruct op as [c' h b|c']; simpl.
    - destruct b; auto. rewrite (tget_tset Nat.eqb Nat.eqb_eq). destruct (Nat.eqb c c'); auto.
    - rewrite (tget_tpop Nat.eqb Nat.eqb_eq); auto. destruct (Nat.eqb c c'); auto.
  Qed.

  Lemma base_find_spec sub c t :
    match base_find sub c t with
    | Some h => exists b, sub c b = true /\ In (b, h) t
    | None => forall b h, In (b, h) t -> sub c b = false
    end.
  Proof.
    induction t as [|[b h] t IH]; simpl; [tauto|].
    destruct (sub c b) eqn:E.
    - exists b. auto.
    - destruct (base_find sub c t).
      + destruct IH as (b' & ? & ?). exists b'. auto.
      + intros b' h' [H|H]; [congruence|]. eapply IH; eauto.
  Qed.

  (** Lookup by class. *)
  Lemma get_cls_spec sub ops c :
    match reg_get_cls sub (run ops) c with
    | Some h => registered ops c = Some h \/
                (registered ops c = None /\ exists b, sub c b = true /\ registered_base ops b = Some h)
    | None => registered ops c = None /\ forall b, sub c b = true -> registered_base ops b = None
    end.
  Proof.
    unfold reg_get_cls. rewrite direct_spec. destruct (registered ops c) as [h|] eqn:E; auto.
    destruct (rrun_NoDup ops) as [_ N].
    pose proof (base_find_spec sub c (r_base (run ops))) as B.
    destruct (base_find sub c (r_base (run ops))) as [h|].
    - right. split; auto. destruct B as (b & ? & HI). exists b. split; auto.
      rewrite <- base_spec. apply tget_In; auto; apply Nat.eqb_eq.
    - split; auto. intros b Hb. rewrite <- base_spec.
      destruct (tget Nat.eqb b (r_base (run ops))) eqn:E2; auto.
      apply tget_In in E2; auto; [|apply Nat.eqb_eq]. apply B in E2. congruence.
  Qed.
  Lemma get_cls_direct sub ops c h : registered ops c = Some h -> reg_get_cls sub (run ops) c = Some h.
  Proof. intros H. unfold reg_get_cls. rewrite direct_spec, H. reflexivity. Qed.
  Lemma get_cls_unique_base sub ops c b h :
    registered ops c = None -> sub c b = true -> registered_base ops b = Some h ->
    (forall b', sub c b' = true -> registered_base ops b' <> None -> b' = b) ->
    reg_get_cls sub (run ops) c = Some h.
  Proof.
    intros H1 H2 H3 H4. pose proof (get_cls_spec sub ops c) as G.
    destruct (reg_get_cls sub (run ops) c) as [h'|].
    - destruct G as [G|[_ (b' & G1 & G2)]]; [congruence|].
      assert (b' = b) by (apply H4; auto; congruence). subst b'. congruence.
    - destruct G as [_ G]. rewrite G in H3; auto.
  Qed.

  (** Which of several base classes: the one that has been registered longest. *)
  Definition precedes (b b' : nat) (t : list (nat * nat)) : Prop :=
    exists t1 h t2, t = t1 ++ (b, h) :: t2 /\ ~ In b' (map fst t1).
  Lemma tset_mid k h t1 b x t2 : exists t1' x' t2', tset Nat.eqb k h (t1 ++ (b, x) :: t2) = t1' ++ (b, x') :: t2' /\ map fst t1' = map fst t1.
  Proof.
    induction t1 as [|[a y] t1 IH]; simpl.
    - destruct (Nat.eqb k b); [exists [], h, t2|exists [], x, (tset Nat.eqb k h t2)]; split; reflexivity.
    - destruct (Nat.eqb k a); [exists ((a, h) :: t1), x, t2; split; reflexivity|].
      destruct IH as (t1' & x' & t2' & E & M). exists ((a, y) :: t1'), x', t2'. rewrite E. simpl. rewrite M. split; reflexivity.
  Qed.
  Lemma tpop_mid k t1 b x t2 : k <> b -> exists t1' t2', tpop Nat.eqb k (t1 ++ (b, x) :: t2) = t1' ++ (b, x) :: t2' /\ incl (map fst t1') (map fst t1).
  Proof.
    intros N. induction t1 as [|[a y] t1 IH]; simpl.
    - apply Nat.eqb_neq in N. rewrite N. exists [], (tpop Nat.eqb k t2). split; [reflexivity|intros z []].
    - destruct (Nat.eqb k a); [exists t1, t2; split; [reflexivity|intros z; right; assumption]|].
      destruct IH as (t1' & t2' & E & M). exists ((a, y) :: t1'), t2'. rewrite E. split; [reflexivity|].
      intros z [<-|I]; [left; reflexivity|right; apply M; exact I].
  Qed.
  Lemma tget_split (t : list (nat * nat)) b h : tget Nat.eqb b t = Some h -> exists t1 t2, t = t1 ++ (b, h) :: t2.
  Proof.
    induction t as [|[a y] t IH]; simpl; [discriminate|]. destruct (Nat.eqb b a) eqn:E.
    - intros H. injection H as ->. apply Nat.eqb_eq in E. subst. exists [], t. reflexivity.
    - intros H. destruct (IH H) as (t1 & t2 & ->). exists ((a, y) :: t1), t2. reflexivity.
  Qed.
  Lemma still_precedes b b' pre post : registered_base pre b <> None -> registered_base pre b' = None ->
    (forall p q, post = p ++ q -> registered_base (pre ++ p) b <> None) ->
    precedes b b' (r_base (run (pre ++ post))).
  Proof.
    intros A N. induction post as [|op post IH] using rev_ind; intros ST.
    - rewrite app_nil_r. rewrite <- base_spec in A, N. destruct (tget Nat.eqb b (r_base (run pre))) as [h|] eqn:G; [|contradiction].
      destruct (tget_split _ _ _ G) as (t1 & t2 & E). exists t1, h, t2. split; [exact E|].
      apply (tget_None Nat.eqb Nat.eqb_eq) in N. intros I. apply N. rewrite E, map_app. apply in_or_app. left. exact I.
    - destruct IH as (t1 & x & t2 & E & NI).
      { intros p q Hpq. apply (ST p (q ++ [op])). rewrite Hpq, app_assoc. reflexivity. }
      rewrite app_assoc, rrun_snoc. destruct op as [c h bb|c]; simpl.
      + destruct bb; [|exists t1, x, t2; split; assumption]. rewrite E. destruct (tset_mid c h t1 b x t2) as (t1' & x' & t2' & E' & M).
        exists t1', x', t2'. split; [exact E'|]. rewrite M. exact NI.
      + assert (D : c <> b).
        { intros ->. apply (ST (post ++ [OUnreg b]) []); [rewrite app_nil_r; reflexivity|]. unfold registered_base.
          rewrite app_assoc, rev_app_distr. simpl. rewrite Nat.eqb_refl. reflexivity. }
        rewrite E. destruct (tpop_mid c t1 b x t2 D) as (t1' & t2' & E' & M). exists t1', x, t2'. split; [exact E'|].
        intros I. apply NI. apply M. exact I.
  Qed.
  Lemma base_find_first sub c b t : sub c b = true -> tget Nat.eqb b t <> None ->
    (forall b', sub c b' = true -> tget Nat.eqb b' t <> None -> b' <> b -> precedes b b' t) ->
    NoDup (map fst t) -> base_find sub c t = tget Nat.eqb b t.
  Proof.
    intros S A P ND. destruct (tget Nat.eqb b t) as [h|] eqn:G; [|contradiction].
    destruct (tget_split _ _ _ G) as (t1 & t2 & E).
    assert (Q : forall b' x, In (b', x) t1 -> sub c b' = false).
    { intros b' x I. destruct (sub c b') eqn:S'; auto. exfalso.
      assert (D : b' <> b).
      { intros ->. rewrite E in ND. clear - ND I. induction t1 as [|[a y] t1 IH]; [destruct I|]. cbn in ND. apply NoDup_cons_iff in ND as [N1 N2].
        destruct I as [I|I]; [|apply IH; auto]. injection I as -> ->. apply N1. rewrite map_app. apply in_or_app. right. left. reflexivity. }
      destruct (P b' S') as (u1 & y & u2 & E2 & NI); [|exact D|].
      { intros N. apply (tget_None Nat.eqb Nat.eqb_eq) in N. apply N. rewrite E, map_app. apply in_or_app. left. apply (in_map fst) in I. exact I. }
      assert (u1 = t1).
      { rewrite E in E2. rewrite E in ND. revert u1 E2 NI. clear - ND. induction t1 as [|[a y'] t1 IH]; intros u1 E2 NI.
        - destruct u1 as [|[a2 y2] u1]; [reflexivity|]. simpl in E2. injection E2 as E3 E4 E5. subst a2.
          exfalso. simpl in ND. apply NoDup_cons_iff in ND as [N1 _]. apply N1. rewrite E5, map_app. apply in_or_app. right. left. reflexivity.
        - destruct u1 as [|[a2 y2] u1]; simpl in E2.
          + injection E2 as E3 E4 E5. subst a. exfalso. simpl in ND. apply NoDup_cons_iff in ND as [N1 _]. apply N1.
            rewrite map_app. apply in_or_app. right. left. reflexivity.
          + injection E2 as -> -> E5. simpl in ND. apply NoDup_cons_iff in ND as [_ N2]. f_equal. apply (IH N2 u1 E5). intros I. apply NI. right. exact I. }
      subst u1. apply NI. apply (in_map fst) in I. exact I. }
    rewrite E. clear - Q S. induction t1 as [|[a y] t1 IH]; simpl; [rewrite S; reflexivity|].
    rewrite (Q a y) by (left; reflexivity). apply IH. intros b' x I. apply (Q b' x). right. exact I.
  Qed.
  Lemma get_cls_oldest sub ops c b : registered ops c = None -> sub c b = true -> registered_base ops b <> None ->
    (forall b', sub c b' = true -> registered_base ops b' <> None -> b' <> b ->
       exists pre post, ops = pre ++ post /\ registered_base pre b <> None /\ registered_base pre b' = None /\
         forall p q, post = p ++ q -> registered_base (pre ++ p) b <> None) ->
    reg_get_cls sub (run ops) c = registered_base ops b.
  Proof.
    intros R S A P. unfold reg_get_cls. rewrite direct_spec, R. rewrite <- base_spec in *.
    apply base_find_first; auto; [|apply rrun_NoDup].
    intros b' S' A' D. rewrite base_spec in A'. destruct (P b' S' A' D) as (pre & post & -> & P1 & P2 & P3).
    apply still_precedes; auto.
  Qed.
End spec.
