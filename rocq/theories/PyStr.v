(** Python [str] values as lists of code points (surrogates included, as in CPython). *)
From Coq Require Export String Ascii NArith ZArith Bool Lia.
From Coq Require Export List.
Export ListNotations.
Open Scope list_scope.

Definition pystr := list N.

(** ASCII literals. *)
Fixpoint u (s : string) : pystr :=
  match s with
  | EmptyString => []
  | String c r => N_of_ascii c :: u r
  end.
Arguments u _%string_scope.

Fixpoint list_eqb {A} (eqb : A -> A -> bool) (a b : list A) : bool :=
  match a, b with
  | [], [] => true
  | x :: a', y :: b' => eqb x y && list_eqb eqb a' b'
  | _, _ => false
  end.

Definition seqb (a b : pystr) : bool := list_eqb N.eqb a b.

Lemma list_eqb_spec {A} (eqb : A -> A -> bool) :
  (forall x y, eqb x y = true <-> x = y) ->
  forall a b, list_eqb eqb a b = true <-> a = b.
Proof.
  intros H; induction a as [|x a IH]; destruct b as [|y b]; simpl; split; intros E;
    try discriminate; auto.
  - apply andb_true_iff in E as [E1 E2]. apply H in E1. apply IH in E2. congruence.
  - injection E as -> ->. apply andb_true_iff; split; [apply H | apply IH]; reflexivity.
Qed.

Lemma seqb_eq a b : seqb a b = true <-> a = b.
Proof. apply list_eqb_spec. intros; apply N.eqb_eq. Qed.
Lemma seqb_refl a : seqb a a = true.
Proof. apply seqb_eq; reflexivity. Qed.
Lemma seqb_neq a b : seqb a b = false <-> a <> b.
Proof.
  split; intros H.
  - intros ->. rewrite seqb_refl in H. discriminate.
  - destruct (seqb a b) eqn:E; auto. apply seqb_eq in E. contradiction.
Qed.
Lemma seqb_sym a b : seqb a b = seqb b a.
Proof.
  destruct (seqb a b) eqn:E; symmetry.
  - apply seqb_eq in E. subst. apply seqb_refl.
  - apply seqb_neq. apply seqb_neq in E. congruence.
Qed.
Lemma seqb_spec a b : reflect (a = b) (seqb a b).
Proof. destruct (seqb a b) eqn:E; constructor; [apply seqb_eq | apply seqb_neq]; auto. Qed.

Lemma pystr_eq_dec (a b : pystr) : {a = b} + {a <> b}.
Proof. destruct (seqb a b) eqn:E; [left; apply seqb_eq | right; apply seqb_neq]; auto. Defined.

Definition smem (s : pystr) (l : list pystr) : bool := existsb (seqb s) l.

Lemma smem_In s l : smem s l = true <-> In s l.
Proof.
  unfold smem. rewrite existsb_exists. split.
  - intros (x & H & E). apply seqb_eq in E. subst; auto.
  - intros H. exists s; split; auto. apply seqb_refl.
Qed.

(** [s.startswith(p)] *)
Fixpoint prefixb (p s : pystr) : bool :=
  match p, s with
  | [], _ => true
  | x :: p', y :: s' => N.eqb x y && prefixb p' s'
  | _ :: _, [] => false
  end.

Lemma prefixb_app p s : prefixb p (p ++ s) = true.
Proof. induction p; simpl; auto. rewrite N.eqb_refl; auto. Qed.

Lemma prefixb_inv p s : prefixb p s = true -> exists r, s = p ++ r.
Proof.
  revert s; induction p as [|x p IH]; intros s H; simpl in *.
  - exists s; auto.
  - destruct s as [|y s]; [discriminate|]. apply andb_true_iff in H as [H1 H2].
    apply N.eqb_eq in H1; subst. destruct (IH _ H2) as (r & ->). exists r; auto.
Qed.

(** [s.split(sep)] for a one-character separator: always at least one field. *)
Fixpoint split_on (c : N) (s : pystr) : list pystr :=
  match s with
  | [] => [[]]
  | x :: s' =>
      if N.eqb x c then [] :: split_on c s'
      else match split_on c s' with
           | f :: fs => (x :: f) :: fs
           | [] => [[x]]
           end
  end.

(** [sep.join(fields)] *)
Fixpoint join_with (c : N) (l : list pystr) : pystr :=
  match l with
  | [] => []
  | [x] => x
  | x :: r => x ++ c :: join_with c r
  end.

Lemma split_on_nonnil c s : split_on c s <> [].
Proof.
  induction s as [|x s IH]; simpl; [discriminate|].
  destruct (N.eqb x c); [discriminate|]. destruct (split_on c s); discriminate.
Qed.

Lemma join_split c s : join_with c (split_on c s) = s.
Proof.
  induction s as [|x s IH]; simpl; auto.
  pose proof (split_on_nonnil c s) as NN.
  destruct (N.eqb_spec x c) as [->|Hne].
  - destruct (split_on c s) as [|f fs]; [contradiction|]. rewrite <- IH. reflexivity.
  - destruct (split_on c s) as [|f fs]; [contradiction|].
    rewrite <- IH. destruct fs; reflexivity.
Qed.

Lemma split_on_clean c x : ~ In c x -> split_on c x = [x].
Proof.
  induction x as [|y x IH]; simpl; intros H; auto.
  destruct (N.eqb_spec y c); [exfalso; auto|]. rewrite IH; auto.
Qed.

Lemma split_on_app_sep c x s : ~ In c x -> split_on c (x ++ c :: s) = x :: split_on c s.
Proof.
  induction x as [|y x IH]; simpl; intros H.
  - rewrite N.eqb_refl; auto.
  - destruct (N.eqb_spec y c); [exfalso; auto|]. rewrite IH; auto.
Qed.

Lemma split_join c l : l <> [] -> Forall (fun x => ~ In c x) l -> split_on c (join_with c l) = l.
Proof.
  induction l as [|x l IH]; [contradiction|]; intros _ H. inversion H; subst.
  destruct l as [|y l].
  - simpl. apply split_on_clean; auto.
  - change (join_with c (x :: y :: l)) with (x ++ c :: join_with c (y :: l)).
    rewrite split_on_app_sep; auto. f_equal. apply IH; auto. discriminate.
Qed.

Lemma split_on_In_clean c s f : In f (split_on c s) -> ~ In c f.
Proof.
  revert f; induction s as [|x s IH]; simpl; intros f H.
  - destruct H as [<-|[]]. auto.
  - destruct (N.eqb_spec x c) as [->|Hne].
    + destruct H as [<-|H]; [auto|]. apply IH; auto.
    + pose proof (split_on_nonnil c s). destruct (split_on c s) as [|g gs]; [contradiction|].
      destruct H as [<-|H].
      * intros [E|E]; [congruence|]. apply (IH g); simpl; auto.
      * apply IH; simpl; auto.
Qed.

Lemma split_on_app c a b : exists l1 m l2,
  split_on c a = l1 ++ [fst m] /\ split_on c b = snd m :: l2 /\
  split_on c (a ++ b) = l1 ++ (fst m ++ snd m) :: l2.
Proof.
  induction a as [|x a (l1 & m & l2 & H1 & H2 & H3)]; simpl.
  - destruct (split_on c b) as [|f fs] eqn:E; [exfalso; eapply split_on_nonnil; eauto|].
    exists [], ([], f), fs. simpl. auto.
  - destruct (N.eqb_spec x c).
    + exists ([] :: l1), m, l2. rewrite H1, H3. auto.
    + rewrite H1, H3. destruct l1 as [|g gs]; simpl.
      * exists [], (x :: fst m, snd m), l2. simpl; auto.
      * exists ((x :: g) :: gs), m, l2. auto.
Qed.

(** [s.lower()] restricted to ASCII letters (documented simplification). *)
Definition lower_char (c : N) : N := if (65 <=? c)%N && (c <=? 90)%N then (c + 32)%N else c.
Definition lower (s : pystr) : pystr := map lower_char s.

(** Lexicographic order on code points, as Python compares strings. *)
Fixpoint str_leb (a b : pystr) : bool :=
  match a, b with
  | [], _ => true
  | _ :: _, [] => false
  | x :: a', y :: b' => if N.ltb x y then true else if N.eqb x y then str_leb a' b' else false
  end.
