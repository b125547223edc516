(** C35, C42: which attribute names the round-trip theorems speak about. *)
From Verif Require Import PyStr Tags Json JsonText JsonTextProofs Base Heap Registry LoadClass SpecGraph Samples.
Open Scope nat_scope.

Lemma prefix2 a : prefixb (u "__") a = true -> exists r, a = u "__" ++ r.
Proof.
  destruct a as [|c [|d r]]; cbn; intros H; try discriminate.
  - rewrite andb_false_r in H. discriminate.
  - apply andb_true_iff in H. destruct H as [A B]. apply andb_true_iff in B. destruct B as [B _].
    apply N.eqb_eq in A. apply N.eqb_eq in B. exists r. subst. reflexivity.
Qed.
(** C42.  A name that JSON can write, is no tag, not default_factory and does not begin with two
    underscores, of a class that allows the assignment, is among the names of the round-trip theorems. *)
Theorem C42_names :
  forall keys c a, str_ok a = true -> ~ In a RESERVED -> a <> u "py/b64" -> a <> u "py/b85" -> a <> u "default_factory" ->
  (forall r, a <> u "__" ++ r) -> (keys = true -> forall r, a <> u "json://" ++ r) -> c_setattr c a = SAOk -> attr_ok keys c a = true.
Proof.
  intros keys c a So Nr N1 N2 N3 Nu Nj Sa. unfold attr_ok, name_ok. rewrite So, Sa.
  assert (E : forall x y : pystr, x <> y -> seqb x y = false).
  { intros x y N. destruct (seqb x y) eqn:Q; auto. apply seqb_eq in Q. destruct (N Q). }
  rewrite (E a B64 N1), (E a B85 N2), (E _ _ N3).
  replace (is_reserved a) with false by (symmetry; unfold is_reserved; destruct (smem a RESERVED) eqn:M; auto; apply smem_In in M; destruct (Nr M)).
  replace (dunder a) with false by (symmetry; unfold dunder; destruct (prefixb (u "__") a) eqn:M; auto; apply prefix2 in M; destruct M as [r M]; destruct (Nu r M)).
  cbn [negb andb]. destruct keys; [|reflexivity]. cbn [negb orb andb].
  destruct (prefixb JSON_KEY a) eqn:P; auto. exfalso.
  assert (X : exists r, a = JSON_KEY ++ r).
  { revert P. generalize JSON_KEY. clear. intros l. revert a. induction l as [|x l IH]; intros a P; [exists a; reflexivity|].
    destruct a as [|y a]; [discriminate|]. cbn [prefixb] in P. apply andb_true_iff in P. destruct P as [Q P]. apply N.eqb_eq in Q. subst y.
    destruct (IH a P) as [r ->]. exists r. reflexivity. }
  destruct X as [r X]. exact (Nj eq_refl r X).
Qed.
Print Assumptions C42_names.
(** C35.  The name under which a declared slot is looked up: two leading underscores get the class in front. *)
Theorem C35_names :
  forall c, (forall r, mangle c (u "__" ++ r) = u "_" ++ c_name c ++ u "__" ++ r) /\
  (forall a, (forall r, a <> u "__" ++ r) -> mangle c a = a).
Proof.
  intros c. split; [reflexivity|]. intros a N. unfold mangle. replace (dunder a) with false; [reflexivity|].
  symmetry. unfold dunder. destruct (prefixb (u "__") a) eqn:M; auto. apply prefix2 in M. destruct M as [r M]. destruct (N r M).
Qed.
Print Assumptions C35_names.
(** A protected name. *)
Example C42_names_case : attr_ok true (w_cls W0 cNode) (u "_total") = true /\ (forall r, u "_total" <> u "__" ++ r).
Proof. split; [vm_compute; reflexivity|]. intros r. discriminate. Qed.
