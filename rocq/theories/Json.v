(** JSON documents, i.e. the values handed to and returned by the JSON backend
    (None, bool, int, float, str, list, dict with string keys).  A Python dict keeps
    insertion order and has no duplicate keys: [JObj] is an association list and all
    updates go through [jset].  A float is represented by its repr token. *)
From Verif Require Import PyStr.

Inductive json : Type :=
| JNull
| JBool (b : bool)
| JInt (z : Z)
| JFloat (tok : pystr)
| JStr (s : pystr)
| JList (l : list json)
| JObj (o : list (pystr * json)).

Section json_ind.
  Variable P : json -> Prop.
  Hypothesis Hnull : P JNull.
  Hypothesis Hbool : forall b, P (JBool b).
  Hypothesis Hint : forall z, P (JInt z).
  Hypothesis Hfloat : forall t, P (JFloat t).
  Hypothesis Hstr : forall s, P (JStr s).
  Hypothesis Hlist : forall l, Forall P l -> P (JList l).
  Hypothesis Hobj : forall o, Forall (fun kv => P (snd kv)) o -> P (JObj o).
  Fixpoint json_ind' (j : json) : P j :=
    match j with
    | JNull => Hnull
    | JBool b => Hbool b
    | JInt z => Hint z
    | JFloat t => Hfloat t
    | JStr s => Hstr s
    | JList l =>
        Hlist l ((fix go (l : list json) : Forall P l :=
                    match l with [] => Forall_nil _ | x :: r => Forall_cons _ (json_ind' x) (go r) end) l)
    | JObj o =>
        Hobj o ((fix go (o : list (pystr * json)) : Forall (fun kv => P (snd kv)) o :=
                   match o with
                   | [] => Forall_nil _
                   | kv :: r => Forall_cons _ (json_ind' (snd kv)) (go r)
                   end) o)
    end.
End json_ind.

(** Generic ordered association lists keyed by strings (Python dicts with str keys). *)
Section assoc.
  Context {V : Type}.
  Fixpoint sget (k : pystr) (o : list (pystr * V)) : option V :=
    match o with
    | [] => None
    | (k', v) :: r => if seqb k k' then Some v else sget k r
    end.
  (** [d[k] = v]: overwrite in place, else append. *)
  Fixpoint sset (k : pystr) (v : V) (o : list (pystr * V)) : list (pystr * V) :=
    match o with
    | [] => [(k, v)]
    | (k', v') :: r => if seqb k k' then (k', v) :: r else (k', v') :: sset k v r
    end.
  Fixpoint sdel (k : pystr) (o : list (pystr * V)) : list (pystr * V) :=
    match o with
    | [] => []
    | (k', v') :: r => if seqb k k' then r else (k', v') :: sdel k r
    end.
  Definition shas (k : pystr) (o : list (pystr * V)) : bool :=
    match sget k o with Some _ => true | None => false end.
  Definition keys (o : list (pystr * V)) : list pystr := map fst o.

  Lemma sget_None k o : sget k o = None <-> ~ In k (keys o).
  Proof.
    induction o as [|[k' v] o IH]; simpl; [tauto|].
    destruct (seqb_spec k k') as [->|N]; split; intros H.
    - discriminate.
    - exfalso; auto.
    - intros [E|E]; [congruence|]. apply IH in H; auto.
    - apply IH. auto.
  Qed.
  Lemma sset_app k v o : ~ In k (keys o) -> sset k v o = o ++ [(k, v)].
  Proof.
    induction o as [|[k' v'] o IH]; simpl; intros H; auto.
    destruct (seqb_spec k k') as [->|N]; [exfalso; auto|]. f_equal. auto.
  Qed.
  Lemma sget_sset_same k v o : sget k (sset k v o) = Some v.
  Proof.
    induction o as [|[k' v'] o IH]; simpl; [rewrite seqb_refl; auto|].
    destruct (seqb k k') eqn:E; simpl; rewrite E; auto.
  Qed.
  Lemma sget_sset_other k k' v o : k <> k' -> sget k (sset k' v o) = sget k o.
  Proof.
    intros N. induction o as [|[k2 v2] o IH]; simpl.
    - destruct (seqb_spec k k'); congruence.
    - destruct (seqb_spec k' k2) as [->|N2]; simpl.
      + destruct (seqb_spec k k2); congruence.
      + destruct (seqb k k2); auto.
  Qed.
  Lemma keys_sset_In k v o : In k (keys o) -> keys (sset k v o) = keys o.
  Proof.
    induction o as [|[k' v'] o IH]; simpl; [tauto|]. intros H.
    destruct (seqb_spec k k') as [->|N]; auto. simpl. f_equal. apply IH. destruct H; congruence.
  Qed.
  Lemma sset_keys_incl k v o x : In x (keys (sset k v o)) <-> x = k \/ In x (keys o).
  Proof.
    induction o as [|[k' v'] o IH]; simpl; [intuition|].
    destruct (seqb_spec k k') as [->|N]; simpl; [intuition|]. rewrite IH. intuition.
  Qed.
  Lemma NoDup_sset k v o : NoDup (keys o) -> NoDup (keys (sset k v o)).
  Proof.
    induction o as [|[k' v'] o IH]; simpl; intros H.
    - constructor; auto.
    - inversion H; subst. destruct (seqb_spec k k') as [->|N]; simpl; constructor; auto.
      intros C. apply sset_keys_incl in C. destruct C; congruence.
  Qed.
  Lemma sget_In k v o : sget k o = Some v -> In (k, v) o.
  Proof.
    induction o as [|[k' v'] o IH]; simpl; [discriminate|].
    destruct (seqb_spec k k') as [->|N]; intros H.
    - injection H as ->; auto.
    - auto.
  Qed.
  Lemma sget_Some_In k v o : sget k o = Some v -> In k (keys o).
  Proof. intros H. apply sget_In in H. apply (in_map fst) in H. auto. Qed.
  Lemma shas_In k o : shas k o = true <-> In k (keys o).
  Proof.
    unfold shas. destruct (sget k o) eqn:E.
    - split; auto. intros _. eapply sget_Some_In; eauto.
    - split; [discriminate|]. intros H. apply sget_None in E. contradiction.
  Qed.
  Lemma sget_NoDup k v o : NoDup (keys o) -> In (k, v) o -> sget k o = Some v.
  Proof.
    induction o as [|[k' v'] o IH]; simpl; intros N H; [tauto|]. inversion N; subst.
    destruct H as [H|H].
    - injection H as -> ->. rewrite seqb_refl; auto.
    - destruct (seqb_spec k k') as [->|Ne]; auto.
      exfalso. apply H2. apply (in_map fst) in H. auto.
  Qed.
  Lemma sget_app k a b : sget k (a ++ b) = match sget k a with Some v => Some v | None => sget k b end.
  Proof.
    induction a as [|[k' v'] a IH]; simpl; auto. destruct (seqb k k'); auto.
  Qed.
  Lemma sset_Forall (Q : pystr * V -> Prop) k v o : Forall Q o -> Q (k, v) -> 
    (forall k' v', Q (k', v') -> seqb k k' = true -> Q (k', v)) -> Forall Q (sset k v o).
  Proof.
    intros HF HQ HR. induction HF as [|[k' v'] o H HF IH]; simpl; [constructor; auto|].
    destruct (seqb k k') eqn:E; constructor; auto. eapply HR; eauto.
  Qed.
End assoc.

Notation jobj := (list (pystr * json)).
Notation jset := (@sset json).
Notation jget := (@sget json).

(** Build a dict from a list of pairs in order, as [json.loads] and [dict(pairs)] do. *)
Definition sbuild {V} (l : list (pystr * V)) : list (pystr * V) :=
  fold_left (fun o kv => sset (fst kv) (snd kv) o) l [].

Lemma sbuild_NoDup_gen {V} (l o : list (pystr * V)) :
  NoDup (keys (o ++ l)) -> fold_left (fun o kv => sset (fst kv) (snd kv) o) l o = o ++ l.
Proof.
  revert o. induction l as [|[k v] l IH]; simpl; intros o H; [rewrite app_nil_r; auto|].
  assert (N : ~ In k (keys o)).
  { unfold keys in H. rewrite map_app in H. simpl in H. apply NoDup_remove_2 in H.
    intros C; apply H. apply in_or_app; auto. }
  rewrite (sset_app _ _ _ N).
  rewrite IH.
  - rewrite <- app_assoc; auto.
  - rewrite <- app_assoc. simpl. exact H.
Qed.
Lemma sbuild_NoDup {V} (l : list (pystr * V)) : NoDup (keys l) -> sbuild l = l.
Proof. intros H. unfold sbuild. rewrite sbuild_NoDup_gen; auto. Qed.

Lemma NoDup_sbuild {V} (l : list (pystr * V)) : NoDup (keys (sbuild l)).
Proof.
  unfold sbuild. assert (H : NoDup (keys (@nil (pystr * V)))) by constructor.
  revert H. generalize (@nil (pystr * V)). induction l as [|kv l IH]; simpl; intros o H; auto.
  apply IH. apply NoDup_sset; auto.
Qed.

(** Python truthiness of a JSON value. *)
Definition float_zero (t : pystr) : bool :=
  forallb (fun c => negb ((49 <=? c) && (c <=? 57))%N) 
          ((fix mant (t : pystr) : pystr := match t with
            | [] => []
            | c :: r => if (c =? 101)%N || (c =? 69)%N then [] else c :: mant r
            end) t)
  && negb (seqb t (u "NaN") || seqb t (u "Infinity") || seqb t (u "-Infinity")).
Definition jtruthy (j : json) : bool :=
  match j with
  | JNull => false
  | JBool b => b
  | JInt z => negb (Z.eqb z 0)
  | JFloat t => negb (float_zero t)
  | JStr s => match s with [] => false | _ => true end
  | JList l => match l with [] => false | _ => true end
  | JObj o => match o with [] => false | _ => true end
  end.

(** Size measures. *)
Fixpoint jweight (j : json) : nat :=
  match j with
  | JStr s => S (length s)
  | JList l => S (list_sum (map jweight l))
  | JObj o => S (list_sum (map (fun kv => match kv with (k, v) => length k + 1 + jweight v end) o))
  | _ => 1
  end.
