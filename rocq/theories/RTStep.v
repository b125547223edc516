(** Round trip, part 2: elementary steps of encoder and decoder. *)
From Verif Require Import PyStr Tags Json JsonText JsonTextProofs B64 B85 Base Heap Registry LoadClass Pickler Unpickler SpecGraph.
From Verif Require Import CodecProofs PlainProofs RTBase.
Open Scope nat_scope.
Local Open Scope monad_scope.

(** ** Heaps that only grow or fill in objects *)
Definition okind (h1 : heap) (o o2 : obj) : Prop :=
  match o, o2 with
  | OInst i, OInst i2 => i_cls i2 = i_cls i /\
      (i_dict i2 = i_dict i \/ forall d, i_dict i2 = Some d -> exists a, hget h1 d = Some (ODict a))
  | ODict d, ODict d2 => noprox d -> noprox d2
  | OSet x, OSet y => x = y
  | OByteArray x, OByteArray y => x = y
  | OList _, OList _ | OIter _, OIter _ => True
  | _, _ => False
  end.
Definition evolve (h1 h2 : heap) : Prop :=
  forall x o, hget h1 x = Some o -> exists o2, hget h2 x = Some o2 /\ okind h1 o o2.
Lemma okind_refl h1 o : okind h1 o o.
Proof. destruct o; simpl; auto. Qed.
Lemma evolve_refl h1 : evolve h1 h1.
Proof. intros x o H. exists o. split; auto. apply okind_refl. Qed.
Lemma evolve_alloc h1 o : evolve h1 (h1 ++ [o]).
Proof. intros x o1 H. exists o1. split; [|apply okind_refl]. rewrite hget_app_old; auto. eapply hget_lt; eauto. Qed.
Lemma evolve_alloc2 h1 o o' : evolve h1 ((h1 ++ [o]) ++ [o']).
Proof.
  intros x o1 H. exists o1. split; [|apply okind_refl]. pose proof (hget_lt _ _ _ H).
  rewrite hget_app_old, hget_app_old; auto. rewrite app_length. simpl. lia.
Qed.
Lemma evolve_set h1 l o o2 : hget h1 l = Some o -> okind h1 o o2 -> evolve h1 (hset h1 l o2).
Proof.
  intros H K x o1 Hx. destruct (Nat.eq_dec l x) as [->|N].
  - exists o2. rewrite hget_hset_same by (eapply hget_lt; eauto). split; auto. congruence.
  - exists o1. rewrite hget_hset_other by auto. split; auto. apply okind_refl.
Qed.

Lemma evolve_leaf h1 h2 x o : evolve h1 h2 -> leaf o = true -> hget h1 x = Some o -> hget h2 x = Some o.
Proof.
  intros EV L H. destruct (EV x o H) as (o2 & H2 & K). destruct o, o2; try discriminate; simpl in K; try tauto; congruence.
Qed.

Lemma evolve_len h1 h2 : evolve h1 h2 -> length h1 <= length h2.
Proof.
  intros EV. destruct (length h1) as [|n] eqn:E; [lia|]. destruct (hget h1 n) as [o|] eqn:G.
  - destruct (EV n o G) as (o2 & G2 & _). apply hget_lt in G2. lia.
  - apply nth_error_None in G. lia.
Qed.

Lemma NoDup_app_snoc {A} (l : list A) x : NoDup l -> ~ In x l -> NoDup (l ++ [x]).
Proof.
  induction 1 as [|a l Ha ND IH]; simpl; intros N.
  - constructor; [intros [] | constructor].
  - constructor; [|apply IH; tauto]. rewrite in_app_iff. simpl. intros [G|[G|[]]]; [auto|]. subst. tauto.
Qed.

Section steps.
  Variables (w : world) (k : hooks) (keys : bool) (cl : list (pystr * val)) (h : heap) (bs : nat).
  Notation cls := (w_cls w).
  Notation shape := (shape w k keys cl h).
  Notation reach := (reach w k keys cl h).
  Notation sub := (sub w k keys cl h).
  Notation supported := (supported w k keys cl h).
  Notation Inv := (Inv cl h bs).
  Notation front := (front w k keys cl h bs).
  Notation adv := (adv w k keys cl h bs).
  Notation head_ok := (head_ok h).

  Lemma head_ok_evolve h1 h2 l l' : evolve h1 h2 -> head_ok h1 l l' -> head_ok h2 l l'.
  Proof.
    intros EV H. unfold RTBase.head_ok in *. destruct (hget h l) as [[xs|xs|d|b|i|x]|]; try tauto;
      destruct (hget h1 l') as [o|] eqn:G; try tauto; destruct (EV _ _ G) as (o2 & G2 & K); rewrite G2;
      destruct o, o2; simpl in K; try tauto.
    destruct K as [K1 K2]. destruct H as [H1 H2]. split; [congruence|].
    intros j d Hj Hd. rewrite G2 in Hj. injection Hj as <-.
    assert (X : exists a, hget h1 d = Some (ODict a)).
    { destruct K2 as [K2|K2]; [eapply H2; eauto; congruence | auto]. }
    destruct X as [a Ha]. destruct (EV _ _ Ha) as (o3 & G3 & K3). destruct o3; simpl in K3; try tauto. eauto.
  Qed.
  Lemma ent_evolve t t2 e x : evolve (u_heap t) (u_heap t2) -> length (u_prox t) <= length (u_prox t2) ->
    ent h t e x -> ent h t2 e x.
  Proof.
    intros EV L H. destruct e, x; simpl in *; try tauto; [eapply head_ok_evolve; eauto | lia].
  Qed.
  Lemma inv_evolve s t t2 : Inv s t -> u_objs t2 = u_objs t -> u_idx t2 = u_idx t -> u_classes t2 = u_classes t ->
    length (u_prox t) <= length (u_prox t2) -> evolve (u_heap t) (u_heap t2) -> Inv s t2.
  Proof.
    intros [A B C D E F G] H1 H2 H3 H4 H5. constructor; auto; try congruence.
    - rewrite H1, H2. auto.
    - rewrite H1. eapply Forall2_impl; [|exact E]. intros. eapply ent_evolve; eauto.
    - pose proof (evolve_len _ _ H5). lia.
  Qed.
  Lemma inv_depth s t d : Inv s t -> (0 <= d)%Z -> Inv (set_depth d s) t.
  Proof. intros [A B C D E F G] H. constructor; auto. Qed.
  Lemma inv_warned s t v : Inv s t -> Inv (add_warned v s) t.
  Proof. intros [A B C D E F G]. constructor; auto. Qed.

  Definition openE (e : val) (s : pst) : pst := set_objs (p_objs s ++ [e]) s.
  Lemma inv_open s t e x t1 : Inv s t -> ~ In e (p_objs s) -> ~ In x (u_objs t) ->
    u_objs t1 = u_objs t ++ [x] -> u_idx t1 = (x, length (u_objs t)) :: u_idx t ->
    u_classes t1 = u_classes t -> length (u_prox t) <= length (u_prox t1) -> evolve (u_heap t) (u_heap t1) ->
    ent h t1 e x -> Inv (openE e s) t1.
  Proof.
    intros [A B C D E F G0] N1 N2 H1 H2 H3 H4 H5 H6. constructor; auto; try congruence.
    - simpl. apply NoDup_app_snoc; auto.
    - intros v n. rewrite H1, H2. simpl. rewrite nth_error_snoc. destruct (val_eqb_spec v x) as [->|Nv].
      + split; [intros G; injection G as <-; right; auto|]. intros [G|[-> _]]; auto.
        apply nth_error_In in G. contradiction.
      + rewrite D. split; auto. intros [G|[_ G]]; auto. contradiction.
    - simpl. rewrite H1. apply Forall2_app; [|constructor; auto].
      eapply Forall2_impl; [|exact E]. intros. eapply ent_evolve; eauto.
    - pose proof (evolve_len _ _ H5). lia.
  Qed.

  Lemma list_set_app {A} (l r : list A) x y : list_set (l ++ x :: r) (length l) y = l ++ y :: r.
  Proof. induction l; simpl; auto. f_equal. auto. Qed.
  Lemma Forall2_list_set {A B} (P : A -> B -> Prop) l l' n x y : Forall2 P l l' -> nth_error l n = Some x -> P x y ->
    Forall2 P l (list_set l' n y).
  Proof.
    intros F. revert n. induction F; intros [|n] G Q; simpl in *; try discriminate.
    - injection G as ->. constructor; auto.
    - constructor; auto.
  Qed.
  Lemma inv_swap s t n l p x t1 : Inv s t -> nth_error (p_objs s) n = Some (VLoc l) ->
    nth_error (u_objs t) n = Some (VProxy p) -> ~ In (VLoc x) (u_objs t) ->
    u_objs t1 = list_set (u_objs t) n (VLoc x) ->
    u_idx t1 = idx_del (VProxy p) ((VLoc x, n) :: idx_del (VLoc x) (u_idx t)) ->
    u_classes t1 = u_classes t -> length (u_prox t) <= length (u_prox t1) -> evolve (u_heap t) (u_heap t1) ->
    head_ok (u_heap t1) l x -> Inv s t1.
  Proof.
    intros I N1 N2 N3 H1 H2 H3 H4 H5 H6. pose proof I as [A B C D E F G0]. constructor; auto; try congruence.
    - intros v m. rewrite H1, H2, idx_get_del. simpl.
      assert (L : n < length (u_objs t)) by (apply nth_error_Some; congruence).
      destruct (val_eqb_spec v (VProxy p)) as [->|Nv].
      + split; [discriminate|]. intros G. exfalso. destruct (Nat.eq_dec n m) as [<-|Nm].
        * rewrite list_set_nth in G by auto. discriminate.
        * rewrite list_set_other in G by auto. apply Nm. eapply D_inj; eauto.
      + destruct (val_eqb_spec v (VLoc x)) as [->|Nx].
        * split; [intros G; injection G as <-; apply list_set_nth; auto|].
          intros G. destruct (Nat.eq_dec n m) as [<-|Nm]; auto.
          rewrite list_set_other in G by auto. apply nth_error_In in G. contradiction.
        * rewrite idx_get_del. destruct (val_eqb_spec v (VLoc x)); [contradiction|]. rewrite D.
          destruct (Nat.eq_dec n m) as [<-|Nm].
          -- rewrite list_set_nth by auto. split; congruence.
          -- rewrite list_set_other by auto. tauto.
    - rewrite H1. eapply Forall2_list_set; eauto.
      eapply Forall2_impl; [|exact E]. intros. eapply ent_evolve; eauto.
    - pose proof (evolve_len _ _ H5). lia.
  Qed.

  (** Own cells changed, nothing else. *)
  Lemma adv_own (O : loc -> Prop) J s t t2 : Inv s t -> u_objs t2 = u_objs t -> u_idx t2 = u_idx t ->
    u_classes t2 = u_classes t -> length (u_prox t) <= length (u_prox t2) -> evolve (u_heap t) (u_heap t2) ->
    u_swaps t2 = u_swaps t ->
    (forall x, x < length (u_heap t) -> ~ O x -> hget (u_heap t2) x = hget (u_heap t) x) ->
    length (u_heap t) <= length (u_heap t2) -> adv O J s t s t2.
  Proof.
    intros I H1 H2 H3 H4 H5 H6 H7 H8. constructor; auto.
    - eapply inv_evolve; eauto.
    - exists []. rewrite app_nil_r; auto.
    - intros i x Hx _. congruence.
    - intros x o. apply evolve_leaf; auto.
    - intros i l L Hl. apply nth_error_None in L. congruence.
  Qed.
  Lemma adv_log s t lg : Inv s t -> adv none none s t s (us_log lg t).
  Proof. intros I. apply adv_own; auto. apply evolve_refl. Qed.

  (** A newly numbered object, from its first registration to its completion. *)
  Lemma adv_close (O : loc -> Prop) (J : nat -> Prop) s t l t1 s2 t2 p : Inv s t ->
    length (u_objs t1) = S (length (u_objs t)) ->
    (forall i x, nth_error (u_objs t) i = Some x -> nth_error (u_objs t1) i = Some x) ->
    length (u_heap t) <= length (u_heap t1) ->
    (forall x, x < length (u_heap t) -> hget (u_heap t1) x = hget (u_heap t) x) ->
    u_swaps t1 = u_swaps t ->
    adv O J (openE (VLoc l) s) t1 s2 t2 ->
    (forall x, O x -> length (u_heap t) <= x) -> (forall i, J i -> i = length (p_objs s)) ->
    nth_error (u_objs t2) (length (p_objs s)) = Some (VLoc p) ->
    omatch w k keys h (u_heap t2) (length (u_heap t)) bs (rel s2 t2) l p ->
    adv none none s t s2 t2.
  Proof.
    intros I L1 HD L HH HS A HO HJ Hp HM. destruct (a_E _ _ _ _ _ _ _ _ _ _ _ _ A) as [E2 HE]. simpl in HE. 
    constructor.
    - apply A.
    - exists (VLoc l :: E2). rewrite HE, <- app_assoc. reflexivity.
    - intros i x Hx _. apply (a_D _ _ _ _ _ _ _ _ _ _ _ _ A); auto. intros HJi. apply HJ in HJi.
      assert (i < length (u_objs t)) by (apply nth_error_Some; congruence).
      pose proof (ent_len _ _ _ _ _ I). lia.
    - apply (a_depth _ _ _ _ _ _ _ _ _ _ _ _ A).
    - pose proof (a_len _ _ _ _ _ _ _ _ _ _ _ _ A). lia.
    - intros x Hx _. rewrite (a_heap _ _ _ _ _ _ _ _ _ _ _ _ A); auto; [lia|]. intros C. apply HO in C. lia.
    - intros x o Hl Hx. apply (a_leaf _ _ _ _ _ _ _ _ _ _ _ _ A); auto. rewrite HH; auto. eapply hget_lt; eauto.
    - rewrite (a_swaps _ _ _ _ _ _ _ _ _ _ _ _ A). auto.
    - intros i x Hi Hx. destruct (Nat.eq_dec i (length (p_objs s))) as [->|N].
      + rewrite HE, <- app_assoc in Hx. rewrite nth_error_app2, Nat.sub_diag in Hx by auto. simpl in Hx.
        injection Hx as <-. eauto.
      + destruct (a_new _ _ _ _ _ _ _ _ _ _ _ _ A i x) as (l' & D & M); auto.
        { simpl. rewrite app_length. simpl. lia. }
        exists l'. split; auto. eapply omatch_stable; [exact L| | | | |exact M]; auto.
        eapply omatch_dict_exists; [apply A | exists i; eauto].
  Qed.

  (** [front] for a part c of an object l that is being restored. *)
  Lemma front_open (O : loc -> Prop) (J : nat -> Prop) s t l t1 s2 t2 c : Inv s t -> front s t (VLoc l) ->
    (forall i x, nth_error (u_objs t) i = Some (VLoc x) -> nth_error (u_objs t1) i = Some (VLoc x)) ->
    (forall x, x < length (u_heap t) -> hget (u_heap t1) x = hget (u_heap t) x) ->
    length (u_heap t) <= length (u_heap t1) ->
    adv O J (openE (VLoc l) s) t1 s2 t2 ->
    (forall x, O x -> length (u_heap t) <= x) ->
    (exists p, nth_error (u_objs t2) (length (p_objs s)) = Some (VLoc p)) \/ ~ reach c (VLoc l) ->
    reach (VLoc l) c -> front s2 t2 c.
  Proof.
    intros I F HD HH HL A HO Hp S. destruct (a_E _ _ _ _ _ _ _ _ _ _ _ _ A) as [E2 HE]. simpl in HE.
    eapply front_step; eauto.
    - exists (VLoc l :: E2). rewrite HE, <- app_assoc. reflexivity.
    - intros i x Hx. eapply adv_Dloc; eauto.
    - intros x o Hx. pose proof (hget_lt _ _ _ Hx). rewrite (a_heap _ _ _ _ _ _ _ _ _ _ _ _ A); [|lia|].
      + rewrite HH; auto.
      + intros C. apply HO in C. lia.
    - intros i x Hi Hx. destruct (Nat.eq_dec i (length (p_objs s))) as [->|N].
      + rewrite HE, <- app_assoc in Hx. rewrite nth_error_app2, Nat.sub_diag in Hx by auto. simpl in Hx.
        injection Hx as <-. right. auto.
      + eapply adv_entry; eauto. simpl. rewrite app_length. simpl. lia.
  Qed.

  (** ** Hashing and key equality survive *)
  Lemma hash_match s t b v v' : Inv s t -> vmatch h (u_heap t) b (rel s t) v v' ->
    hashable cls h v = true -> hashable cls (u_heap t) v' = true.
  Proof.
    intros I H. induction H using vmatch_ind'; intros G.
    - destruct v; simpl in *; auto; discriminate.
    - simpl in *. induction H0; simpl in *; auto. inversion H; subst. apply andb_true_iff in G as [G1 G2].
      rewrite H0 by auto. auto.
    - simpl in G. rewrite H in G. discriminate.
    - simpl in G. rewrite H in G. discriminate.
    - simpl in *. apply (rel_head cl h bs) in H; auto. unfold RTBase.head_ok in H. 
      destruct (hget h l) as [[]|]; try discriminate; try tauto.
      destruct (hget (u_heap t) l') as [[]|]; try tauto. destruct H as [-> _]. auto.
  Qed.
  Lemma key_match_inj s t b v1 v1' : Inv s t -> vmatch h (u_heap t) b (rel s t) v1 v1' ->
    forall v2 v2', vmatch h (u_heap t) b (rel s t) v2 v2' -> hashable cls h v1 = true -> hashable cls h v2 = true ->
    norm_key v1' = norm_key v2' -> norm_key v1 = norm_key v2.
  Proof.
    intros I H. induction H using vmatch_ind'; intros v2 v2' M G1 G2 E.
    - inversion M; subst; auto; destruct v; simpl in *; discriminate.
    - inversion M; subst; try (try destruct v2'; simpl in *; discriminate).
      + simpl in *. f_equal. injection E as E. revert xs0 ys0 H1 M G2 E.
        induction H0 as [|x y xs ys Hx F IH]; intros xs0 ys0 H1 M G2 E.
        * inversion H1; subst; auto. discriminate.
        * inversion H1; subst; [discriminate|]. simpl in *. inversion H; subst.
          apply andb_true_iff in G1 as [? ?]. apply andb_true_iff in G2 as [? ?]. injection E as E1 E2.
          f_equal; [eapply Hx; eauto|]. eapply IH; eauto. constructor; auto.
    - simpl in G1. rewrite H in G1. discriminate.
    - simpl in G1. rewrite H in G1. discriminate.
    - inversion M; subst; try (try destruct v2'; simpl in *; discriminate).
      + simpl in G2. rewrite H0 in G2. discriminate.
      + simpl in G2. rewrite H0 in G2. discriminate.
      + simpl in *. injection E as ->. f_equal. eapply (rel_inj cl h bs); eauto.
  Qed.
  Lemma key_eqb_match s t b v1 v1' v2 v2' : Inv s t -> vmatch h (u_heap t) b (rel s t) v1 v1' ->
    vmatch h (u_heap t) b (rel s t) v2 v2' -> hashable cls h v1 = true -> hashable cls h v2 = true ->
    key_eqb v1 v2 = false -> key_eqb v1' v2' = false.
  Proof.
    intros I H1 H2 G1 G2 E. destruct (key_eqb v1' v2') eqn:X; auto.
    unfold key_eqb in *. apply val_eqb_eq in X. eapply key_match_inj in X; eauto.
    apply val_eqb_eq in X. congruence.
  Qed.
End steps.
