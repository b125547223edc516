(** Round trip, part 1: the relation between encoder and decoder states. *)
From Verif Require Import PyStr Tags Json JsonText JsonTextProofs B64 B85 Base Heap Registry LoadClass Pickler Unpickler SpecGraph.
From Verif Require Import CodecProofs PlainProofs.
Open Scope nat_scope.
Local Open Scope monad_scope.

(** ** Induction for vmatch *)
Section vmatch_ind.
  Variables (h h' : heap) (b : nat) (R : loc -> loc -> Prop) (P : val -> val -> Prop).
  Hypothesis H1 : forall v, atom v = true -> P v v.
  Hypothesis H2 : forall xs ys, Forall2 (vmatch h h' b R) xs ys -> Forall2 P xs ys -> P (VTuple xs) (VTuple ys).
  Hypothesis H3 : forall l l' xs ys, hget h l = Some (OSet xs) -> b <= l' -> hget h' l' = Some (OSet ys) ->
    Forall2 (vmatch h h' b R) xs ys -> Forall2 P xs ys -> P (VLoc l) (VLoc l').
  Hypothesis H4 : forall l l' x, hget h l = Some (OByteArray x) -> b <= l' -> hget h' l' = Some (OByteArray x) -> P (VLoc l) (VLoc l').
  Hypothesis H5 : forall l l', R l l' -> P (VLoc l) (VLoc l').
  Fixpoint vmatch_ind' v v' (H : vmatch h h' b R v v') {struct H} : P v v' :=
    let fix go xs ys (F : Forall2 (vmatch h h' b R) xs ys) {struct F} : Forall2 P xs ys :=
      match F in Forall2 _ a b return Forall2 P a b with
      | Forall2_nil _ => Forall2_nil P
      | Forall2_cons x y hxy r => Forall2_cons x y (vmatch_ind' x y hxy) (go _ _ r)
      end in
    match H in vmatch _ _ _ _ a b return P a b with
    | vm_atom _ _ _ _ v e => H1 v e
    | vm_tuple _ _ _ _ xs ys F => H2 xs ys F (go xs ys F)
    | vm_set _ _ _ _ l l' xs ys a1 a2 a3 F => H3 l l' xs ys a1 a2 a3 F (go xs ys F)
    | vm_bytearray _ _ _ _ l l' x a1 a2 a3 => H4 l l' x a1 a2 a3
    | vm_obj _ _ _ _ l l' r => H5 l l' r
    end.
End vmatch_ind.

Lemma Forall2_impl {A B} (P Q : A -> B -> Prop) l l' : (forall a b, P a b -> Q a b) -> Forall2 P l l' -> Forall2 Q l l'.
Proof. intros H F. induction F; constructor; auto. Qed.
Lemma Forall2_len {A B} (P : A -> B -> Prop) l l' : Forall2 P l l' -> length l = length l'.
Proof. induction 1; simpl; auto. Qed.

(** Objects that never change once made. *)
Definition leaf (o : obj) : bool := match o with OSet _ | OByteArray _ => true | _ => false end.
Lemma vmatch_mono h h1 h2 b b2 (R1 R2 : loc -> loc -> Prop) v v' :
  b2 <= b -> (forall l l', R1 l l' -> R2 l l') ->
  (forall x o, leaf o = true -> hget h1 x = Some o -> hget h2 x = Some o) ->
  vmatch h h1 b R1 v v' -> vmatch h h2 b2 R2 v v'.
Proof.
  intros Hb HR HH H. induction H using vmatch_ind'.
  - constructor; auto.
  - constructor; auto.
  - eapply vm_set; eauto. lia.
  - eapply vm_bytearray; eauto. lia.
  - apply vm_obj; auto.
Qed.
Lemma vmatch_not_proxy h h' b R v v' : vmatch h h' b R v v' -> is_proxy v' = false.
Proof. intros H; inversion H; subst; auto. destruct v'; auto; discriminate. Qed.

Section stable.
  Variables (w : world) (k : hooks) (h h1 h2 : heap) (b b2 B B2 : nat) (R1 R2 : loc -> loc -> Prop).
  Hypothesis Hb : b2 <= b.
  Hypothesis HB : B2 <= B.
  Hypothesis HR : forall l l', R1 l l' -> R2 l l'.
  Hypothesis HH : forall x o, b <= x -> hget h1 x = Some o -> hget h2 x = Some o.
  Hypothesis HL : forall x o, leaf o = true -> hget h1 x = Some o -> hget h2 x = Some o.

  Lemma vm_stable v v' : vmatch h h1 B R1 v v' -> vmatch h h2 B2 R2 v v'.
  Proof. apply vmatch_mono; auto. Qed.
  Lemma vms_stable xs ys : Forall2 (vmatch h h1 B R1) xs ys -> Forall2 (vmatch h h2 B2 R2) xs ys.
  Proof. apply Forall2_impl. apply vm_stable. Qed.
  Lemma pm_stable p p' : pmatch h h1 B R1 p p' -> pmatch h h2 B2 R2 p p'.
  Proof. intros [H1 H2]. split; apply vm_stable; auto. Qed.
  Lemma pms_stable xs ys : Forall2 (pmatch h h1 B R1) xs ys -> Forall2 (pmatch h h2 B2 R2) xs ys.
  Proof. apply Forall2_impl. apply pm_stable. Qed.
  Lemma opt_stable x x' : omatch_opt h h1 B R1 x x' -> omatch_opt h h2 B2 R2 x x'.
  Proof. destruct x, x'; simpl; auto. apply vm_stable. Qed.
  Lemma made_stable a kw r : made_match h h1 B R1 a kw r -> made_match h h2 B2 R2 a kw r.
  Proof.
    intros (a' & kw' & E & F & G). exists a', kw'. split; auto. split; [apply vms_stable; auto|].
    eapply Forall2_impl; [|exact G]. intros p p' [X Y]. split; auto. apply vm_stable; auto.
  Qed.
  (** The attribute dict of i' has to exist and be fresh. *)
  Lemma inst_attr_same i a : (forall d, i_dict i = Some d -> b <= d) ->
    inst_attr h2 i a = inst_attr h1 i a \/ exists d, i_dict i = Some d /\ hget h1 d = None.
  Proof.
    intros H. unfold inst_attr. destruct (sget a (i_slots i)); auto. destruct (i_dict i) as [d|] eqn:E; auto.
    destruct (hget h1 d) as [o|] eqn:G; [|right; eauto]. left. rewrite (HH d o); auto.
  Qed.
  Lemma dict_stable a i' : (forall d, i_dict i' = Some d -> b <= d) -> dict_match h h1 B R1 a i' -> dict_match h h2 B2 R2 a i'.
  Proof.
    intros F (d' & a' & E & G & M). exists d', a'. split; auto. split; [apply HH; auto|apply pms_stable; auto].
  Qed.
  Lemma imatch_stable l i i' : (forall d, i_dict i' = Some d -> hget h1 d <> None) ->
    imatch w k h h1 b B R1 l i i' -> imatch w k h h2 b2 B2 R2 l i i'.
  Proof.
    intros HD H. destruct H as [cs args kw OR A0 B0 C D (E1 & E2 & E2' & E3) F | cs args kw OR A0 B0 C D E F G G' G2' | st st' cs args kw OR A0 B0 C D E F | sd a cs args kw OR A0 B0 C D E F G G' | x sb b0 a cs args kw OR A0 B0 C D E E' F G G' | hd pre vs vs' A0 C D | f args args' mkrec st li xs di d A0 C D E F G G'].
    - eapply im_attrs; eauto.
      + apply made_stable; auto.
      + split; [intros d Hd; specialize (E1 d Hd); lia|]. split.
        * intros n. specialize (E2 n).
          destruct (inst_attr_same i' n E1) as [->|(d & Hd & Hn)]; [apply opt_stable; auto|].
          exfalso. eapply HD; eauto.
        * split; [exact E2'|]. intros a Ha. apply dict_stable; auto.
      + intros X. apply vms_stable. auto.
    - eapply im_dictsub; eauto.
      + apply made_stable; auto.
      + apply pms_stable; auto.
      + destruct (i_dict i), (i_dict i'); auto. destruct G as [G|(G0 & G1 & G2 & G3)]; auto. right. repeat split; auto. lia.
    - eapply im_state; eauto. + apply made_stable; auto. + apply vm_stable; auto.
    - eapply im_dstate; eauto.
      + apply made_stable; auto.
      + intros d Hd. specialize (F d Hd). lia.
      + intros n. specialize (G n).
        destruct (inst_attr_same i' n F) as [->|(d & Hd & Hn)]; [apply opt_stable; auto|].
        exfalso. eapply HD; eauto.
      + apply dict_stable; auto.
    - eapply im_pstate; eauto.
      + apply made_stable; auto.
      + intros d Hd. specialize (F d Hd). lia.
      + intros n. specialize (G n).
        destruct (inst_attr_same i' n F) as [->|(d & Hd & Hn)]; [apply opt_stable; auto|].
        exfalso. eapply HD; eauto.
      + intros NN. apply dict_stable; auto.
    - eapply im_handled; eauto. apply vms_stable; auto.
    - eapply im_reduce; eauto.
      + apply vms_stable; auto.
      + destruct (truthy (w_cls w) h st); [destruct (c_setstate (w_cls w (i_cls i)))|].
        * destruct E as (st' & E1 & E2). exists st'. split; auto. apply vm_stable; auto.
        * destruct E as (E1 & x & E2 & E3). split; auto. exists x. split; auto. apply vm_stable; auto.
        * destruct E as [E1 E2]. split; auto. intros x Hx. destruct (E2 x Hx). split; [lia|]. apply HH; auto.
      + apply vms_stable; auto.
      + eapply Forall2_impl; [|exact G]. intros p p' [X Y]. split; apply vm_stable; auto.
  Qed.
End stable.

(** The [__dict__] of a copy exists: part of every state relation below. *)
Definition dict_exists (h' : heap) (l' : loc) : Prop :=
  forall i d, hget h' l' = Some (OInst i) -> i_dict i = Some d -> exists a, hget h' d = Some (ODict a).

Lemma omatch_stable w k keys h h1 h2 b b2 B (R1 R2 : loc -> loc -> Prop) l l' :
  b2 <= b -> (forall l l', R1 l l' -> R2 l l') ->
  (forall x o, b <= x -> hget h1 x = Some o -> hget h2 x = Some o) ->
  (forall x o, leaf o = true -> hget h1 x = Some o -> hget h2 x = Some o) ->
  dict_exists h1 l' ->
  omatch w k keys h h1 b B R1 l l' -> omatch w k keys h h2 b2 B R2 l l'.
Proof.
  intros Hb HR HH HL HD H. destruct H as [xs ys A0 B0 C D | d d' A0 B0 C D | i i' A0 B0 C D E].
  - eapply om_list; eauto; [lia|]. eapply vms_stable; eauto.
  - eapply om_dict; eauto; [lia|]. eapply pms_stable; eauto.
  - eapply om_inst; eauto; [lia|]. eapply imatch_stable; eauto.
    intros x Hx. destruct (HD i' x C Hx) as [y ->]. discriminate.
Qed.

(** ** Lists *)
Lemma nth_error_snoc {A} (l : list A) x i y : nth_error (l ++ [x]) i = Some y <->
  nth_error l i = Some y \/ i = length l /\ y = x.
Proof.
  destruct (Nat.lt_ge_cases i (length l)) as [L|L].
  - rewrite nth_error_app1 by auto. split; auto. intros [H|[H _]]; auto; lia.
  - rewrite nth_error_app2 by auto. split.
    + intros H. destruct (i - length l) as [|n] eqn:E; simpl in H.
      * right. injection H as <-. split; auto. lia.
      * destruct n; discriminate.
    + intros [H|[-> ->]]; [apply nth_error_None in L; congruence|]. rewrite Nat.sub_diag. auto.
Qed.
Lemma nth_error_app_l {A} (l r : list A) i x : nth_error l i = Some x -> nth_error (l ++ r) i = Some x.
Proof. intros H. rewrite nth_error_app1; auto. apply nth_error_Some. congruence. Qed.

Lemma index_of_Some v l n : index_of v l = Some n -> nth_error l n = Some v.
Proof.
  revert n. induction l as [|x l IH]; simpl; intros n H; [discriminate|].
  destruct (val_eqb_spec v x) as [->|N]; [injection H as <-; auto|].
  destruct (index_of v l) as [m|]; [|discriminate]. injection H as <-. simpl. auto.
Qed.
Lemma index_of_None v l : index_of v l = None <-> ~ In v l.
Proof.
  induction l as [|x l IH]; simpl; [tauto|]. destruct (val_eqb_spec v x) as [->|N].
  - split; [discriminate|]. intros H; exfalso; auto.
  - destruct (index_of v l) as [m|]; simpl.
    + split; [discriminate|]. intros H. destruct IH as [_ IH]. exfalso. discriminate IH. intros C; apply H; auto.
    + split; auto. intros _ [C|C]; [congruence|]. apply IH; auto.
Qed.

Lemma idx_get_del v x t : idx_get v (idx_del x t) = if val_eqb v x then None else idx_get v t.
Proof.
  induction t as [|[y n] t IH]; simpl; [destruct (val_eqb v x); auto|].
  destruct (val_eqb_spec x y) as [->|N]; simpl.
  - rewrite IH. destruct (val_eqb v y); auto.
  - rewrite IH. destruct (val_eqb_spec v y) as [->|N2]; auto.
    destruct (val_eqb_spec y x); congruence.
Qed.

Definition noprox (d : list (val * val)) : Prop := Forall (fun kv => is_proxy (snd kv) = false) d.

Section rt.
  Variables (w : world) (k : hooks) (keys : bool) (cl : list (pystr * val)) (h : heap) (bs : nat).
  Notation cls := (w_cls w).
  Notation shape := (shape w k keys cl h).
  Notation reach := (reach w k keys cl h).
  Notation sub := (sub w k keys cl h).
  Notation early := (early w k h).
  Notation supported := (supported w k keys cl h).

  (** Correspondence of encoder and decoder numbering. *)
  Definition rel (s : pst) (t : ust) (l l' : loc) : Prop :=
    exists i, nth_error (p_objs s) i = Some (VLoc l) /\ nth_error (u_objs t) i = Some (VLoc l').

  (** A copy in progress already has the right kind. *)
  Definition head_ok (h' : heap) (l l' : loc) : Prop :=
    match hget h l, hget h' l' with
    | Some (OInst i), Some (OInst i') => i_cls i' = i_cls i /\ dict_exists h' l'
    | Some (ODict _), Some (ODict d') => noprox d'
    | Some (OList _), Some (OList _) => True
    | _, _ => False
    end.
  Definition ent (t : ust) (e x : val) : Prop :=
    match e, x with
    | VMod m, VMod m' => m = m'
    | VLoc l, VLoc l' => head_ok (u_heap t) l l'
    | VLoc l, VProxy p => p < length (u_prox t)
    | _, _ => False
    end.
  Record Inv (s : pst) (t : ust) : Prop := {
    i_heap : p_heap s = h;
    i_depth : (0 <= p_depth s)%Z;
    i_nodup : NoDup (p_objs s);
    i_idx : forall v n, idx_get v (u_idx t) = Some n <-> nth_error (u_objs t) n = Some v;
    i_ent : Forall2 (ent t) (p_objs s) (u_objs t);
    i_tab : u_classes t = cl;
    i_base : bs <= length (u_heap t)
  }.

  (** Entries that are not finished: their object leads to the value about to be encoded;
      if the decoder only has a placeholder, the value does not lead back. *)
  Definition front (s : pst) (t : ust) (v : val) : Prop :=
    forall i l, nth_error (p_objs s) i = Some (VLoc l) ->
      (exists l', nth_error (u_objs t) i = Some (VLoc l') /\ omatch w k keys h (u_heap t) 0 bs (rel s t) l l') \/
      (reach (VLoc l) v /\
       ((exists l', nth_error (u_objs t) i = Some (VLoc l')) \/ ~ reach v (VLoc l))).

  (** Progress from (s,t) to (s',t'); only the cells in O and new ones may change, only the
      placeholders with numbers in J may be replaced. *)
  Record adv (O : loc -> Prop) (J : nat -> Prop) (s : pst) (t : ust) (s' : pst) (t' : ust) : Prop := {
    a_inv : Inv s' t';
    a_E : exists E2, p_objs s' = p_objs s ++ E2;
    a_D : forall i x, nth_error (u_objs t) i = Some x -> (J i -> is_proxy x = false) -> nth_error (u_objs t') i = Some x;
    a_depth : p_depth s' = p_depth s;
    a_len : length (u_heap t) <= length (u_heap t');
    a_heap : forall x, x < length (u_heap t) -> ~ O x -> hget (u_heap t') x = hget (u_heap t) x;
    a_leaf : forall x o, leaf o = true -> hget (u_heap t) x = Some o -> hget (u_heap t') x = Some o;
    a_swaps : u_swaps t' = u_swaps t;
    a_new : forall i l, length (p_objs s) <= i -> nth_error (p_objs s') i = Some (VLoc l) ->
      exists l', nth_error (u_objs t') i = Some (VLoc l') /\
        omatch w k keys h (u_heap t') (length (u_heap t)) bs (rel s' t') l l'
  }.
  Definition none (_ : loc) : Prop := False.

  Lemma reach_trans a x y : reach a x -> reach x y -> reach a y.
  Proof. intros A. induction A; auto. intros B. eapply reach_step; eauto. Qed.
  Lemma reach_sub a x : sub a x -> reach a x.
  Proof. intros H. eapply reach_step; eauto. constructor. Qed.
  Lemma supported_reach a x : supported a -> reach a x -> supported x.
  Proof. intros H R y Hy. apply H. eapply reach_trans; eauto. Qed.
  Lemma supported_sub a x : supported a -> sub a x -> supported x.
  Proof. intros H R. eapply supported_reach; eauto. apply reach_sub; auto. Qed.
  Lemma supported_node a : supported a -> node_ok w k keys cl h a.
  Proof. intros H. apply H. constructor. Qed.

  Lemma ent_len s t : Inv s t -> length (p_objs s) = length (u_objs t).
  Proof. intros I. eapply Forall2_len. apply (i_ent _ _ I). Qed.
  Lemma Forall2_nth {A B} (P : A -> B -> Prop) l l' i x : Forall2 P l l' -> nth_error l i = Some x ->
    exists y, nth_error l' i = Some y /\ P x y.
  Proof.
    intros F. revert i. induction F as [|a b l l' H F IH]; intros [|i] E; simpl in *; try discriminate; eauto.
    injection E as ->. eauto.
  Qed.
  Lemma Forall2_nth_r {A B} (P : A -> B -> Prop) l l' i y : Forall2 P l l' -> nth_error l' i = Some y ->
    exists x, nth_error l i = Some x /\ P x y.
  Proof.
    intros F. revert i. induction F as [|a b l l' H F IH]; intros [|i] E; simpl in *; try discriminate; eauto.
    injection E as ->. eauto.
  Qed.
  Lemma ent_at s t i e : Inv s t -> nth_error (p_objs s) i = Some e ->
    exists x, nth_error (u_objs t) i = Some x /\ ent t e x.
  Proof. intros I. apply Forall2_nth. apply (i_ent _ _ I). Qed.

  Lemma rel_fun s t l x y : Inv s t -> rel s t l x -> rel s t l y -> x = y.
  Proof.
    intros I (i & A & B) (j & C & D). assert (i = j); [|subst; congruence].
    eapply (NoDup_nth_error (p_objs s)); [apply I | apply nth_error_Some; congruence | congruence].
  Qed.
  Lemma D_inj t i j v s : Inv s t -> nth_error (u_objs t) i = Some v -> nth_error (u_objs t) j = Some v -> i = j.
  Proof. intros I A B. apply (i_idx _ _ I) in A. apply (i_idx _ _ I) in B. congruence. Qed.
  Lemma rel_inj s t x y l : Inv s t -> rel s t x l -> rel s t y l -> x = y.
  Proof.
    intros I (i & A & B) (j & C & D). assert (i = j) by (eapply D_inj; eauto). subst. congruence.
  Qed.
  Lemma rel_head s t l l' : Inv s t -> rel s t l l' -> head_ok (u_heap t) l l'.
  Proof.
    intros I (i & A & B). destruct (ent_at s t i _ I A) as (x & C & E). rewrite C in B. injection B as ->. exact E.
  Qed.
  Lemma D_lt s t l : Inv s t -> In (VLoc l) (u_objs t) -> l < length (u_heap t).
  Proof.
    intros I H. apply In_nth_error in H as [i H]. destruct (Forall2_nth_r _ _ _ _ _ (i_ent _ _ I) H) as (e & _ & E).
    destruct e; simpl in E; try tauto. unfold head_ok in E.
    destruct (hget h l0) as [[]|]; try tauto; destruct (hget (u_heap t) l) eqn:G; try tauto; eapply hget_lt; eauto.
  Qed.
  Lemma D_prox s t p : Inv s t -> In (VProxy p) (u_objs t) -> p < length (u_prox t).
  Proof.
    intros I H. apply In_nth_error in H as [i H]. destruct (Forall2_nth_r _ _ _ _ _ (i_ent _ _ I) H) as (e & _ & E).
    destruct e; simpl in E; tauto.
  Qed.
  Lemma idx_None s t v : Inv s t -> ~ In v (u_objs t) -> idx_get v (u_idx t) = None.
  Proof.
    intros I H. destruct (idx_get v (u_idx t)) as [n|] eqn:E; auto. apply (i_idx _ _ I) in E.
    apply nth_error_In in E. contradiction.
  Qed.

  Lemma rel_incl s t s' t' : (exists E2, p_objs s' = p_objs s ++ E2) ->
    (forall i l, nth_error (u_objs t) i = Some (VLoc l) -> nth_error (u_objs t') i = Some (VLoc l)) ->
    forall l l', rel s t l l' -> rel s' t' l l'.
  Proof.
    intros [E2 HE] HD l l' (i & A & B). exists i. rewrite HE. split; auto. apply nth_error_app_l; auto.
  Qed.
  Lemma adv_Dloc O J s t s' t' i l : adv O J s t s' t' ->
    nth_error (u_objs t) i = Some (VLoc l) -> nth_error (u_objs t') i = Some (VLoc l).
  Proof. intros A H. apply (a_D _ _ _ _ _ _ A); auto. Qed.
  Lemma adv_rel O J s t s' t' : adv O J s t s' t' -> forall l l', rel s t l l' -> rel s' t' l l'.
  Proof. intros A. apply rel_incl; [apply A|]. intros; eapply adv_Dloc; eauto. Qed.

  Lemma adv_refl O J s t : Inv s t -> adv O J s t s t.
  Proof.
    intros I. constructor; auto.
    - exists []. rewrite app_nil_r; auto.
    - intros i l L H. apply nth_error_None in L. congruence.
  Qed.
  Lemma adv_weaken O J s t s' t' : adv none none s t s' t' -> adv O J s t s' t'.
  Proof. intros [A B C D E F F2 G H]. constructor; auto. intros i x Hx _. apply C; auto. intros []. Qed.

  Lemma omatch_dict_exists s t l l' : Inv s t -> rel s t l l' -> dict_exists (u_heap t) l'.
  Proof.
    intros I R. apply rel_head in R; auto. unfold head_ok in R. intros i d Hi Hd. rewrite Hi in R.
    destruct (hget h l) as [[]|]; try tauto. destruct R as [_ R]. eapply R; eauto.
  Qed.
  Lemma omatch_adv O J s t s' t' b b2 l l' : Inv s t -> adv O J s t s' t' -> (forall x, O x -> x < b) -> b2 <= b ->
    rel s t l l' ->
    omatch w k keys h (u_heap t) b bs (rel s t) l l' -> omatch w k keys h (u_heap t') b2 bs (rel s' t') l l'.
  Proof.
    intros I A HO Hb HR H. eapply omatch_stable; [exact Hb | eapply adv_rel; eauto | | | |exact H].
    - intros x o Hx Ho. rewrite (a_heap _ _ _ _ _ _ A); auto.
      + eapply hget_lt; eauto.
      + intros C. apply HO in C. lia.
    - apply A.
    - eapply omatch_dict_exists; eauto.
  Qed.
  Lemma vmatch_adv O J s t s' t' b v v' : adv O J s t s' t' ->
    vmatch h (u_heap t) b (rel s t) v v' -> vmatch h (u_heap t') b (rel s' t') v v'.
  Proof.
    intros A H. eapply vmatch_mono; [apply le_n | eapply adv_rel; eauto | apply A |exact H].
  Qed.
  Lemma vmatches_adv O J s t s' t' b v v' : adv O J s t s' t' ->
    Forall2 (vmatch h (u_heap t) b (rel s t)) v v' -> Forall2 (vmatch h (u_heap t') b (rel s' t')) v v'.
  Proof. intros A. apply Forall2_impl. intros. eapply vmatch_adv; eauto. Qed.
  Lemma pmatches_adv O J s t s' t' b v v' : adv O J s t s' t' ->
    Forall2 (pmatch h (u_heap t) b (rel s t)) v v' -> Forall2 (pmatch h (u_heap t') b (rel s' t')) v v'.
  Proof. intros A. apply Forall2_impl. intros p q [X Y]. split; eapply vmatch_adv; eauto. Qed.

  Lemma adv_trans (O : loc -> Prop) J s t s1 t1 s2 t2 : (forall x, O x -> x < length (u_heap t)) ->
    adv O J s t s1 t1 -> adv O J s1 t1 s2 t2 -> adv O J s t s2 t2.
  Proof.
    intros HO A B. pose proof (a_len _ _ _ _ _ _ A) as L. constructor.
    - apply B.
    - destruct (a_E _ _ _ _ _ _ A) as [x Hx]. destruct (a_E _ _ _ _ _ _ B) as [y Hy]. exists (x ++ y).
      rewrite Hy, Hx, app_assoc; auto.
    - intros i x Hx HJ. apply (a_D _ _ _ _ _ _ B); auto. apply (a_D _ _ _ _ _ _ A); auto.
    - rewrite (a_depth _ _ _ _ _ _ B). apply A.
    - pose proof (a_len _ _ _ _ _ _ B). lia.
    - intros x Hx Hn. rewrite (a_heap _ _ _ _ _ _ B); auto; [|lia]. apply A; auto.
    - intros x o Hl Hx. apply (a_leaf _ _ _ _ _ _ B); auto. apply (a_leaf _ _ _ _ _ _ A); auto.
    - rewrite (a_swaps _ _ _ _ _ _ B). apply A.
    - intros i l Hi Hl. destruct (Nat.lt_ge_cases i (length (p_objs s1))) as [L1|L1].
      + destruct (a_E _ _ _ _ _ _ B) as [y Hy]. rewrite Hy, nth_error_app1 in Hl by auto.
        destruct (a_new _ _ _ _ _ _ A i l Hi Hl) as (l' & D & M). exists l'. 
        split; [eapply adv_Dloc; eauto|].
        eapply (omatch_adv O J s1 t1); eauto; [apply A | exists i; auto].
      + destruct (a_new _ _ _ _ _ _ B i l L1 Hl) as (l' & D & M). exists l'. split; auto.
        eapply omatch_stable; [exact L| | | | |exact M]; auto.
        eapply omatch_dict_exists; [apply B | exists i; eauto].
  Qed.

  (** An entry is finished, or open on the way to c. *)
  Definition entry (s : pst) (t : ust) (c : val) (i : nat) (l : loc) : Prop :=
    (exists l', nth_error (u_objs t) i = Some (VLoc l') /\ omatch w k keys h (u_heap t) 0 bs (rel s t) l l') \/
    (reach (VLoc l) c /\ ((exists l', nth_error (u_objs t) i = Some (VLoc l')) \/ ~ reach c (VLoc l))).
  Lemma front_step s t s2 t2 v c : Inv s t -> front s t v -> reach v c ->
    (exists X, p_objs s2 = p_objs s ++ X) ->
    (forall i x, nth_error (u_objs t) i = Some (VLoc x) -> nth_error (u_objs t2) i = Some (VLoc x)) ->
    (forall x o, hget (u_heap t) x = Some o -> hget (u_heap t2) x = Some o) ->
    (forall i l, length (p_objs s) <= i -> nth_error (p_objs s2) i = Some (VLoc l) -> entry s2 t2 c i l) ->
    front s2 t2 c.
  Proof.
    intros I F S HE HD HH HN i l Hi. destruct (Nat.lt_ge_cases i (length (p_objs s))) as [L|L]; [|apply HN; auto].
    destruct HE as [X HE]. rewrite HE, nth_error_app1 in Hi by auto.
    destruct (F i l Hi) as [(l' & D & M)|(R & D)].
    - left. exists l'. split; [auto|].
      eapply omatch_stable; [| | | | |exact M]; auto.
      + apply rel_incl; [exists X; exact HE | exact HD].
      + eapply omatch_dict_exists; [exact I | exists i; eauto].
    - right. split; [eapply reach_trans; eauto|]. destruct D as [(l' & D)|D].
      + left. exists l'. auto.
      + right. intros C. apply D. eapply reach_trans; eauto.
  Qed.
  Lemma adv_entry O J s t s' t' c i l : adv O J s t s' t' -> length (p_objs s) <= i ->
    nth_error (p_objs s') i = Some (VLoc l) -> entry s' t' c i l.
  Proof.
    intros A L Hi. left. destruct (a_new _ _ _ _ _ _ A i l L Hi) as (l' & D & M). exists l'. split; auto.
    eapply omatch_stable; [| | | | |exact M]; auto; [lia|].
    eapply omatch_dict_exists; [apply A | exists i; eauto].
  Qed.
  (** [front] for parts of v, after some progress. *)
  Lemma front_adv s t s' t' v c : Inv s t -> front s t v -> adv none none s t s' t' -> reach v c -> front s' t' c.
  Proof.
    intros I F A S. eapply front_step; eauto.
    - apply A.
    - intros; eapply adv_Dloc; eauto.
    - intros x o Hx. rewrite (a_heap _ _ _ _ _ _ A); auto. eapply hget_lt; eauto.
    - intros i l L Hi. eapply adv_entry; eauto.
  Qed.
End rt.
