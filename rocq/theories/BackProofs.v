(** Decoding the objects of [back_graph]: while the arguments and the state of an object with
    [__reduce__] are restored, a placeholder stands for it.  Where a placeholder was stored, it
    is noted; at the end the placeholders are replaced. *)
From Verif Require Import PyStr Tags Json JsonText JsonTextProofs Base Heap Registry LoadClass Pickler Unpickler SpecGraph SpecPlain SpecRefs SpecFail SpecHoles SpecLack SpecBack.
From Verif Require Import PlainEncode RTBase RTStep RTPure RTCont RTKinds RTInst RTObj RTShapes RTProps PlainProofs CleanProofs FillProofs LackProofs.
From Coq Require Import List Lia. Import ListNotations.
Open Scope nat_scope.
Local Open Scope monad_scope.

(** what the table of objects has at a number: the placeholder p, or the object at l, for which
    the placeholder p stood before *)
Inductive ent : Type := Open (p : nat) | Done (l : loc) (p : option nat).
Definition ent_val (e : ent) : val := match e with Open p => VProxy p | Done l _ => VLoc l end.
Definition is_done (e : ent) : Prop := exists l p, e = Done l p.
Definition ele (x y : ent) : Prop := x = y \/ exists p l, x = Open p /\ y = Done l (Some p).
Definition ext (tab : list loc) (es : list ent) (tab' : list loc) (es' : list ent) : Prop :=
  forall n l x, nth_error tab n = Some l -> nth_error es n = Some x -> nth_error tab' n = Some l /\ exists y, nth_error es' n = Some y /\ ele x y.
Definition Rd (tab : list loc) (es : list ent) (l l' : loc) : Prop := exists n p, nth_error tab n = Some l /\ nth_error es n = Some (Done l' p).
Definition Qp (tab : list loc) (es : list ent) (l : loc) (p : nat) : Prop :=
  exists n, nth_error tab n = Some l /\ (nth_error es n = Some (Open p) \/ exists l', nth_error es n = Some (Done l' (Some p))).
Definition opened (tab : list loc) (es : list ent) (l : loc) (p : nat) : Prop := exists n, nth_error tab n = Some l /\ nth_error es n = Some (Open p).

Lemma ele_refl x : ele x x. Proof. left; reflexivity. Qed.
Lemma ele_trans x y z : ele x y -> ele y z -> ele x z.
Proof. intros [->|(p & l & -> & ->)] [E|(p2 & l2 & E & ->)]; subst; try discriminate; [left; reflexivity|right; eauto|right; eauto]. Qed.
Lemma ext_refl tab es : ext tab es tab es.
Proof. intros n l x A B. split; auto. exists x. split; auto. apply ele_refl. Qed.
Lemma ext_trans tab es tab1 es1 tab2 es2 : ext tab es tab1 es1 -> ext tab1 es1 tab2 es2 -> ext tab es tab2 es2.
Proof.
  intros H1 H2 n l x A B. destruct (H1 n l x A B) as (A1 & y & B1 & E1). destruct (H2 n l y A1 B1) as (A2 & z & B2 & E2).
  split; auto. exists z. split; auto. eapply ele_trans; eauto.
Qed.
Lemma nth_app_some {A} (l r : list A) n x : nth_error l n = Some x -> nth_error (l ++ r) n = Some x.
Proof. intros E. rewrite nth_error_app1; auto. apply nth_error_Some. congruence. Qed.
Lemma ext_app tab es a c : ext tab es (tab ++ a) (es ++ c).
Proof. intros n l x A B. split; [apply nth_app_some; auto|]. exists x. split; [apply nth_app_some; auto|apply ele_refl]. Qed.
Lemma ext_close tab es p l e : ext tab (es ++ Open p :: e) tab (es ++ Done l (Some p) :: e).
Proof.
  intros n z x A B. split; auto. destruct (Nat.eq_dec n (length es)) as [->|N].
  - rewrite nth_error_app2, Nat.sub_diag in * by lia. cbn in *. injection B as <-. eexists. split; [reflexivity|]. right. eauto.
  - exists x. split; [|apply ele_refl]. destruct (Nat.lt_ge_cases n (length es)) as [L|L].
    + rewrite nth_error_app1 in * by auto. auto.
    + rewrite nth_error_app2 in * by lia. destruct (n - length es) as [|m] eqn:E; [lia|]. exact B.
Qed.
Lemma Rd_ext tab es tab' es' l l' : ext tab es tab' es' -> Rd tab es l l' -> Rd tab' es' l l'.
Proof.
  intros H (n & p & A & B). destruct (H n l _ A B) as (A1 & y & B1 & [<-|(q & z & E & _)]); [|discriminate]. exists n, p. auto.
Qed.
Lemma Qp_ext tab es tab' es' l p : ext tab es tab' es' -> Qp tab es l p -> Qp tab' es' l p.
Proof.
  intros H (n & A & [B|(l' & B)]); destruct (H n l _ A B) as (A1 & y & B1 & [<-|(q & z & E & E2)]); subst; try discriminate; exists n; split; auto.
  - injection E as <-. right. eauto.
  - right. eauto.
Qed.
Lemma opened_Qp tab es l p : opened tab es l p -> Qp tab es l p.
Proof. intros (n & A & B). exists n. auto. Qed.
Lemma opened_app tab es a e l p : length es = length tab -> Forall is_done e -> opened (tab ++ a) (es ++ e) l p -> opened tab es l p.
Proof.
  intros EL D (n & A & B). destruct (Nat.lt_ge_cases n (length es)) as [L|L].
  - rewrite nth_error_app1 in A by lia. rewrite nth_error_app1 in B by auto. exists n. auto.
  - rewrite nth_error_app2 in B by lia. apply nth_error_In in B. rewrite Forall_forall in D. destruct (D _ B) as (? & ? & ?). discriminate.
Qed.
Lemma opened_ext tab es a e l p : opened tab es l p -> opened (tab ++ a) (es ++ e) l p.
Proof. intros (n & A & B). exists n. split; apply nth_app_some; auto. Qed.

Inductive bmatch (R : loc -> loc -> Prop) : val -> val -> Prop :=
| bm_atom v : atom v = true -> bmatch R v v
| bm_tuple xs ys : Forall2 (bmatch R) xs ys -> bmatch R (VTuple xs) (VTuple ys)
| bm_obj l l' : R l l' -> bmatch R (VLoc l) (VLoc l').
Section bind_.
  Variables (R : loc -> loc -> Prop) (P : val -> val -> Prop).
  Hypothesis Ha : forall v, atom v = true -> P v v.
  Hypothesis Ht : forall xs ys, Forall2 (bmatch R) xs ys -> Forall2 P xs ys -> P (VTuple xs) (VTuple ys).
  Hypothesis Ho : forall l l', R l l' -> P (VLoc l) (VLoc l').
  Fixpoint bmatch_ind' v v' (M : bmatch R v v') : P v v' :=
    match M in bmatch _ v v' return P v v' with
    | bm_atom _ v A => Ha v A
    | bm_tuple _ xs ys F => Ht xs ys F ((fix go xs ys (F : Forall2 (bmatch R) xs ys) : Forall2 P xs ys :=
         match F with Forall2_nil _ => Forall2_nil _ | Forall2_cons _ _ M F => Forall2_cons _ _ (bmatch_ind' _ _ M) (go _ _ F) end) xs ys F)
    | bm_obj _ l l' H => Ho l l' H
    end.
End bind_.
Lemma bmatch_mono (R S : loc -> loc -> Prop) v v' : (forall l l', R l l' -> S l l') -> bmatch R v v' -> bmatch S v v'.
Proof. intros H M. induction M as [v A|xs ys F IH|l l' Q] using bmatch_ind'; constructor; auto. Qed.
Lemma bmatches_mono (R S : loc -> loc -> Prop) v v' : (forall l l', R l l' -> S l l') -> Forall2 (bmatch R) v v' -> Forall2 (bmatch S) v v'.
Proof. intros H. apply Forall2_impl. intros. eapply bmatch_mono; eauto. Qed.
Lemma bmatch_vm h h' b R v v' : bmatch R v v' -> vmatch h h' b R v v'.
Proof. intros M. induction M as [v A|xs ys F IH|l l' Q] using bmatch_ind'; [apply vm_atom; auto|apply vm_tuple; auto|apply vm_obj; auto]. Qed.
Lemma bmatch_proxy R v v' : bmatch R v v' -> is_proxy v' = false.
Proof. intros [x A|xs ys F|l l' Q]; auto. destruct x; auto; discriminate. Qed.

Lemma list_swaps_in p vs s : In s (list_swaps p vs) <-> exists n v, nth_error vs n = Some v /\ is_proxy v = true /\ s = mkSwap p (VInt (Z.of_nat n)) v SetValue.
Proof.
  unfold list_swaps.
  set (go := fix go (i : Z) (vs : list val) : list swap := match vs with [] => [] | v :: r => (if is_proxy v then [mkSwap p (VInt i) v SetValue] else []) ++ go (i + 1)%Z r end).
  assert (X : forall vs k, In s (go (Z.of_nat k) vs) <-> exists n v, nth_error vs n = Some v /\ is_proxy v = true /\ s = mkSwap p (VInt (Z.of_nat (k + n))) v SetValue).
  { clear vs. induction vs as [|v vs IH]; intros k.
    - split; [intros []|]. intros (n & v & E & _). destruct n; discriminate.
    - cbn [go]. rewrite in_app_iff. replace (Z.of_nat k + 1)%Z with (Z.of_nat (S k)) by lia. rewrite IH. split.
      + intros [I|(n & x & E & Px & Es)].
        * exists 0, v. destruct (is_proxy v); [|destruct I]. destruct I as [<-|[]]. rewrite Nat.add_0_r. auto.
        * exists (S n), x. split; auto. split; auto. rewrite Es. do 3 f_equal. lia.
      + intros ([|n] & x & E & Px & Es).
        * injection E as <-. left. rewrite Px, Es, Nat.add_0_r. left. reflexivity.
        * right. exists n, x. split; auto. split; auto. rewrite Es. do 3 f_equal. lia. }
  apply (X vs 0).
Qed.

Lemma idx_get_In v t n : idx_get v t = Some n -> In (v, n) t.
Proof. induction t as [|[x m] t IH]; cbn; [discriminate|]. destruct (val_eqb_spec v x) as [->|N]; [intros [= ->]; auto|auto]. Qed.
Lemma idx_get_del v x t : v <> x -> idx_get v (idx_del x t) = idx_get v t.
Proof.
  intros N. induction t as [|[y m] t IH]; auto. cbn [idx_del idx_get]. destruct (val_eqb_spec x y) as [->|N2].
  - rewrite IH. destruct (val_eqb_spec v y); [contradiction|reflexivity].
  - cbn [idx_get]. rewrite IH. reflexivity.
Qed.
Lemma idx_get_cons v x n t : v <> x -> idx_get v ((x, n) :: t) = idx_get v t.
Proof. intros N. cbn. destruct (val_eqb_spec v x); [contradiction|reflexivity]. Qed.

Section dec.
  Variables (w : world) (k : hooks) (cl : list (pystr * val)) (h : heap) (uo : uopts).
  Hypothesis Uk : uo_keys uo = false.
  Hypothesis Uv : uo_v1 uo = false.
  Notation cls := (w_cls w).
  Notation leads := (leads w k h).
  Notation by_reduce := (by_reduce w h).
  Notation settled := (settled w k h).
  Notation back_node := (back_node w k cl h).

  Definition crel (tab : list loc) (es : list ent) (v x : val) : Prop :=
    bmatch (Rd tab es) v x \/ exists l p, v = VLoc l /\ x = VProxy p /\ Qp tab es l p.
  Definition prel (tab : list loc) (es : list ent) (q q' : val * val) : Prop := fst q' = fst q /\ crel tab es (snd q) (snd q').
  Lemma crel_ext tab es tab' es' v x : ext tab es tab' es' -> crel tab es v x -> crel tab' es' v x.
  Proof.
    intros H [M|(l & p & -> & -> & Q)]; [left; eapply bmatch_mono; [|exact M]; intros; eapply Rd_ext; eauto|].
    right. exists l, p. split; auto. split; auto. eapply Qp_ext; eauto.
  Qed.
  Lemma crels_ext tab es tab' es' vs xs : ext tab es tab' es' -> Forall2 (crel tab es) vs xs -> Forall2 (crel tab' es') vs xs.
  Proof. intros H. apply Forall2_impl. intros; eapply crel_ext; eauto. Qed.
  Lemma prels_ext tab es tab' es' vs xs : ext tab es tab' es' -> Forall2 (prel tab es) vs xs -> Forall2 (prel tab' es') vs xs.
  Proof. intros H. apply Forall2_impl. intros x y [A B]. split; auto. eapply crel_ext; eauto. Qed.

  Definition covers (tgt : val) (m : smethod) (sw : list swap) (d' : list (val * val)) : Prop :=
    forall a p, In (VStr a, VProxy p) d' -> In (mkSwap tgt (VStr a) (VProxy p) m) sw.
  Definition list_covers (tgt : val) (sw : list swap) (ys : list val) : Prop :=
    forall n p, nth_error ys n = Some (VProxy p) -> In (mkSwap tgt (VInt (Z.of_nat n)) (VProxy p) SetValue) sw.
  (** the object at l' is the copy of the one at l, up to placeholders that are noted *)
  Definition obj_rel (hp : heap) (b : nat) (tab : list loc) (es : list ent) (sw : list swap) (l l' : loc) : Prop :=
    b <= l' /\
    match hget h l with
    | Some (OList xs) => exists ys, hget hp l' = Some (OList ys) /\ Forall2 (crel tab es) xs ys /\ list_covers (VLoc l') sw ys
    | Some (ODict d) => exists d', hget hp l' = Some (ODict d') /\ Forall2 (prel tab es) d d' /\ covers (VLoc l') SetValue sw d'
    | Some (OInst i) => exists x, l' = S x /\ b <= x /\
        if c_reduce (cls (i_cls i)) then
          exists t args st args' x0, with_state w k h l i t args st /\
            hget hp l' = Some (OInst (mkInst (i_cls i) (Some x0) [] [] [] None (CCall (VType t) args') [] 0)) /\
            Forall2 (bmatch (Rd tab es)) args args' /\
            (st = VNone /\ x0 = x /\ hget hp x = Some (ODict []) \/ exists sd, st = VLoc sd /\ Rd tab es sd x0)
        else
          hget hp l' = Some (OInst (mk_inst (i_cls i) x)) /\
          exists dl d d', i_dict i = Some dl /\ hget h dl = Some (ODict d) /\ hget hp x = Some (ODict d') /\
            Forall2 (prel tab es) d d' /\ covers (VLoc l') SetAttr sw d'
    | _ => False
    end.
  Definition frame (h1 h2 : heap) (b : nat) : Prop := forall x o, b <= x -> hget h1 x = Some o -> hget h2 x = Some o.
  Lemma obj_rel_frame h1 h2 b b2 tab es tab' es' sw sw' l l' : frame h1 h2 b -> ext tab es tab' es' -> incl sw sw' -> b2 <= b ->
    obj_rel h1 b tab es sw l l' -> obj_rel h2 b2 tab' es' sw' l l'.
  Proof.
    intros F E Is Lb (B & M). split; [lia|]. destruct (hget h l) as [[xs|xs|d|x|i|x]|]; auto.
    - destruct M as (ys & G & M & C). exists ys. split; [auto|]. split; [eapply crels_ext; eauto|]. intros n p A. apply Is. eauto.
    - destruct M as (d' & G & M & C). exists d'. split; [auto|]. split; [eapply prels_ext; eauto|]. intros n p A. apply Is. eauto.
    - destruct M as (x & -> & Bx & M). exists x. split; auto. split; [lia|]. destruct (c_reduce (cls (i_cls i))).
      + destruct M as (t & args & st & args' & x0 & W & G & Fa & C). exists t, args, st, args', x0. split; auto. split; [auto|].
        split; [eapply bmatches_mono; [|exact Fa]; intros; eapply Rd_ext; eauto|].
        destruct C as [(-> & -> & G2)|(sd & -> & C)]; [left; auto|right]. exists sd. split; auto. eapply Rd_ext; eauto.
      + destruct M as (G & dl & d & d' & E1 & G1 & G2 & M & C). split; [auto|]. exists dl, d, d'. split; auto. split; auto. split; auto.
        split; [eapply prels_ext; eauto|]. intros n p A. apply Is. eauto.
  Qed.

  Inductive valid (tab : list loc) (es : list ent) : swap -> Prop :=
  | va_list l xs l' n z p : hget h l = Some (OList xs) -> Rd tab es l l' -> nth_error xs n = Some (VLoc z) -> Qp tab es z p ->
      valid tab es (mkSwap (VLoc l') (VInt (Z.of_nat n)) (VProxy p) SetValue)
  | va_dict l d l' a z p : hget h l = Some (ODict d) -> Rd tab es l l' -> In (VStr a, VLoc z) d -> Qp tab es z p ->
      valid tab es (mkSwap (VLoc l') (VStr a) (VProxy p) SetValue)
  | va_attr l i dl d l' a z p : hget h l = Some (OInst i) -> c_reduce (cls (i_cls i)) = false -> i_dict i = Some dl -> hget h dl = Some (ODict d) ->
      Rd tab es l l' -> In (VStr a, VLoc z) d -> Qp tab es z p ->
      attr_ok false (cls (i_cls i)) a = true -> slot_named (cls (i_cls i)) a = false -> c_setattr (cls (i_cls i)) a = SAOk ->
      valid tab es (mkSwap (VLoc l') (VStr a) (VProxy p) SetAttr).
  Lemma valid_ext tab es tab' es' s : ext tab es tab' es' -> valid tab es s -> valid tab' es' s.
  Proof.
    intros E [l xs l' n z p A1 A2 A3 A4|l d l' a z p A1 A2 A3 A4|l i dl d l' a z p A1 A2 A3 A4 A5 A6 A7 A8 A9 A10].
    - eapply va_list; eauto using Rd_ext, Qp_ext.
    - eapply va_dict; eauto using Rd_ext, Qp_ext.
    - eapply va_attr; eauto using Rd_ext, Qp_ext.
  Qed.
  Lemma valids_ext tab es tab' es' s : ext tab es tab' es' -> Forall (valid tab es) s -> Forall (valid tab' es') s.
  Proof. intros E. apply Forall_impl. intros; eapply valid_ext; eauto. Qed.

  Record St (t : ust) (tab : list loc) (es : list ent) : Prop := {
    st_len : length es = length tab;
    st_objs : u_objs t = map ent_val es;
    st_idx : forall v n, In (v, n) (u_idx t) -> (exists x, v = VLoc x /\ x < length (u_heap t)) \/ (exists p, v = VProxy p /\ p < length (u_prox t));
    st_open : forall n p, nth_error es n = Some (Open p) -> idx_get (VProxy p) (u_idx t) = Some n;
    st_popen : forall p, In (Open p) es -> nth_error (u_prox t) p = Some None;
    st_prox : forall x p, In (Done x (Some p)) es -> nth_error (u_prox t) p = Some (Some (VLoc x));
    st_cls : u_classes t = cl;
    st_nd : forall n m x p q, nth_error es n = Some (Done x p) -> nth_error es m = Some (Done x q) -> n = m;
    st_lt : forall x p, In (Done x p) es -> x < length (u_heap t);
    st_own : forall n l i x p q, nth_error tab n = Some l -> hget h l = Some (OInst i) -> nth_error es n = Some (Done (S x) p) -> ~ In (Done x q) es
  }.
  Record step (P : loc -> Prop) (t t' : ust) (tab' : list loc) (es e : list ent) : Prop := {
    sp_st : St t' tab' (es ++ e);
    sp_done : Forall is_done e;
    sp_len : length (u_heap t) <= length (u_heap t');
    sp_plen : length (u_prox t) <= length (u_prox t');
    sp_old : forall x, x < length (u_heap t) -> ~ P x -> hget (u_heap t') x = hget (u_heap t) x;
    sp_pold : forall p, p < length (u_prox t) -> nth_error (u_prox t') p = nth_error (u_prox t) p;
    sp_swaps : exists s, u_swaps t' = u_swaps t ++ s /\ Forall (valid tab' (es ++ e)) s
  }.
  Definition nil_ : loc -> Prop := fun _ => False.
  Definition pairs (hp : heap) (sw : list swap) (b n0 : nat) (tab : list loc) (es : list ent) : Prop :=
    forall n l l' p, n0 <= n -> nth_error tab n = Some l -> nth_error es n = Some (Done l' p) -> obj_rel hp b tab es sw l l'.

  Lemma St_same t t' tab es : u_objs t' = u_objs t -> u_idx t' = u_idx t -> u_prox t' = u_prox t -> u_classes t' = u_classes t ->
    length (u_heap t) <= length (u_heap t') -> St t tab es -> St t' tab es.
  Proof.
    intros E1 E2 E3 E4 L [A1 A2 A3 A4 A5 A6 A7 A8 A9 A10]. constructor; rewrite ?E1, ?E2, ?E3, ?E4; auto.
    - intros v n I. destruct (A3 v n I) as [(x & -> & Lx)|(p & -> & Lx)]; [left; exists x; split; auto; lia|right; eauto].
    - intros x p I. apply A9 in I. lia.
  Qed.
  Lemma step_refl P t tab es : St t tab es -> step P t t tab es [].
  Proof. intros H. constructor; auto; [rewrite app_nil_r; auto|]. exists []. rewrite app_nil_r. split; [reflexivity|constructor]. Qed.
  Lemma step_trans P t t1 t2 tab1 tab2 es e1 e2 : (exists x, tab2 = tab1 ++ x) -> step P t t1 tab1 es e1 -> step P t1 t2 tab2 (es ++ e1) e2 -> step P t t2 tab2 es (e1 ++ e2).
  Proof.
    intros (x & ->) [A1 A2 A3 A4 A5 A6 (s1 & A7 & A8)] [B1 B2 B3 B4 B5 B6 (s2 & B7 & B8)]. constructor.
    - rewrite app_assoc; auto.
    - apply Forall_app; auto.
    - lia.
    - lia.
    - intros y L N. rewrite B5, A5; auto. lia.
    - intros p L. rewrite B6, A6; auto. lia.
    - exists (s1 ++ s2). split; [rewrite B7, A7, app_assoc; reflexivity|]. rewrite app_assoc. apply Forall_app. split; auto.
      eapply valids_ext; [apply ext_app|exact A8].
  Qed.
  Lemma step_weaken (P Q : loc -> Prop) t t1 tab es e : (forall x, P x -> Q x) -> step P t t1 tab es e -> step Q t t1 tab es e.
  Proof. intros H [A1 A2 A3 A4 A5 A6 A7]. constructor; auto. Qed.
  Lemma step_log t tab es lg : St t tab es -> step nil_ t (us_log lg t) tab es [].
  Proof. intros S. constructor; auto; [rewrite app_nil_r; eapply St_same; [| | | | |exact S]; auto|]. exists []. rewrite app_nil_r. split; [reflexivity|constructor]. Qed.
  Lemma incl_swaps P t t1 tab es e : step P t t1 tab es e -> incl (u_swaps t) (u_swaps t1).
  Proof. intros S. destruct (sp_swaps _ _ _ _ _ _ S) as (s & -> & _). apply incl_appl, incl_refl. Qed.
  Lemma frame_step (P : loc -> Prop) t t1 tab es e b : step P t t1 tab es e -> (forall x, P x -> x < b) -> frame (u_heap t) (u_heap t1) b.
  Proof. intros S H x o L G. rewrite (sp_old _ _ _ _ _ _ S); auto; [eapply hget_lt; eauto|]. intros Px. apply H in Px. lia. Qed.
  Lemma frame_nil t t1 tab es e b : step nil_ t t1 tab es e -> frame (u_heap t) (u_heap t1) b.
  Proof. intros S. eapply frame_step; eauto. intros x []. Qed.
  Lemma frame_hset hp p o b : p < b -> frame hp (hset hp p o) b.
  Proof. intros L x o1 L1 G1. rewrite hget_hset_other; auto. lia. Qed.
  Lemma frame_refl hp b : frame hp hp b.
  Proof. intros x o _ G. exact G. Qed.
  Lemma pairs_join h1 h2 sw1 sw2 b1 b2 n0 tab1 x es1 e2 : length es1 = length tab1 -> frame h1 h2 b1 -> incl sw1 sw2 -> b1 <= b2 ->
    pairs h1 sw1 b1 n0 tab1 es1 -> pairs h2 sw2 b2 (length tab1) (tab1 ++ x) (es1 ++ e2) -> pairs h2 sw2 b1 n0 (tab1 ++ x) (es1 ++ e2).
  Proof.
    intros EL F Is Lb P1 P2 n l l' p N A B. destruct (Nat.lt_ge_cases n (length tab1)) as [Li|Li].
    - rewrite nth_error_app1 in A by auto. rewrite nth_error_app1 in B by lia.
      eapply obj_rel_frame; [exact F|apply ext_app|exact Is|apply le_n|]. eapply P1; eauto.
    - eapply obj_rel_frame; [apply frame_refl|apply ext_refl|apply incl_refl|exact Lb|]. eapply P2; eauto.
  Qed.
  Lemma pairs_none hp sw b tab es : pairs hp sw b (length tab) tab es.
  Proof. intros n l l' p N A. exfalso. assert (n < length tab) by (apply nth_error_Some; congruence). lia. Qed.
  Lemma pairs_first hp sw b tab l tab' es l1 p1 e : length es = length tab -> (exists x, tab' = (tab ++ [l]) ++ x) ->
    obj_rel hp b tab' (es ++ Done l1 p1 :: e) sw l l1 ->
    pairs hp sw b (length (tab ++ [l])) tab' (es ++ Done l1 p1 :: e) -> pairs hp sw b (length tab) tab' (es ++ Done l1 p1 :: e).
  Proof.
    intros EL (x & Ex) F P n a a' p N A B. destruct (Nat.eq_dec n (length tab)) as [->|Ni].
    - rewrite Ex, <- app_assoc in A. cbn [app] in A. rewrite nth_error_app2, Nat.sub_diag in A by lia. cbn in A. injection A as <-.
      rewrite nth_error_app2 in B by lia. rewrite EL, Nat.sub_diag in B. cbn in B. injection B as <- _. exact F.
    - apply (P n a a' p); auto. rewrite app_length. change (length [l]) with 1. lia.
  Qed.

  (** every open object leads to v *)
  Definition opens (tab : list loc) (es : list ent) (v : val) : Prop := forall l p, opened tab es l p -> by_reduce l /\ leads (VLoc l) v.
  Definition rres (tab : list loc) (es : list ent) (tab' : list loc) (es' : list ent) (v v' : val) : Prop :=
    bmatch (Rd tab' es') v v' \/ exists l p, v = VLoc l /\ v' = VProxy p /\ opened tab es l p.
  Lemma rres_crel tab es a e v v' : rres tab es (tab ++ a) (es ++ e) v v' -> crel (tab ++ a) (es ++ e) v v'.
  Proof. intros [M|(l & p & -> & -> & O)]; [left; auto|right]. exists l, p. split; auto. split; auto. eapply Qp_ext; [apply ext_app|]. apply opened_Qp; auto. Qed.
  Lemma rres_settled tab es tab' es' v v' o : opens tab es o -> settled o v -> rres tab es tab' es' v v' -> bmatch (Rd tab' es') v v'.
  Proof. intros O Se [M|(l & p & -> & -> & Op)]; auto. destruct (O l p Op) as (Br & Ld). destruct (Se l eq_refl Br Ld). Qed.
  Lemma rress_settled tab es tab' es' vs vs' o : opens tab es o -> (forall x, In x vs -> settled o x) -> Forall2 (rres tab es tab' es') vs vs' -> Forall2 (bmatch (Rd tab' es')) vs vs'.
  Proof.
    intros O Se F. induction F as [|v v' vs vs' M F IH]; constructor.
    - eapply rres_settled; eauto. apply Se. left; auto.
    - apply IH. intros x I. apply Se. right; auto.
  Qed.
  Lemma rres_proxy tab es tab' es' v v' : rres tab es tab' es' v v' -> is_proxy v' = true -> exists l p, v = VLoc l /\ v' = VProxy p /\ opened tab es l p.
  Proof. intros [M|H] Pr; auto. rewrite (bmatch_proxy _ _ _ M) in Pr. discriminate. Qed.
  Lemma opens_part tab es v x : opens tab es v -> has_part w k h v x -> opens tab es x.
  Proof. intros O Hp l p Op. destruct (O l p Op) as (A & B). split; auto. eapply ld_step; eauto. Qed.
  Lemma opens_app tab es a e v : length es = length tab -> Forall is_done e -> opens tab es v -> opens (tab ++ a) (es ++ e) v.
  Proof. intros EL D O l p Op. apply (O l p). eapply opened_app; eauto. Qed.

  Definition dgoes (tab : list loc) (v : val) (j : json) (tab' : list loc) : Prop :=
    jwf j = true /\ exists N, forall m, N <= m -> forall t es, St t tab es -> opens tab es v ->
      exists v' t' e, restore w uo m j t = (Ret v', t') /\ step nil_ t t' tab' es e /\ rres tab es tab' (es ++ e) v v' /\
        pairs (u_heap t') (u_swaps t') (length (u_heap t)) (length tab) tab' (es ++ e).
  Definition dlist (tab : list loc) (vs : list val) (js : list json) (tab' : list loc) : Prop :=
    forallb jwf js = true /\ exists N, forall m, N <= m -> forall t es, St t tab es -> Forall (opens tab es) vs ->
      exists vs' t' e, mapM (restore w uo m) js t = (Ret vs', t') /\ step nil_ t t' tab' es e /\ Forall2 (rres tab es tab' (es ++ e)) vs vs' /\
        pairs (u_heap t') (u_swaps t') (length (u_heap t)) (length tab) tab' (es ++ e).
  Definition noted (tgt : val) (a : pystr) (v : val) (mt : smethod) (t : ust) : ust :=
    if is_proxy v then us_swaps (u_swaps t ++ [mkSwap tgt (VStr a) v mt]) t else t.
  Definition stores (m : nat) (nm : pystr -> Prop) (keep : heap -> Prop) (p : loc) (tgt : val) (mt : smethod) (body : unit -> pystr * json -> MU unit) : Prop :=
    (forall h1 h2, keep h1 -> (forall x o, x <> p -> hget h1 x = Some o -> hget h2 x = Some o) -> keep h2) /\
    forall a j v t1 t2 d, nm a -> restore w uo m j t1 = (Ret v, t2) -> keep (u_heap t2) -> hget (u_heap t2) p = Some (ODict d) ->
      body tt (a, j) t1 = (Ret tt, noted tgt a v mt (us_heap (hset (u_heap t2) p (ODict (dset (VStr a) v d))) t2)).
  Definition may_note (tab : list loc) (es : list ent) (d : list (val * val)) (tgt : val) (mt : smethod) : Prop :=
    forall tab1 es1 a z p, ext tab es tab1 es1 -> In (VStr a, VLoc z) d -> opened tab es z p -> Qp tab1 es1 z p ->
      valid tab1 es1 (mkSwap tgt (VStr a) (VProxy p) mt).
  Definition dfields (tab : list loc) (d : list (val * val)) (ob : jobj) (tab' : list loc) : Prop :=
    forallb jwf (map snd ob) = true /\ exists N, forall m, N <= m -> forall nm keep p tgt mt body, stores m nm keep p tgt mt body -> (forall a, In a (map fst ob) -> nm a) ->
    forall t es acc, St t tab es -> (forall q, In q d -> opens tab es (snd q)) -> keep (u_heap t) -> hget (u_heap t) p = Some (ODict acc) ->
      (forall a, In a (map fst ob) -> ~ In (VStr a) (map fst acc)) -> (forall x, In x (map fst acc) -> exists y, x = VStr y) ->
      may_note tab es d tgt mt ->
      exists d' t' e, foldM body ob tt t = (Ret tt, t') /\ step (eq p) t t' tab' es e /\
        keep (u_heap t') /\ hget (u_heap t') p = Some (ODict (acc ++ d')) /\
        Forall2 (prel tab' (es ++ e)) d d' /\ covers tgt mt (u_swaps t') d' /\
        pairs (u_heap t') (u_swaps t') (length (u_heap t)) (length tab) tab' (es ++ e).

  Lemma scalar_dgo tab v j : jwf j = true -> (forall m t, restore w uo (S m) j t = (Ret v, t)) -> atom v = true -> dgoes tab v j tab.
  Proof.
    intros J Rs At. split; auto. exists 1. intros m L t es S O. destruct m as [|m]; [lia|]. exists v, t, [].
    split; [apply Rs|]. split; [apply step_refl; auto|]. rewrite app_nil_r. split; [left; apply bm_atom; auto|]. apply pairs_none; auto.
  Qed.
  Lemma type_dgo tab c : back_node (VType c) -> dgoes tab (VType c) (JObj [(u "py/type", JStr (cname w c))]) tab.
  Proof.
    intros (J & Ld). split; [cbn [jwf map fst nodupb forallb]; rewrite J; reflexivity|].
    exists 1. intros m L t es S O. destruct m as [|m]; [lia|].
    destruct (loadclass_run w cl t _ _ (st_cls _ _ _ S) Ld) as (lg & E). exists (VType c), (us_log lg t), []. split.
    - change (restore w uo (Datatypes.S m) (JObj [(u "py/type", JStr (cname w c))]) t) with (restore_type w [(u "py/type", JStr (cname w c))] t).
      unfold restore_type. change (jfield TYPE_ [(u "py/type", JStr (cname w c))]) with (JStr (cname w c)). rewrite (bind_eq _ _ _ _ _ E). reflexivity.
    - split; [apply step_log; auto|]. rewrite app_nil_r. split; [left; apply bm_atom; reflexivity|apply pairs_none; auto].
  Qed.
  Lemma tuple_dgo tab vs js tab' : back_node (VTuple vs) -> dlist tab vs js tab' -> dgoes tab (VTuple vs) (JObj [(u "py/tuple", JList js)]) tab'.
  Proof.
    intros Nd (J & N & H). split; [cbn [jwf map fst nodupb forallb]; rewrite J; reflexivity|].
    exists (S N). intros m L t es S O. destruct m as [|m]; [lia|].
    destruct (H m ltac:(lia) t es S) as (vs' & t2 & e & Rs & S2 & M & P).
    { apply Forall_forall. intros x I. eapply opens_part; [exact O|]. constructor; auto. }
    exists (VTuple vs'), t2, e. split; [|split; auto; split; [|auto]].
    - change (restore w uo (Datatypes.S m) (JObj [(u "py/tuple", JList js)]) t) with (restore_tuple (restore w uo m) [(u "py/tuple", JList js)] t).
      unfold restore_tuple. apply catch_ret. change (jfield TUPLE [(u "py/tuple", JList js)]) with (JList js). cbn [jiter].
      rewrite (bind_eq _ _ t js t) by reflexivity. rewrite (bind_eq _ _ _ _ _ Rs). reflexivity.
    - left. apply bm_tuple. eapply rress_settled; eauto.
  Qed.

  Lemma St_snoc t t' tab es l p : ~ (exists i, hget h l = Some (OInst i)) -> length (u_heap t) <= p -> p < length (u_heap t') ->
    u_objs t' = u_objs t ++ [VLoc p] -> u_idx t' = (VLoc p, length (u_objs t)) :: u_idx t -> u_prox t' = u_prox t -> u_classes t' = u_classes t ->
    length (u_heap t) <= length (u_heap t') -> St t tab es -> St t' (tab ++ [l]) (es ++ [Done p None]).
  Proof.
    intros NI Lp Lp' E1 E2 E3 E4 L [A1 A2 A3 A4 A5 A6 A7 A8 A9 A10]. constructor; rewrite ?E1, ?E2, ?E3, ?E4; auto.
    - rewrite !app_length, A1. reflexivity.
    - rewrite A2, map_app. reflexivity.
    - intros v n [I|I]; [injection I as <- _; left; eauto|]. destruct (A3 v n I) as [(x & -> & Lx)|(q & -> & Lx)]; [left; exists x; split; auto; lia|right; eauto].
    - intros n q E. rewrite idx_get_cons by discriminate. apply A4. destruct (Nat.lt_ge_cases n (length es)) as [Ln|Ln]; [rewrite nth_error_app1 in E; auto|].
      rewrite nth_error_app2 in E by auto. destruct (n - length es) as [|[]]; discriminate.
    - intros q I. apply in_app_or in I as [I|[I|[]]]; [auto|discriminate].
    - intros x q I. apply in_app_or in I as [I|[I|[]]]; [auto|discriminate].
    - assert (Old : forall n x q, nth_error es n = Some (Done x q) -> x < length (u_heap t)) by (intros n x q E; apply (A9 x q), (nth_error_In _ n); auto).
      intros n m x q r En Em. destruct (Nat.lt_ge_cases n (length es)) as [Ln|Ln]; destruct (Nat.lt_ge_cases m (length es)) as [Lm|Lm].
      + rewrite nth_error_app1 in En, Em by auto. eapply A8; eauto.
      + rewrite nth_error_app1 in En by auto. rewrite nth_error_app2 in Em by auto. destruct (m - length es) as [|[]]; try discriminate. injection Em as <- _. apply Old in En. lia.
      + rewrite nth_error_app1 in Em by auto. rewrite nth_error_app2 in En by auto. destruct (n - length es) as [|[]]; try discriminate. injection En as <- _. apply Old in Em. lia.
      + rewrite nth_error_app2 in En, Em by auto. destruct (n - length es) as [|[]] eqn:X1; try discriminate. destruct (m - length es) as [|[]] eqn:X2; try discriminate. lia.
    - intros x q I. apply in_app_or in I as [I|[I|[]]]; [apply A9 in I; lia|]. injection I as <- _. auto.
    - intros n l0 i x q r Et G E I. destruct (Nat.lt_ge_cases n (length tab)) as [Ln|Ln].
      + rewrite nth_error_app1 in Et by auto. rewrite nth_error_app1 in E by lia. apply in_app_or in I as [I|[I|[]]]; [eapply A10; eauto|].
        injection I as <- _. apply nth_error_In, A9 in E. lia.
      + rewrite nth_error_app2 in Et by auto. destruct (n - length tab) as [|[]]; try discriminate. injection Et as <-. apply NI. eauto.
  Qed.
  Lemma entered_step ob t tab es l : ~ (exists i, hget h l = Some (OInst i)) -> St t tab es -> step nil_ t (entered ob t) (tab ++ [l]) es [Done (length (u_heap t)) None].
  Proof.
    intros NI S. constructor.
    - eapply (St_snoc t); eauto; cbn; rewrite ?app_length; cbn; lia.
    - constructor; [|constructor]. do 2 eexists. reflexivity.
    - cbn. rewrite app_length. lia.
    - cbn. lia.
    - intros x L _. cbn. apply hget_app_old; auto.
    - intros p _. reflexivity.
    - exists []. rewrite app_nil_r. split; [reflexivity|constructor].
  Qed.
  Lemma enter_run t tab es ob : St t tab es -> umkref (VLoc (length (u_heap t))) (us_heap (u_heap t ++ [ob]) t) = (Ret (VLoc (length (u_heap t))), entered ob t).
  Proof.
    intros S. unfold umkref. cbn [u_idx us_heap]. rewrite idx_get_None; [reflexivity|].
    intros m I. destruct (st_idx _ _ _ S _ _ I) as [(x & X & L)|(p & X & _)]; [injection X as <-; lia|discriminate].
  Qed.
  Lemma rd_at tab l tab' es l1 p1 e : length es = length tab -> (exists x, tab' = (tab ++ [l]) ++ x) -> Rd tab' (es ++ Done l1 p1 :: e) l l1.
  Proof.
    intros EL (x & ->). exists (length tab), p1. rewrite <- app_assoc. cbn [app]. rewrite !nth_error_app2 by lia. rewrite EL, !Nat.sub_diag. split; reflexivity.
  Qed.

  Lemma ref_dgo tab l i : nth_error tab i = Some l -> dgoes tab (VLoc l) (JObj [(u "py/id", JInt (Z.of_nat i))]) tab.
  Proof.
    intros I. split; [reflexivity|]. exists 1. intros m L t es S O. destruct m as [|m]; [lia|].
    destruct (nth_error es i) as [x|] eqn:E; [|apply nth_error_None in E; assert (i < length tab) by (apply nth_error_Some; congruence); rewrite (st_len _ _ _ S) in E; lia].
    exists (ent_val x), t, []. split.
    - assert (H : nth_error (u_objs t) i = Some (ent_val x)) by (rewrite (st_objs _ _ _ S); apply map_nth_error; exact E).
      change (restore_id [(ID, JInt (Z.of_nat i))] t = (Ret (ent_val x), t)).
      unfold restore_id, bind, gets. change (sget ID [(ID, JInt (Z.of_nat i))]) with (Some (JInt (Z.of_nat i))).
      unfold py_index. destruct (Z.leb_spec 0 (Z.of_nat i)); [|lia]. rewrite Nat2Z.id, H. reflexivity.
    - split; [apply step_refl; auto|]. rewrite app_nil_r. split; [|apply pairs_none; auto]. destruct x as [p|l' p]; cbn [ent_val].
      + right. exists l, p. split; auto. split; auto. exists i. auto.
      + left. apply bm_obj. exists i, p. auto.
  Qed.

  Lemma nil_dgo tab : dlist tab [] [] tab.
  Proof.
    split; auto. exists 0. intros m _ t es S _. exists [], t, []. split; [reflexivity|]. split; [apply step_refl; auto|]. rewrite app_nil_r.
    split; [constructor|apply pairs_none; auto].
  Qed.
  Lemma rres_later tab es a e x e2 v v' : rres tab es (tab ++ a) (es ++ e) v v' -> rres tab es ((tab ++ a) ++ x) ((es ++ e) ++ e2) v v'.
  Proof. intros [M|H]; [left|right; auto]. eapply bmatch_mono; [|exact M]. intros; eapply Rd_ext; [apply ext_app|eauto]. Qed.
  Lemma rres_earlier tab es a e tab' es' v v' : length es = length tab -> Forall is_done e -> rres (tab ++ a) (es ++ e) tab' es' v v' -> rres tab es tab' es' v v'.
  Proof. intros EL D [M|(l & p & E1 & E2 & O)]; [left; auto|right]. exists l, p. split; auto. split; auto. eapply opened_app; eauto. Qed.
  Lemma cons_dgo tab v j tab1 vs js tab2 : (exists x, tab1 = tab ++ x) -> (exists x, tab2 = tab1 ++ x) -> dgoes tab v j tab1 -> dlist tab1 vs js tab2 -> dlist tab (v :: vs) (j :: js) tab2.
  Proof.
    intros (x1 & ->) (x & ->) (J1 & N1 & G1) (J2 & N2 & G2).
    split; [cbn; rewrite J1, J2; reflexivity|]. exists (Nat.max N1 N2). intros m L t es S O. inversion O as [|? ? O1 O2]; subst.
    destruct (G1 m ltac:(lia) t es S O1) as (v' & t1 & e1 & R1 & S1 & M1 & P1).
    pose proof (st_len _ _ _ S) as EL.
    destruct (G2 m ltac:(lia) t1 (es ++ e1) (sp_st _ _ _ _ _ _ S1)) as (vs' & t2 & e2 & R2 & S2 & M2 & P2).
    { eapply Forall_impl; [|exact O2]. intros y Oy. apply opens_app; auto. apply (sp_done _ _ _ _ _ _ S1). }
    exists (v' :: vs'), t2, (e1 ++ e2). split.
    { cbn [mapM]. rewrite (bind_eq _ _ _ _ _ R1). rewrite (bind_eq _ _ _ _ _ R2). reflexivity. }
    split; [eapply step_trans; eauto|]. rewrite app_assoc. pose proof (frame_nil _ _ _ _ _ (length (u_heap t)) S2) as F2. pose proof (sp_len _ _ _ _ _ _ S1) as Ln.
    split.
    - constructor.
      + apply rres_later; auto.
      + eapply Forall2_impl; [|exact M2]. intros y y' My. apply (rres_earlier tab es x1 e1); [exact EL|apply (sp_done _ _ _ _ _ _ S1)|exact My].
    - eapply pairs_join; [apply (st_len _ _ _ (sp_st _ _ _ _ _ _ S1))|exact F2|eapply incl_swaps; eauto|exact Ln|exact P1|exact P2].
  Qed.

  Lemma list_dgo tab l vs js tab' : hget h l = Some (OList vs) -> (exists x, tab' = (tab ++ [l]) ++ x) ->
    dlist (tab ++ [l]) vs js tab' -> dgoes tab (VLoc l) (JList js) tab'.
  Proof.
    intros G Ex (J & N & H). split; [exact J|]. exists (S N). intros m L t es S O. pose proof (st_len _ _ _ S) as EL.
    destruct m as [|m]; [lia|]. pose proof (entered_step (OList []) t tab es l ltac:(intros (i & E); congruence) S) as S1. set (p := length (u_heap t)) in *. assert (Ep : p = length (u_heap t)) by reflexivity. set (t1 := entered (OList []) t) in *.
    destruct (H m ltac:(lia) t1 (es ++ [Done p None]) (sp_st _ _ _ _ _ _ S1)) as (vs' & t2 & e & Rs & S2 & M & P).
    { apply Forall_forall. intros x I. apply opens_app; auto; [apply (sp_done _ _ _ _ _ _ S1)|]. eapply opens_part; [exact O|]. eapply hp_list; eauto. }
    assert (L1 : length (u_heap t1) = Datatypes.S p) by (cbn; rewrite app_length; cbn; unfold p; lia).
    assert (Lp2 : p < length (u_heap t2)) by (pose proof (sp_len _ _ _ _ _ _ S2); lia).
    set (t3 := us_heap (hset (u_heap t2) p (OList vs')) t2). set (t4 := us_swaps (u_swaps t3 ++ list_swaps (VLoc p) vs') t3).
    exists (VLoc p), t4, (Done p None :: e).
    assert (Run : restore w uo (Datatypes.S m) (JList js) t = (Ret (VLoc p), t4)).
    { change (restore w uo (Datatypes.S m) (JList js) t) with (restore_list (restore w uo m) (JList js) t). unfold restore_list.
      rewrite (bind_eq _ _ t (VLoc p) (us_heap (u_heap t ++ [OList []]) t)) by reflexivity.
      rewrite (bind_eq _ _ _ _ _ (enter_run t tab es (OList []) S)). fold t1. cbn [jiter].
      rewrite (bind_eq _ _ t1 js t1) by reflexivity. rewrite (bind_eq _ _ _ _ _ Rs).
      rewrite (bind_eq _ _ t2 tt t3) by reflexivity.
      rewrite (bind_eq _ _ t3 tt t4); reflexivity. }
    assert (Sw : Forall (valid tab' ((es ++ [Done p None]) ++ e)) (list_swaps (VLoc p) vs')).
    { apply Forall_forall. intros s I. apply list_swaps_in in I as (n & v' & En & Pr & ->).
      destruct (Forall2_nth_r _ _ _ _ _ M En) as (v & Ev & Mv). destruct (rres_proxy _ _ _ _ _ _ Mv Pr) as (z & q & -> & -> & Op).
      eapply va_list; [exact G| |exact Ev|].
      - rewrite <- app_assoc. apply (rd_at tab); auto.
      - destruct Ex as (x & ->). eapply Qp_ext; [apply ext_app|apply opened_Qp; auto]. }
    split; [exact Run|]. split.
    { destruct S2 as [B1 B2 B3 B4 B5 B6 (s2 & B7 & B8)]. destruct S1 as [A1 A2 A3 A4 A5 A6 _]. constructor.
      - rewrite <- app_assoc in B1. eapply St_same; [| | | | |exact B1]; auto. cbn. rewrite hset_length. auto.
      - constructor; auto. do 2 eexists; reflexivity.
      - cbn. rewrite hset_length. lia.
      - exact B4.
      - intros x Lx _. cbn. rewrite hget_hset_other by lia. rewrite (B5 x); [|lia|intros []]. apply (A5 x); [lia|intros []].
      - intros q Lq. apply (B6 q Lq).
      - exists (s2 ++ list_swaps (VLoc p) vs'). split; [cbn; rewrite B7; cbn; rewrite <- app_assoc; reflexivity|].
        rewrite <- app_assoc in B8, Sw. apply Forall_app. split; [exact B8|exact Sw]. }
    rewrite <- app_assoc in *. cbn [app] in *. split.
    { left. apply bm_obj. apply (rd_at tab); auto. }
    apply (pairs_first _ _ _ tab l); auto.
    - split; [lia|]. rewrite G. exists vs'. split; [cbn; apply hget_hset_same; auto|]. split.
      + destruct Ex as (x & ->). replace (es ++ Done p None :: e) with ((es ++ [Done p None]) ++ e) in * by (rewrite <- app_assoc; reflexivity).
        eapply Forall2_impl; [|exact M]. intros a a'. apply rres_crel.
      + intros n q En. cbn. apply in_or_app. right. apply list_swaps_in. exists n, (VProxy q). auto.
    - intros n a a' q Ni A B. eapply obj_rel_frame; [| | | |eapply (P n); eauto]; [|apply ext_refl| |lia].
      + rewrite L1. apply frame_hset. lia.
      + cbn. apply incl_appl, incl_refl.
  Qed.

  Lemma fnil_dgo tab : dfields tab [] [] tab.
  Proof.
    split; auto. exists 0. intros m _ nm keep p tgt mt body B Nm t es acc S O K G _ _ _. exists [], t, []. split; [reflexivity|].
    split; [apply step_refl; auto|]. rewrite !app_nil_r. split; auto. split; auto. split; [constructor|]. split; [intros a q []|apply pairs_none; auto].
  Qed.
  Lemma noted_same tgt a v mt t : u_heap (noted tgt a v mt t) = u_heap t /\ u_objs (noted tgt a v mt t) = u_objs t /\ u_idx (noted tgt a v mt t) = u_idx t /\
    u_prox (noted tgt a v mt t) = u_prox t /\ u_classes (noted tgt a v mt t) = u_classes t.
  Proof. unfold noted. destruct (is_proxy v); auto. Qed.
  Lemma fcons_dgo tab a v j tab1 d ob tab2 : (exists x, tab1 = tab ++ x) -> (exists x, tab2 = tab1 ++ x) -> ~ In a (map fst ob) ->
    dgoes tab v j tab1 -> dfields tab1 d ob tab2 -> dfields tab ((VStr a, v) :: d) ((a, j) :: ob) tab2.
  Proof.
    intros (x1 & ->) (x & ->) Na (J1 & N1 & G1) (J2 & N2 & G2).
    split; [cbn; rewrite J1; exact J2|]. exists (Nat.max N1 N2). intros m L nm keep p tgt mt body [B1 B2] Nm t es acc S O K G Nacc Sacc MN.
    destruct (G1 m ltac:(lia) t es S (O (VStr a, v) (or_introl eq_refl))) as (v' & t1 & e1 & R1 & S1 & M1 & P1).
    pose proof (hget_lt _ _ _ G) as Lp. pose proof (st_len _ _ _ S) as EL. pose proof (sp_done _ _ _ _ _ _ S1) as De1.
    assert (K1 : keep (u_heap t1)).
    { apply (B1 (u_heap t)); auto. intros y o _ Gy. rewrite (sp_old _ _ _ _ _ _ S1); auto; [eapply hget_lt; eauto]. }
    assert (Gp : hget (u_heap t1) p = Some (ODict acc)) by (rewrite (sp_old _ _ _ _ _ _ S1 p); [auto|lia|intros []]).
    pose proof (hget_lt _ _ _ Gp) as Lp1.
    set (t1h := us_heap (hset (u_heap t1) p (ODict (acc ++ [(VStr a, v')]))) t1). set (t2 := noted tgt a v' mt t1h).
    destruct (noted_same tgt a v' mt t1h) as (Q1 & Q2 & Q3 & Q4 & Q5). fold t2 in Q1, Q2, Q3, Q4, Q5.
    assert (St2 : step (eq p) t1 t2 (tab ++ x1) (es ++ e1) []).
    { constructor.
      - rewrite app_nil_r. eapply St_same; [exact Q2|exact Q3|exact Q4|exact Q5| |eapply St_same; [| | | | |apply (sp_st _ _ _ _ _ _ S1)]; auto].
        + rewrite Q1. auto.
        + cbn. rewrite hset_length. lia.
      - constructor.
      - rewrite Q1. cbn. rewrite hset_length. lia.
      - rewrite Q4. cbn. lia.
      - intros y Ly Ny. rewrite Q1. cbn. apply hget_hset_other; auto.
      - intros q _. rewrite Q4. reflexivity.
      - rewrite app_nil_r. unfold t2, noted. destruct (is_proxy v') eqn:Pr.
        + eexists. split; [reflexivity|]. constructor; [|constructor]. destruct (rres_proxy _ _ _ _ _ _ M1 Pr) as (z & q & -> & -> & Op).
          apply (MN _ _ _ z q); [apply ext_app|left; reflexivity|exact Op|]. eapply Qp_ext; [apply ext_app|apply opened_Qp; auto].
        + exists []. rewrite app_nil_r. split; [reflexivity|constructor]. }
    assert (Run1 : body tt (a, j) t = (Ret tt, t2)).
    { rewrite (B2 a j v' t t1 acc (Nm a (or_introl eq_refl)) R1 K1 Gp).
      rewrite dset_new; [reflexivity| |auto|eauto]. apply Nacc. left; reflexivity. }
    assert (Gp2 : hget (u_heap t2) p = Some (ODict (acc ++ [(VStr a, v')]))) by (rewrite Q1; cbn; apply hget_hset_same; auto).
    destruct (G2 m ltac:(lia) nm keep p tgt mt body (conj B1 B2) (fun b I => Nm b (or_intror I)) t2 (es ++ e1) (acc ++ [(VStr a, v')])) as (d' & t3 & e2 & R3 & S3 & K3 & G3 & M3 & C3 & P3); auto.
    { pose proof (sp_st _ _ _ _ _ _ St2) as X. rewrite app_nil_r in X. exact X. }
    { intros q Iq. apply opens_app; auto. apply O. right; auto. }
    { apply (B1 (u_heap t1)); auto. intros y o Ny Gy. rewrite Q1. cbn. rewrite hget_hset_other; auto. }
    { intros b Ib Iacc. rewrite map_app in Iacc. apply in_app_or in Iacc as [Iacc|[Iacc|[]]].
      - apply (Nacc b); auto. right; auto.
      - cbn in Iacc. apply (f_equal (fun v => match v with VStr s => s | _ => [] end)) in Iacc. cbn in Iacc. subst b. contradiction. }
    { intros y Iy. rewrite map_app in Iy. apply in_app_or in Iy as [Iy|[<-|[]]]; auto. exists a. reflexivity. }
    { intros tb eb b z q Xt Ib Op Qq. apply (MN tb eb b z q); auto; [|right; auto|eapply opened_app; eauto]. eapply ext_trans; [apply ext_app|exact Xt]. }
    assert (L12 : length (u_heap t2) = length (u_heap t1)) by (rewrite Q1; cbn; apply hset_length).
    pose proof (sp_len _ _ _ _ _ _ S1) as Ln1.
    assert (F13 : frame (u_heap t1) (u_heap t3) (length (u_heap t))).
    { intros y o Ly Gy. eapply (frame_step (eq p)); [exact S3| |exact Ly|]; [intros z <-; auto|]. rewrite Q1. cbn. rewrite hget_hset_other by lia. exact Gy. }
    exists ((VStr a, v') :: d'), t3, (e1 ++ e2). split.
    { cbn [foldM]. rewrite (bind_eq _ _ _ _ _ Run1). exact R3. }
    split.
    { eapply step_trans; [eauto|eapply step_weaken; [|exact S1]; intros y []|].
      pose proof (step_trans (eq p) t1 t2 t3 (tab ++ x1) ((tab ++ x1) ++ x) (es ++ e1) [] e2) as X. rewrite app_nil_r in X. apply X; eauto. }
    rewrite app_assoc. split; auto. split; [rewrite <- app_assoc in G3; cbn [app] in G3; exact G3|]. split; [|split].
    - constructor.
      + split; [reflexivity|]. cbn [snd]. eapply crel_ext; [apply ext_app|]. apply rres_crel; auto.
      + exact M3.
    - intros b q [E|I]; [|apply C3; auto]. apply (incl_swaps _ _ _ _ _ _ S3).
      assert (b = a /\ v' = VProxy q) as (-> & ->).
      { split; [apply (f_equal fst), (f_equal (fun v => match v with VStr s => s | _ => [] end)) in E; symmetry; exact E|apply (f_equal snd) in E; exact E]. }
      unfold t2, noted. cbn. apply in_or_app. right. left. reflexivity.
    - eapply pairs_join; [apply (st_len _ _ _ (sp_st _ _ _ _ _ _ S1))|exact F13| | |exact P1|exact P3]; [|lia].
      intros s I. apply (incl_swaps _ _ _ _ _ _ S3), (incl_swaps _ _ _ _ _ _ St2). exact I.
  Qed.

  Lemma string_names d (ob : jobj) : string_keys d -> map fst d = map VStr (map fst ob) -> forall a, In a (map fst ob) -> name_ok false a = true.
  Proof.
    intros [_ F] E a I. destruct (dom_in d ob a E I) as (v & Iv). destruct (F _ _ Iv) as (b & Eb & Nb).
    apply (f_equal (fun v => match v with VStr s => s | _ => [] end)) in Eb. cbn in Eb. subst b. auto.
  Qed.
  Lemma string_nodup d (ob : jobj) : string_keys d -> map fst d = map VStr (map fst ob) -> NoDup (map fst ob).
  Proof. intros [N _] E. rewrite E in N. eapply NoDup_map_inv; eauto. Qed.
  Lemma dict_dgo tab l d ob tab' : hget h l = Some (ODict d) -> (exists x, tab' = (tab ++ [l]) ++ x) -> string_keys d ->
    map fst d = map VStr (map fst ob) -> dfields (tab ++ [l]) d ob tab' -> dgoes tab (VLoc l) (JObj ob) tab'.
  Proof.
    intros G Ex Sk Dm (J & N & H). pose proof (string_names d ob Sk Dm) as Nm. pose proof (string_nodup d ob Sk Dm) as Nd.
    split. { apply jwf_obj; auto. intros a Ia. apply Nm in Ia. apply name_parts in Ia. tauto. }
    exists (S N). intros m L t es S O. pose proof (st_len _ _ _ S) as EL. destruct m as [|m]; [lia|].
    pose proof (entered_step (ODict []) t tab es l ltac:(intros (i & E); congruence) S) as S1. set (p := length (u_heap t)) in *. assert (Ep : p = length (u_heap t)) by reflexivity. set (t1 := entered (ODict []) t) in *.
    assert (Hp1 : hget (u_heap t1) p = Some (ODict [])) by (cbn; apply hget_app_new).
    assert (L1 : length (u_heap t1) = Datatypes.S p) by (cbn; rewrite app_length; cbn; unfold p; lia).
    set (body := fun (_ : unit) (kv : pystr * json) => v <- restore w uo m (snd kv) ;; dict_assign w p (VStr (fst kv)) v ;;; swap_if_proxy (VLoc p) (VStr (fst kv)) v SetValue).
    assert (B : stores m (fun _ => True) (fun _ => True) p (VLoc p) SetValue body).
    { split; auto. intros a j v s1 s2 dd _ Rs _ Gd. unfold body. cbn [fst snd]. rewrite (bind_eq _ _ _ _ _ Rs).
      rewrite (bind_eq _ _ s2 tt (us_heap (hset (u_heap s2) p (ODict (dset (VStr a) v dd))) s2)).
      - unfold swap_if_proxy, noted. destruct (is_proxy v); reflexivity.
      - unfold dict_assign, get_uobj. rewrite (bind_eq _ _ s2 (ODict dd) s2).
        + rewrite (bind_eq _ _ s2 (u_heap s2) s2) by reflexivity. reflexivity.
        + rewrite (bind_eq _ _ s2 (u_heap s2) s2) by reflexivity. rewrite Gd. reflexivity. }
    destruct (H m ltac:(lia) _ _ p _ _ body B (fun _ _ => Logic.I) t1 (es ++ [Done p None]) [] (sp_st _ _ _ _ _ _ S1)) as (d' & t2 & e & Rs & S2 & _ & Hp2 & M & C & P); auto.
    { intros [q x] I. apply opens_app; auto; [apply (sp_done _ _ _ _ _ _ S1)|]. eapply opens_part; [exact O|]. eapply hp_dict; eauto. }
    { intros y []. }
    { intros tb eb a z q Xt Ia Op Qq. eapply va_dict; [exact G| |exact Ia|exact Qq]. eapply Rd_ext; [exact Xt|]. apply (rd_at tab l (tab ++ [l]) es p None []); auto. exists []. rewrite app_nil_r. reflexivity. }
    exists (VLoc p), t2, (Done p None :: e). split.
    { rewrite restore_untagged.
      2:{ apply untagged_names. intros a Ia. apply Nm in Ia. apply name_parts in Ia. tauto. }
      unfold restore_dict. rewrite (bind_eq _ _ t (VLoc p) (us_heap (u_heap t ++ [ODict []]) t)) by reflexivity.
      rewrite Uv, Uk. rewrite (bind_eq _ _ _ tt t1).
      2:{ rewrite (bind_eq _ _ _ _ _ (enter_run t tab es (ODict []) S)). reflexivity. }
      change (foldM body ob tt t1 = (Ret tt, t2)) in Rs. rewrite (bind_eq _ _ _ _ _ Rs). reflexivity. }
    rewrite <- !app_assoc in *. cbn [app] in *.
    split.
    { destruct S2 as [B1 B2 B3 B4 B5 B6 B7]. destruct S1 as [A1 A2 A3 A4 A5 A6 _]. constructor; auto.
      - rewrite <- app_assoc in B1. exact B1.
      - constructor; auto. do 2 eexists; reflexivity.
      - lia.
      - intros x Lx _. rewrite (B5 x); [|lia|lia]. apply (A5 x); [lia|intros []].
      - rewrite <- app_assoc in B7. exact B7. }
    split.
    { left. apply bm_obj. apply (rd_at tab); auto. }
    apply (pairs_first _ _ _ tab l); auto.
    - split; [lia|]. rewrite G. exists d'. auto.
    - intros n a a' q Ni A Bi. eapply obj_rel_frame; [apply frame_refl|apply ext_refl|apply incl_refl| |eapply (P n); eauto]. lia.
  Qed.

  Definition opening (t : ust) : ust := uref (VProxy (length (u_prox t))) (us_prox (u_prox t ++ [None]) t).
  Lemma open_St t tab es l : St t tab es -> St (opening t) (tab ++ [l]) (es ++ [Open (length (u_prox t))]).
  Proof.
    intros [A1 A2 A3 A4 A5 A6 A7 A8 A9 A10]. set (pp := length (u_prox t)).
    assert (Lo : length (u_objs t) = length es) by (rewrite A2, map_length; reflexivity).
    constructor; auto.
    - rewrite !app_length, A1. reflexivity.
    - cbn. rewrite A2, map_app. reflexivity.
    - cbn. intros v n [I|I].
      + injection I as <- _. right. exists pp. split; auto. rewrite app_length. cbn. unfold pp. lia.
      + destruct (A3 v n I) as [(x & -> & Lx)|(q & -> & Lx)]; [left; eauto|right]. exists q. split; auto. rewrite app_length. lia.
    - intros n p E. cbn [opening uref u_idx us_objs us_idx us_prox]. destruct (Nat.lt_ge_cases n (length es)) as [Ln|Ln].
      + rewrite nth_error_app1 in E by auto. pose proof (A5 p (nth_error_In _ _ E)) as X. assert (p < pp) by (apply nth_error_Some; congruence).
        rewrite idx_get_cons by (intros [= Y]; unfold pp in *; lia). apply A4; auto.
      + rewrite nth_error_app2 in E by auto. destruct (n - length es) as [|[]] eqn:X; try discriminate. injection E as <-. cbn [idx_get].
        destruct (val_eqb_spec (VProxy pp) (VProxy (length (u_prox t)))) as [_|N]; [|destruct N; reflexivity]. f_equal. cbn. lia.
    - intros p I. cbn. apply in_app_or in I as [I|[I|[]]].
      + apply A5 in I. apply nth_app_some; auto.
      + injection I as <-. rewrite nth_error_app2 by (unfold pp; lia). unfold pp. rewrite Nat.sub_diag. reflexivity.
    - intros x p I. cbn. apply in_app_or in I as [I|[I|[]]]; [|discriminate]. apply A6 in I. apply nth_app_some; auto.
    - assert (Y : forall n x q, nth_error (es ++ [Open pp]) n = Some (Done x q) -> nth_error es n = Some (Done x q)).
      { intros n x q E. destruct (Nat.lt_ge_cases n (length es)) as [Ln|Ln]; [rewrite nth_error_app1 in E; auto|]. rewrite nth_error_app2 in E by auto. destruct (n - length es) as [|[]]; discriminate. }
      intros n m x q r En Em. apply Y in En, Em. eapply A8; eauto.
    - intros x p I. cbn. apply in_app_or in I as [I|[I|[]]]; [|discriminate]. eapply A9; eauto.
    - intros n l0 i x q r Et G E I. apply in_app_or in I as [I|[I|[]]]; [|discriminate].
      destruct (Nat.lt_ge_cases n (length tab)) as [Ln|Ln].
      + rewrite nth_error_app1 in Et by auto. rewrite nth_error_app1 in E by lia. eapply A10; eauto.
      + rewrite nth_error_app2 in E by lia. destruct (n - length es) as [|[]]; discriminate.
  Qed.
  Lemma open_run t tab es : St t tab es -> umkref (VProxy (length (u_prox t))) (us_prox (u_prox t ++ [None]) t) = (Ret (VProxy (length (u_prox t))), opening t).
  Proof.
    intros S. unfold umkref. cbn [u_idx us_prox]. rewrite idx_get_None; [reflexivity|].
    intros q I. destruct (st_idx _ _ _ S _ _ I) as [(x & X & _)|(p & X & L)]; [discriminate|]. injection X as <-. lia.
  Qed.
  Definition closing (x : loc) (pp n : nat) (t : ust) : ust :=
    us_objs (list_set (u_objs t) n (VLoc x))
      (us_idx (idx_del (VProxy pp) ((VLoc x, n) :: idx_del (VLoc x) (u_idx t))) (us_prox (list_set (u_prox t) pp (Some (VLoc x))) t)).
  Lemma close_run x pp es e tab t : St t tab (es ++ Open pp :: e) ->
    (proxy_reset (VProxy pp) (VLoc x) ;;; swapref (VProxy pp) (VLoc x)) t = (Ret tt, closing x pp (length es) t).
  Proof.
    intros S. rewrite (bind_eq _ _ t tt (us_prox (list_set (u_prox t) pp (Some (VLoc x))) t)) by reflexivity.
    unfold swapref. cbn [u_idx us_prox]. rewrite (st_open _ _ _ S (length es) pp) by (rewrite nth_error_app2, Nat.sub_diag by lia; reflexivity). reflexivity.
  Qed.
  Lemma close_St x b pp es e tab t : St t tab (es ++ Open pp :: e) -> x = S b -> x < length (u_heap t) ->
    (forall y q, In (Done y q) (es ++ Open pp :: e) -> y < b) -> St (closing x pp (length es) t) tab (es ++ Done x (Some pp) :: e).
  Proof.
    intros [A1 A2 A3 A4 A5 A6 A7 A8 A9 A10] Ex Lx Fr.
    assert (Hn : nth_error (es ++ Open pp :: e) (length es) = Some (Open pp)) by (rewrite nth_error_app2, Nat.sub_diag by lia; reflexivity).
    assert (Pp : nth_error (u_prox t) pp = Some None) by (apply A5, in_or_app; right; left; reflexivity).
    assert (Lpp : pp < length (u_prox t)) by (apply nth_error_Some; congruence).
    assert (Oth : forall n, n <> length es -> nth_error (es ++ Done x (Some pp) :: e) n = nth_error (es ++ Open pp :: e) n).
    { intros n Nn. destruct (Nat.lt_ge_cases n (length es)) as [Ln|Ln]; [rewrite !nth_error_app1 by auto; auto|]. rewrite !nth_error_app2 by lia. destruct (n - length es) as [|m] eqn:Y; [lia|reflexivity]. }
    assert (Hd : nth_error (es ++ Done x (Some pp) :: e) (length es) = Some (Done x (Some pp))) by (rewrite nth_error_app2, Nat.sub_diag by lia; reflexivity).
    assert (InO : forall y q, In (Done y q) (es ++ Done x (Some pp) :: e) -> In (Done y q) (es ++ Open pp :: e) \/ y = x /\ q = Some pp).
    { intros y q I. apply in_app_or in I as [I|[I|I]]; [left; apply in_or_app; auto|injection I as <- <-; auto|left; apply in_or_app; right; right; auto]. }
    constructor; auto.
    - rewrite <- A1, !app_length. reflexivity.
    - cbn. rewrite A2, map_app. cbn [map ent_val]. rewrite <- (map_length ent_val es), list_set_app, map_app. reflexivity.
    - intros v n I. cbn in I. cbn [closing u_heap u_prox us_objs us_idx us_prox]. rewrite list_set_length.
      assert (I2 : In (v, n) (idx_del (VProxy pp) ((VLoc x, length es) :: idx_del (VLoc x) (u_idx t)))) by exact I.
      apply idx_del_In in I2 as ([I2|I2] & Nv).
      + injection I2 as <- _. left. eauto.
      + apply idx_del_In in I2 as (I2 & _). apply (A3 v n I2).
    - intros n p E. destruct (Nat.eq_dec n (length es)) as [->|Nn]; [rewrite Hd in E; discriminate|]. rewrite Oth in E by auto. pose proof (A4 n p E) as X.
      assert (p <> pp). { intros ->. rewrite (A4 _ _ Hn) in X. injection X as X. congruence. }
      cbn [closing u_idx us_objs us_idx]. rewrite idx_get_del by (intros [= Y]; auto). rewrite idx_get_cons by discriminate. rewrite idx_get_del by discriminate. exact X.
    - intros p I. cbn [closing u_prox us_objs us_idx us_prox]. assert (I2 : In (Open p) (es ++ Open pp :: e)).
      { apply in_app_or in I as [I|[I|I]]; [apply in_or_app; auto|discriminate|apply in_or_app; right; right; auto]. }
      assert (p <> pp). { intros ->. apply In_nth_error in I as (n & E). destruct (Nat.eq_dec n (length es)) as [->|Nn]; [congruence|]. rewrite Oth in E by auto. apply A4 in E. rewrite (A4 _ _ Hn) in E. injection E as E. congruence. }
      rewrite list_set_other by auto. auto.
    - intros y p I. cbn [closing u_prox us_objs us_idx us_prox]. apply InO in I as [I|(-> & [= ->])].
      + pose proof (A6 y p I) as X. rewrite list_set_other; auto. intros <-. congruence.
      + apply list_set_nth; auto.
    - intros n m y q r En Em. destruct (Nat.eq_dec n (length es)) as [->|Nn]; destruct (Nat.eq_dec m (length es)) as [->|Nm]; auto.
      + rewrite Hd in En. injection En as <- _. rewrite Oth in Em by auto. apply nth_error_In, Fr in Em. lia.
      + rewrite Hd in Em. injection Em as <- _. rewrite Oth in En by auto. apply nth_error_In, Fr in En. lia.
      + rewrite Oth in En, Em by auto. eapply A8; eauto.
    - intros y p I. apply InO in I as [I|(-> & _)]; [apply (A9 y p I)|exact Lx].
    - intros n l i y q r Et G E I. destruct (Nat.eq_dec n (length es)) as [->|Nn].
      + rewrite Hd in E. injection E as E _. apply InO in I as [I|(I & _)]; [apply Fr in I; lia|lia].
      + rewrite Oth in E by auto. apply InO in I as [I|(I & _)]; [eapply A10; eauto|]. subst y. apply nth_error_In, Fr in E. lia.
  Qed.

  (** the state in which the attributes are restored *)
  Lemma new_plain_b m c ob t tab es l : found w w cl c -> St t tab es -> (forall a, In a (map fst ob) -> attr_ok false (cls c) a = true) ->
    exists t4, step nil_ t t4 (tab ++ [l]) es [Done (S (length (u_heap t))) (Some (length (u_prox t)))] /\
      u_heap t4 = u_heap t ++ [ODict []; OInst (mk_inst c (length (u_heap t)))] /\
      restore w uo (S m) (JObj ((u "py/object", JStr (cname w c)) :: ob)) t =
        (inst2 <- restore_object_instance_variables w uo (restore w uo m) ((u "py/object", JStr (cname w c)) :: ob) (VLoc (S (length (u_heap t)))) ;; fin w inst2) t4.
  Proof.
    intros Fo Sd Nm. destruct Fo as [F1 F2 F3 F4 F5 F6]. set (b := length (u_heap t)). set (ob0 := (u "py/object", JStr (cname w c)) :: ob).
    assert (Nr : forall tg, In tg [NEWARGSEX; NEWARGS; INITARGS; SEQ; DEFAULT_FACTORY; u "default_factory"] -> sget tg ob0 = None).
    { intros tg I. apply sget_notin. intros [E|Ia].
      - change (OBJECT = tg) in E. subst tg. cbn [In] in I. assert (X : forallb (fun x => negb (seqb OBJECT x)) [NEWARGSEX; NEWARGS; INITARGS; SEQ; DEFAULT_FACTORY; u "default_factory"] = true) by reflexivity.
        rewrite forallb_forall in X. specialize (X OBJECT I). destruct (seqb_spec OBJECT OBJECT); [discriminate|congruence].
      - apply Nm in Ia. apply attr_ok_split in Ia as (A1 & _ & A3 & _). apply name_parts in A1 as (_ & A1 & _).
        assert (X : forallb (fun x => is_reserved x || seqb x (u "default_factory")) [NEWARGSEX; NEWARGS; INITARGS; SEQ; DEFAULT_FACTORY; u "default_factory"] = true) by reflexivity.
        rewrite forallb_forall in X. specialize (X tg I). rewrite A1, A3 in X. discriminate. }
    destruct (loadclass_run w cl t _ _ (st_cls _ _ _ Sd) F1) as (lg & ELd). set (t0 := us_log lg t).
    assert (Sd0 : St t0 tab es) by (eapply St_same; [| | | | |exact Sd]; auto).
    set (pp := length (u_prox t)). set (t2 := opening t0). pose proof (open_St t0 tab es l Sd0) as Sd2. fold t2 in Sd2. change (length (u_prox t0)) with pp in Sd2.
    assert (E3 : new_attempt w c None (Ret []) (Ret []) t2 = (Ret (VLoc (S b)), us_log (u_log t2 ++ [EvNew c [] []]) (us_heap (u_heap t ++ [ODict []; OInst (mk_inst c b)]) t2))).
    { pose proof (new_attempt_run w false (mkPopts true true false None false None false None false false VNone false None false) uo 0 0 (le_n 0) c None [] [] t2 Logic.I (F6 _)) as X. cbn [olist app] in X. rewrite X. unfold cell, cells. rewrite F4. reflexivity. }
    set (t3 := us_log _ (us_heap _ t2)) in E3.
    assert (L3 : length (u_heap t3) = S (S b)) by (cbn; rewrite app_length; cbn; unfold b; lia).
    assert (Sd3 : St t3 (tab ++ [l]) (es ++ [Open pp])) by (eapply St_same; [| | | | |exact Sd2]; auto; rewrite L3; cbn; unfold b; lia).
    pose proof (close_St (S b) b pp es [] (tab ++ [l]) t3 Sd3 eq_refl ltac:(lia)) as Sd4. set (t4 := closing (S b) pp (length es) t3) in *.
    pose proof (close_run (S b) pp es [] (tab ++ [l]) t3 Sd3) as Rc. fold t4 in Rc.
    rewrite (bind_eq _ _ t3 tt (us_prox (list_set (u_prox t3) pp (Some (VLoc (S b)))) t3)) in Rc by reflexivity.
    assert (H4 : u_heap t4 = u_heap t ++ [ODict []; OInst (mk_inst c b)]) by reflexivity.
    exists t4. split; [|split; auto].
    - constructor.
      + apply Sd4. intros y q I. pose proof (st_lt _ _ _ Sd2 y q I) as X. exact X.
      + constructor; [|constructor]. do 2 eexists; reflexivity.
      + rewrite H4, app_length. lia.
      + cbn. rewrite list_set_length, app_length. lia.
      + intros z Lz _. rewrite H4. unfold hget. apply nth_error_app1; auto.
      + intros p Lp. cbn. rewrite list_set_other by (unfold pp; lia). apply nth_error_app1; auto.
      + exists []. rewrite app_nil_r. split; [reflexivity|constructor].
    - change (restore w uo (S m) (JObj ob0) t) with (restore_step w uo (restore w uo m) (JObj ob0) t). rewrite dispatch_object.
      2: reflexivity.
      2:{ intros a [<-|Ia]; [left; vm_compute; auto|]. right. right. right. apply Nm in Ia. apply attr_ok_split in Ia as (A1 & _). apply name_parts in A1. tauto. }
      unfold restore_object. change (jfield OBJECT ob0) with (JStr (cname w c)). rewrite (bind_eq _ _ _ _ _ ELd). rewrite F2. unfold restore_object_instance.
      rewrite (bind_eq _ _ t0 (VProxy pp) (us_prox (u_prox t0 ++ [None]) t0)) by reflexivity.
      rewrite (bind_eq _ _ _ _ _ (open_run t0 tab es Sd0)). fold t2.
      rewrite (bind_eq _ _ t2 (None, ob0) t2).
      2:{ unfold loadfactory. rewrite (Nr DEFAULT_FACTORY), (Nr (u "default_factory")) by (cbn; auto 10). reflexivity. }
      cbv beta iota. rewrite (bind_eq _ _ t2 (JList [], JObj []) t2).
      2:{ rewrite (Nr NEWARGSEX) by (cbn; auto 10). unfold getargs. rewrite (Nr NEWARGS), (Nr INITARGS), (Nr SEQ) by (cbn; auto 10). reflexivity. }
      cbn [fst snd]. rewrite (bind_eq _ _ t2 (Ret []) t2) by reflexivity. rewrite (bind_eq _ _ t2 (Ret []) t2) by reflexivity.
      rewrite (bind_eq _ _ t2 (Some (VLoc (S b))) t3).
      2:{ apply catch_ret. rewrite (bind_eq _ _ _ _ _ E3). reflexivity. }
      rewrite (bind_eq _ _ t3 (Some (VLoc (S b))) t3) by reflexivity.
      rewrite (bind_eq _ _ t3 tt (us_prox (list_set (u_prox t3) pp (Some (VLoc (S b)))) t3)) by reflexivity.
      rewrite (bind_eq _ _ _ _ _ Rc).
      rewrite (bind_eq _ _ t4 (u_heap t4) t4) by reflexivity.
      assert (X : is_tuple w (u_heap t4) (VLoc (S b)) = false).
      { unfold is_tuple. rewrite H4. unfold b. unfold hget. rewrite nth_error_app2 by lia. replace (S (length (u_heap t)) - length (u_heap t)) with 1 by lia. cbn. rewrite F3. reflexivity. }
      rewrite X. reflexivity.
  Qed.
  Lemma set_one_b x i' a v t h' : hget (u_heap t) x = Some (OInst i') -> c_kind (cls (i_cls i')) <> KDict ->
    attr_ok false (cls (i_cls i')) a = true ->
    inst_store cls (u_heap t) x i' a v = Ret h' -> set_one w uo (VLoc x) (VStr a) v t = (Ret tt, noted (VLoc x) a v SetAttr (us_heap h' t)).
  Proof.
    intros HX NK AO ST. destruct (attr_ok_split _ _ _ AO) as (_ & DU & _ & SA).
    unfold set_one. rewrite (bind_eq _ _ t (u_heap t) t) by reflexivity. cbn [u_inst]. rewrite HX.
    rewrite (bind_eq _ _ t true (us_heap h' t)).
    { unfold swap_if_proxy, noted. destruct (is_proxy v); reflexivity. }
    assert (X : set_plain_attr w uo (VLoc x) (VStr a) v t = (Ret true, us_heap h' t)).
    { unfold set_plain_attr. rewrite (bind_eq _ _ t (u_heap t) t) by reflexivity. rewrite DU.
      assert (ES : set_attr w (VLoc x) a v t = match c_setattr (cls (i_cls i')) a with SARaise e => (Exc e, t) | SAOk => (Ret tt, us_heap h' t) end).
      { unfold set_attr. rewrite (bind_eq _ _ t (u_heap t) t) by reflexivity. unfold inst_setattr. rewrite HX.
        destruct (c_setattr (cls (i_cls i')) a); [|reflexivity]. rewrite ST. reflexivity. }
      destruct SA as [SA|SA]; rewrite SA in ES.
      - apply catch_ret. rewrite (bind_eq _ _ _ _ _ ES). reflexivity.
      - unfold catch, bind at 1. rewrite ES. cbn [is_KeyError is_AttributeError orb is_Frozen].
        unfold object_setattr. rewrite (bind_eq _ _ t tt (us_heap h' t)); [reflexivity|].
        rewrite (bind_eq _ _ t (u_heap t) t) by reflexivity. rewrite HX, ST. reflexivity. }
    destruct (c_kind (cls (i_cls i'))); auto. contradiction.
  Qed.
  Lemma prel_keys tab es d d' : Forall2 (prel tab es) d d' -> map fst d' = map fst d.
  Proof. induction 1 as [|q q' d d' [E _] _ IH]; auto. cbn. f_equal; auto. Qed.
  Lemma obj_wf_b c ob : str_ok (cname w c) = true -> (forall a, In a (map fst ob) -> name_ok false a = true) -> NoDup (map fst ob) -> forallb jwf (map snd ob) = true ->
    jwf (JObj ((u "py/object", JStr (cname w c)) :: ob)) = true.
  Proof.
    intros Sn Nm Nd J. apply jwf_obj.
    - cbn. constructor; auto. intros I. apply Nm, name_parts in I as (_ & I & _). discriminate.
    - intros a [<-|I]; [reflexivity|]. apply Nm, name_parts in I. tauto.
    - cbn [map snd forallb jwf]. rewrite Sn. exact J.
  Qed.
  Lemma inst_dgo tab l i dl d ob tab' : hget h l = Some (OInst i) -> plain_class w (i_cls i) -> i_dict i = Some dl -> hget h dl = Some (ODict d) -> (exists x, tab' = (tab ++ [l]) ++ x) ->
    string_keys d -> settable w k h (VLoc l) (i_cls i) d -> found w w cl (i_cls i) -> str_ok (cname w (i_cls i)) = true ->
    map fst d = map VStr (map fst ob) -> dfields (tab ++ [l]) d ob tab' ->
    dgoes tab (VLoc l) (JObj ((u "py/object", JStr (cname w (i_cls i))) :: ob)) tab'.
  Proof.
    intros G Pc Ed Gd Ex Sk Sb Fo Sn Dm (J & N & H). pose proof (string_names d ob Sk Dm) as Nm0. pose proof (string_nodup d ob Sk Dm) as Nd.
    split; [apply obj_wf_b; auto|]. exists (S N). intros m L t es Sd O. pose proof (st_len _ _ _ Sd) as EL. destruct m as [|m]; [lia|].
    set (c := i_cls i) in *. pose proof (pc_reduce _ _ Pc) as Nr.
    assert (Nm : forall a, In a (map fst ob) -> attr_ok false (cls c) a = true /\ slot_named (cls c) a = false).
    { intros a Ia. destruct (dom_in d ob a Dm Ia) as (v & Iv). destruct (Sb a v Iv) as (X & Y & _). auto. }
    destruct (new_plain_b m c ob t tab es l Fo Sd (fun a Ia => proj1 (Nm a Ia))) as (t4 & S4 & H4 & Run).
    set (b := length (u_heap t)) in *. assert (Eb : b = length (u_heap t)) by reflexivity. set (pp := length (u_prox t)) in *.
    assert (G4d : hget (u_heap t4) b = Some (ODict [])).
    { rewrite H4. unfold hget. rewrite nth_error_app2, Eb, Nat.sub_diag by lia. reflexivity. }
    assert (G4x : hget (u_heap t4) (S b) = Some (OInst (mk_inst c b))).
    { rewrite H4. unfold hget. rewrite nth_error_app2 by lia. replace (S b - length (u_heap t)) with 1 by lia. reflexivity. }
    assert (L4 : length (u_heap t4) = S (S b)) by (rewrite H4, app_length; cbn; lia).
    set (ob0 := (u "py/object", JStr (cname w c)) :: ob) in *.
    set (body := fun (_ : unit) (kv : pystr * json) => if is_reserved (fst kv) then ret tt
       else key <- restore_key uo (restore w uo m) (fst kv) ;; v <- restore w uo m (snd kv) ;; set_one w uo (VLoc (S b)) key v).
    assert (B : stores m (fun a => attr_ok false (cls c) a = true /\ slot_named (cls c) a = false)
                  (fun h1 => hget h1 (S b) = Some (OInst (mk_inst c b))) b (VLoc (S b)) SetAttr body).
    { split.
      - intros h1 h2 K1 Hs. apply Hs; auto.
      - intros a j v s1 s2 dd (A1 & A2) Rs K1 Gdd. destruct (attr_ok_split _ _ _ A1) as (B1 & B2 & B3 & _). apply name_parts in B1 as (_ & B1 & _).
        unfold body. cbn [fst snd]. rewrite B1. unfold restore_key. rewrite Uk. rewrite (bind_eq _ _ s1 (VStr a) s1) by reflexivity. rewrite (bind_eq _ _ _ _ _ Rs).
        eapply set_one_b; [exact K1| |exact A1|].
        + cbn. rewrite (fd_kind _ _ _ _ Fo). discriminate.
        + unfold inst_store. cbn [mk_inst i_cls i_dict]. rewrite (dunder_not_dict _ B2), B3. cbn [andb]. unfold slot_named in A2. rewrite A2, Gdd. reflexivity. }
    destruct (H m ltac:(lia) _ _ b _ _ body B Nm t4 (es ++ [Done (S b) (Some pp)]) [] (sp_st _ _ _ _ _ _ S4)) as (d' & t5 & e & Rs & S5 & K5 & G5 & M & C & P); auto.
    { intros [q x] I. apply opens_app; auto; [apply (sp_done _ _ _ _ _ _ S4)|]. eapply opens_part; [exact O|]. eapply hp_attr; eauto. }
    { intros y []. }
    { intros tb eb a z q Xt Ia Op Qq. destruct (Sb a _ Ia) as (X1 & X2 & X3). eapply va_attr; [exact G|exact Nr|exact Ed|exact Gd| |exact Ia|exact Qq|exact X1|exact X2|].
      - eapply Rd_ext; [exact Xt|]. apply (rd_at tab l (tab ++ [l]) es (S b) (Some pp) []); auto. exists []. rewrite app_nil_r. reflexivity.
      - destruct X3 as [X3|X3]; auto. exfalso. apply opened_app in Op; auto; [|apply (sp_done _ _ _ _ _ _ S4)]. destruct (O z q Op) as (Y1 & Y2). exact (X3 z eq_refl Y1 Y2). }
    cbn [app] in G5. pose proof (prel_keys _ _ _ _ M) as Dm'. rewrite Dm in Dm'.
    assert (NS : forall tg, is_reserved tg = true -> seqb tg (u "py/object") = false -> sget tg ob0 = None).
    { intros tg Rt Nt. apply sget_notin. intros [E|Ia]; [cbn in E; subst tg; discriminate|]. apply Nm in Ia as (A1 & _).
      apply attr_ok_split in A1 as (A1 & _). apply name_parts in A1 as (_ & A1 & _). congruence. }
    exists (VLoc (S b)), t5, (Done (S b) (Some pp) :: e). split.
    { rewrite Run. rewrite (bind_eq _ _ t4 (VLoc (S b)) t5).
      - unfold fin. rewrite (bind_eq _ _ t5 None t5); [reflexivity|]. unfold gets, inst_factory. cbn [u_inst]. rewrite K5. cbn [mk_inst i_cls].
        rewrite (fd_deffac _ _ _ _ Fo). unfold inst_attr. cbn [mk_inst i_slots sget i_dict]. rewrite G5.
        assert (X : dget (VStr (u "default_factory")) d' = None).
        { apply dget_none. rewrite Dm'. intros x I. apply in_map_iff in I as (a & <- & Ia). rewrite key_str.
          apply Nm in Ia as (A1 & _). apply attr_ok_split in A1 as (_ & _ & A3 & _).
          destruct (seqb_spec (u "default_factory") a) as [<-|]; auto. }
        rewrite X. reflexivity.
      - unfold restore_object_instance_variables. rewrite (bind_eq _ _ t4 tt t5).
        + rewrite (NS SEQ), (NS STATE) by reflexivity. reflexivity.
        + unfold restore_from_dict, ob0. cbn [foldM]. rewrite (bind_eq _ _ t4 tt t4) by reflexivity. exact Rs. }
    rewrite <- !app_assoc in *. cbn [app] in *.
    split.
    { destruct S5 as [B1 B2 B3 B4 B5 B6 (s5 & B7 & B8)]. destruct S4 as [A1 A2 A3 A4 A5 A6 (s4 & A7 & A8)]. constructor.
      - rewrite <- app_assoc in B1. exact B1.
      - constructor; auto. do 2 eexists; reflexivity.
      - lia.
      - lia.
      - intros x Lx _. rewrite (B5 x); [|lia|lia]. apply (A5 x); [lia|intros []].
      - intros q Lq. rewrite B6 by lia. apply A6; auto.
      - rewrite <- app_assoc in B8. cbn [app] in B8. exists (s4 ++ s5). split; [rewrite B7, A7, app_assoc; reflexivity|]. apply Forall_app. split; auto.
        destruct Ex as (x & ->). eapply valids_ext; [|exact A8]. replace (es ++ Done (S b) (Some pp) :: e) with ((es ++ [Done (S b) (Some pp)]) ++ e) by (rewrite <- app_assoc; reflexivity). apply ext_app. }
    split.
    { left. apply bm_obj. apply (rd_at tab); auto. }
    apply (pairs_first _ _ _ tab l); auto.
    - split; [lia|]. rewrite G. exists b. split; auto. split; [lia|]. fold c. rewrite Nr. split; [exact K5|]. exists dl, d, d'. auto 8.
    - intros n a a' q Ni A Bi. eapply obj_rel_frame; [apply frame_refl|apply ext_refl|apply incl_refl| |eapply (P n); eauto]. lia.
  Qed.

  Lemma reduce_part l i t args st x : hget h l = Some (OInst i) -> with_state w k h l i t args st -> x <> VNone ->
    In x [VType t; VTuple args; st] -> has_part w k h (VLoc l) x.
  Proof.
    intros G ([R1 R2 R3 (rl & Kr & Nrl & Pd) R5 R6 R7 R8 R9] & _ & _) Nx I. eapply hp_reduce; eauto.
    assert (X : In x (rl ++ repeat VNone (6 - length rl))) by (rewrite Pd; cbn in *; tauto).
    apply in_app_or in X as [X|X]; auto. apply repeat_spec in X. contradiction.
  Qed.
  Definition state_vals (st : val) : list val := match st with VNone => [] | _ => [st] end.
  Definition red_inst (c : nat) (x0 : loc) (t : nat) (args : list val) : inst := mkInst c (Some x0) [] [] [] None (CCall (VType t) args) [] 0.
  Lemma fresh_run c r t : c_dict (cls c) = true -> fresh_inst w c r t = (Ret (VLoc (S (length (u_heap t)))), us_heap (u_heap t ++ [ODict []; OInst (mkInst c (Some (length (u_heap t))) [] [] [] None r [] 0)]) t).
  Proof.
    intros D. unfold fresh_inst. rewrite D. unfold bind, alloc, ret. cbn [u_heap us_heap]. rewrite app_length. cbn [length]. rewrite <- app_assoc, Nat.add_1_r. reflexivity.
  Qed.

  Lemma hset_id hp l o : hget hp l = Some o -> hset hp l o = hp.
  Proof. unfold hget, hset. revert l. induction hp as [|x hp IH]; intros [|l] E; try discriminate; cbn in *; [injection E as ->; reflexivity|f_equal; auto]. Qed.
  Lemma reduce_dgo tab l i t args st jt ja js tab2 : hget h l = Some (OInst i) -> with_state w k h l i t args st -> (exists x, tab2 = (tab ++ [l]) ++ x) ->
    back_node (VTuple args) -> (forall sd, st = VLoc sd -> ~ In sd (tab ++ [l])) ->
    dlist (tab ++ [l]) ([VType t; VTuple args] ++ state_vals st) ([jt; ja] ++ js) tab2 ->
    dgoes tab (VLoc l) (JObj [(u "py/reduce", JList ([jt; ja] ++ js))]) tab2.
  Proof.
    intros G Ws Ex Na Ns (J & N & H). pose proof Ws as ([R1 R2 R3 (rl & Kr & Nrl & Pd) R5 R6 R7 R8 R9] & Cd & Sc). clear Kr Nrl Pd.
    assert (Mk : c_name (cls t) <> u "__newobj__" /\ forall h' a, length a = length args -> w_call w h' (VType t) a = CInst (i_cls i)).
    { inversion R5 as [f a [(t1 & E1 & E2)|(g & E1 & _)] Wc E3 E4 E5|g a E1 Wn E3 E4 E5]; subst; try discriminate. injection E1 as <-. split; auto. }
    destruct Mk as (Nn & Wc). clear R5.
    split; [set (jj := [jt; ja] ++ js) in *; cbn [jwf map fst nodupb forallb]; rewrite J; reflexivity|].
    exists (S N). intros m L t0 es Sd O. pose proof (st_len _ _ _ Sd) as EL. destruct m as [|m]; [lia|].
    set (pp := length (u_prox t0)). set (t2 := opening t0). pose proof (open_St t0 tab es l Sd) as Sd2. fold t2 pp in Sd2.
    assert (O2 : forall x, x <> VNone -> In x [VType t; VTuple args; st] -> opens (tab ++ [l]) (es ++ [Open pp]) x).
    { intros x Nx I z p Op. pose proof (reduce_part l i t args st x G Ws Nx I) as Hp. destruct Op as (n & A & B).
      destruct (Nat.lt_ge_cases n (length es)) as [Ln|Ln].
      - rewrite nth_error_app1 in A by lia. rewrite nth_error_app1 in B by auto. destruct (O z p) as (Y1 & Y2); [exists n; auto|]. split; auto. eapply ld_step; eauto.
      - rewrite nth_error_app2 in A by lia. rewrite EL in Ln. destruct (n - length tab) as [|[]]; try discriminate. injection A as <-.
        split; [exists i; auto|]. eapply ld_step; [apply ld_refl|exact Hp]. }
    destruct (H m ltac:(lia) t2 (es ++ [Open pp]) Sd2) as (vs' & t3 & e & Rs & S3 & M & P).
    { constructor; [apply O2; [discriminate|left; auto]|]. constructor; [apply O2; [discriminate|right; left; auto]|].
      destruct Sc as [->|(sd & a & -> & _)]; [constructor|constructor; [|constructor]]. apply O2; [discriminate|right; right; left; auto]. }
    inversion M as [|? vt ? vs1 M1 M2]; subst. inversion M2 as [|? va ? vs2 M3 M4]; subst.
    assert (vt = VType t).
    { destruct M1 as [M1|(z & q & E & _)]; [|discriminate]. inversion M1; subst; auto. }
    subst vt.
    assert (Xa : exists args', va = VTuple args' /\ Forall2 (bmatch (Rd tab2 ((es ++ [Open pp]) ++ e))) args args').
    { destruct M3 as [M3|(z & q & E & _)]; [|discriminate]. inversion M3; subst; [discriminate|eauto]. }
    destruct Xa as (args' & -> & Ma). assert (La : length args' = length args) by (clear - Ma; induction Ma; cbn; auto).
    pose proof (sp_st _ _ _ _ _ _ S3) as Sd3.
    set (b := length (u_heap t3)) in *. set (t4 := us_log (u_log t3 ++ [EvCall (VType t) args']) t3). set (c := i_cls i) in *.
    set (t5 := us_heap (u_heap t3 ++ [ODict []; OInst (red_inst c b t args')]) t4).
    assert (G5d : hget (u_heap t5) b = Some (ODict [])).
    { cbn. unfold hget. rewrite nth_error_app2 by (unfold b; lia). unfold b. rewrite Nat.sub_diag. reflexivity. }
    assert (G5x : hget (u_heap t5) (S b) = Some (OInst (red_inst c b t args'))).
    { unfold hget. change (u_heap t5) with (u_heap t3 ++ [ODict []; OInst (red_inst c b t args')]). rewrite nth_error_app2 by (unfold b; lia). replace (S b - length (u_heap t3)) with 1 by (unfold b; lia). reflexivity. }
    assert (L5 : length (u_heap t5) = S (S b)) by (cbn; rewrite app_length; cbn; unfold b; lia).
    assert (L2 : length (u_heap t2) = length (u_heap t0)) by reflexivity.
    pose proof (sp_len _ _ _ _ _ _ S3) as L3.
    assert (Lb : length (u_heap t0) <= b) by (unfold b; lia).
    (* the state *)
    assert (Xs : exists x0, reduce_state w (VLoc (S b)) (match vs2 with [] => VNone | v :: _ => v end) VNone t5 =
        (Ret tt, us_heap (hset (u_heap t5) (S b) (OInst (red_inst c x0 t args'))) t5) /\ (length vs2 <= 1) /\
        (st = VNone /\ x0 = b \/ exists sd, st = VLoc sd /\ Rd tab2 ((es ++ [Open pp]) ++ e) sd x0)).
    { destruct Sc as [->|(sd & a & -> & Ga & Nea & Nst)]; cbn [state_vals] in M4.
      - inversion M4; subst. exists b. split; [|split; [cbn; lia|left; auto]].
        assert (E : us_heap (hset (u_heap t5) (S b) (OInst (red_inst c b t args'))) t5 = t5).
        { rewrite hset_id by exact G5x. destruct t5; reflexivity. }
        rewrite E. reflexivity.
      - inversion M4 as [|? v1 ? vs3 M5 M6]; subst. inversion M6; subst. clear M4 M6.
        assert (Y : exists x0, v1 = VLoc x0 /\ Rd tab2 ((es ++ [Open pp]) ++ e) sd x0).
        { destruct M5 as [M5|(z & q & E & _ & Op)].
          - inversion M5; subst; [discriminate|eauto].
          - injection E as <-. exfalso. destruct Op as (n & A & _). apply nth_error_In in A. exact (Ns sd eq_refl A). }
        destruct Y as (x0 & -> & Rx). exists x0. split; [|split; [cbn; lia|right; eauto]].
        destruct Rx as (n & q & A & B).
        assert (Ln : length (tab ++ [l]) <= n).
        { destruct (Nat.lt_ge_cases n (length (tab ++ [l]))) as [Y|Y]; auto. exfalso. destruct Ex as (x & ->). rewrite nth_error_app1 in A by auto. apply nth_error_In in A. exact (Ns sd eq_refl A). }
        destruct (P n sd x0 q Ln A B) as (_ & Or). rewrite Ga in Or. destruct Or as (a' & Ga' & Fa & _).
        assert (Ga5 : hget (u_heap t5) x0 = Some (ODict a')) by (cbn; unfold hget; rewrite nth_error_app1; [exact Ga'|eapply hget_lt; eauto]).
        assert (Na' : a' <> []) by (intros ->; inversion Fa; subst; congruence).
        assert (Sa : c_setattr (cls c) (u "__dict__") = SAOk).
        { destruct R7 as [T _|_ _ T|sd1 a1 _ _ _ _ _ _ T]; auto; [|congruence]. cbn in T. rewrite Ga in T. destruct a; [congruence|discriminate]. }
        unfold reduce_state. rewrite (bind_eq _ _ t5 true t5).
        2:{ unfold u_truthy, gets. cbn [truthy]. rewrite Ga5. destruct a'; [congruence|reflexivity]. }
        unfold catch. assert (E1 : (h0 <- gets u_heap ;; match u_inst h0 (VLoc (S b)) with Some i0 => if c_setstate (cls (i_cls i0)) then call_setstate w (VLoc (S b)) i0 (S b) (VLoc x0) else raise EAttributeError | None => raise EAttributeError end) t5 = (Exc EAttributeError, t5)).
        { rewrite (bind_eq _ _ t5 (u_heap t5) t5) by reflexivity. cbn [u_inst]. rewrite G5x. cbn [red_inst i_cls]. fold c in Nst. rewrite Nst. reflexivity. }
        change (match (h0 <- gets u_heap ;; match u_inst h0 (VLoc (S b)) with Some i0 => if c_setstate (cls (i_cls i0)) then call_setstate w (VLoc (S b)) i0 (S b) (VLoc x0) else raise EAttributeError | None => raise EAttributeError end) t5 with
          | (Exc e, s') => if is_AttributeError e then reduce_state2 w (VLoc (S b)) (VLoc x0) s' else (Exc e, s') | r => r end = (Ret tt, us_heap (hset (u_heap t5) (S b) (OInst (red_inst c x0 t args'))) t5)).
        rewrite E1. cbn [is_AttributeError]. unfold reduce_state2. rewrite (bind_eq _ _ t5 (u_heap t5) t5) by reflexivity. cbn [u_inst]. rewrite G5x. cbn [red_inst i_dict].
        apply catch_ret. rewrite (bind_eq _ _ t5 (ODict []) t5).
        2:{ unfold get_uobj. rewrite (bind_eq _ _ t5 (u_heap t5) t5) by reflexivity. rewrite G5d. reflexivity. }
        cbn [foldM]. rewrite (bind_eq _ _ t5 tt t5) by reflexivity. unfold set_attr. rewrite (bind_eq _ _ t5 (u_heap t5) t5) by reflexivity.
        unfold inst_setattr. rewrite G5x. cbn [red_inst i_cls]. rewrite Sa. unfold inst_store. cbn [red_inst i_cls]. change (seqb (u "__dict__") (u "__dict__")) with true. cbv beta iota. fold c in Cd. rewrite Cd, Ga5. reflexivity. }
    destruct Xs as (x0 & Rst & Lv & Sx).
    set (t6 := us_heap (hset (u_heap t5) (S b) (OInst (red_inst c x0 t args'))) t5) in *.
    assert (Sd6 : St t6 tab2 (es ++ Open pp :: e)).
    { rewrite <- app_assoc in Sd3. cbn [app] in Sd3. eapply St_same; [| | | | |exact Sd3]; auto. cbn. rewrite hset_length, app_length. lia. }
    pose proof (close_run (S b) pp es e tab2 t6 Sd6) as Rc. rewrite (bind_eq _ _ t6 tt (us_prox (list_set (u_prox t6) pp (Some (VLoc (S b)))) t6)) in Rc by reflexivity.
    assert (Sd7 : St (closing (S b) pp (length es) t6) tab2 (es ++ Done (S b) (Some pp) :: e)).
    { apply (close_St (S b) b); auto; [cbn; rewrite hset_length, app_length; cbn; unfold b; lia|].
      intros y q I. apply (st_lt _ _ _ Sd3 y q). rewrite <- app_assoc. exact I. }
    set (t7 := closing (S b) pp (length es) t6) in *.
    assert (G7x : hget (u_heap t7) (S b) = Some (OInst (red_inst c x0 t args'))) by (change (u_heap t7) with (hset (u_heap t5) (S b) (OInst (red_inst c x0 t args'))); apply hget_hset_same; lia).
    assert (O7 : forall y, y <> S b -> hget (u_heap t7) y = hget (u_heap t5) y) by (intros y Ny; change (u_heap t7) with (hset (u_heap t5) (S b) (OInst (red_inst c x0 t args'))); apply hget_hset_other; auto).
    assert (F37 : forall y o, hget (u_heap t3) y = Some o -> hget (u_heap t7) y = Some o).
    { intros y o Gy. pose proof (hget_lt _ _ _ Gy) as Ly. rewrite O7 by (unfold b; lia). cbn. unfold hget. rewrite nth_error_app1; auto. }
    assert (Xc : ext tab2 ((es ++ [Open pp]) ++ e) tab2 (es ++ Done (S b) (Some pp) :: e)) by (rewrite <- app_assoc; apply ext_close).
    exists (VLoc (S b)), t7, (Done (S b) (Some pp) :: e). split.
    { set (doc := [(u "py/reduce", JList ([jt; ja] ++ js))]).
      change (restore w uo (S m) (JObj doc) t0) with (restore_reduce w (restore w uo m) doc t0).
      unfold restore_reduce. rewrite (bind_eq _ _ t0 (VProxy pp) (us_prox (u_prox t0 ++ [None]) t0)) by reflexivity.
      rewrite (bind_eq _ _ _ _ _ (open_run t0 tab es Sd)). fold t2.
      rewrite (bind_eq _ _ t2 (Some (VType t :: VTuple args' :: vs2)) t3).
      2:{ apply catch_ret. change (jfield REDUCE doc) with (JList ([jt; ja] ++ js)). cbn [jiter].
          rewrite (bind_eq _ _ t2 ([jt; ja] ++ js) t2) by reflexivity. rewrite (bind_eq _ _ _ _ _ Rs). reflexivity. }
      cbv beta iota.
      replace ((VType t :: VTuple args' :: vs2) ++ repeat VNone (6 - length (VType t :: VTuple args' :: vs2))) with [VType t; VTuple args'; match vs2 with [] => VNone | v :: _ => v end; VNone; VNone; VNone].
      2:{ destruct vs2 as [|v [|? ?]]; [reflexivity|reflexivity|cbn in Lv; lia]. }
      cbv beta iota. rewrite (bind_eq _ _ t3 (Some (VLoc (S b))) t5).
      2:{ unfold reduce_make. rewrite (bind_eq _ _ t3 (u_heap t3) t3) by reflexivity. cbn [is_newobj].
          destruct (seqb_spec (c_name (cls t)) (u "__newobj__")) as [E|_]; [contradiction|]. cbn [u_callable negb].
          apply catch_ret. rewrite (bind_eq _ _ t3 args' t3) by reflexivity.
          rewrite (bind_eq _ _ t3 (VLoc (S b)) t5); [reflexivity|]. unfold do_call. rewrite (bind_eq _ _ t3 tt t4) by reflexivity.
          rewrite (bind_eq _ _ t4 (u_heap t4) t4) by reflexivity. rewrite Wc by auto. cbn [run_cres]. rewrite fresh_run by exact Cd. reflexivity. }
      cbv beta iota. rewrite (bind_eq _ _ _ _ _ Rst). rewrite (bind_eq _ _ t6 tt t6) by reflexivity. rewrite (bind_eq _ _ t6 tt t6) by reflexivity.
      rewrite (bind_eq _ _ t6 tt (us_prox (list_set (u_prox t6) pp (Some (VLoc (S b)))) t6)) by reflexivity. rewrite (bind_eq _ _ _ _ _ Rc). reflexivity. }
    split.
    { destruct S3 as [B1 B2 B3 B4 B5 B6 (s3 & B7 & B8)]. constructor.
      - exact Sd7.
      - constructor; auto. do 2 eexists; reflexivity.
      - change (u_heap t7) with (hset (u_heap t5) (S b) (OInst (red_inst c x0 t args'))). rewrite hset_length. lia.
      - change (u_prox t7) with (list_set (u_prox t3) pp (Some (VLoc (S b)))). rewrite list_set_length. cbn in B4. rewrite app_length in B4. lia.
      - intros x Lx _. rewrite O7 by lia. cbn. unfold hget. rewrite nth_error_app1 by (unfold b in Lb; lia). apply (B5 x); [rewrite L2; auto|intros []].
      - intros q Lq. change (u_prox t7) with (list_set (u_prox t3) pp (Some (VLoc (S b)))). rewrite list_set_other by (unfold pp; lia).
        rewrite B6 by (cbn; rewrite app_length; lia). cbn. apply nth_error_app1; auto.
      - exists s3. split; [exact B7|]. eapply valids_ext; [exact Xc|exact B8]. }
    split.
    { left. apply bm_obj. apply (rd_at tab); auto. }
    apply (pairs_first _ _ _ tab l); auto.
    - split; [lia|]. rewrite G. exists b. split; auto. split; [lia|]. fold c. fold c in R2. rewrite R2. exists t, args, st, args', x0.
      split; auto. split; [exact G7x|]. split; [eapply bmatches_mono; [|exact Ma]; intros; eapply Rd_ext; [exact Xc|auto]|].
      destruct Sx as [(-> & ->)|(sd & -> & Rx)]; [left|right].
      + split; auto. split; auto. rewrite O7 by lia. exact G5d.
      + exists sd. split; auto. eapply Rd_ext; [exact Xc|exact Rx].
    - intros n a a' q Ni A Bi. assert (Bi2 : nth_error ((es ++ [Open pp]) ++ e) n = Some (Done a' q)).
      { rewrite app_length in Ni. cbn in Ni. rewrite nth_error_app2 in Bi by lia. rewrite <- app_assoc, nth_error_app2 by lia. destruct (n - length es) as [|y] eqn:Y; [lia|]. exact Bi. }
      eapply obj_rel_frame; [|exact Xc|apply incl_refl| |eapply (P n); eauto]; [|lia]. intros y o _ Gy. apply F37; auto.
  Qed.

  (** ** The end: placeholders are replaced *)
  Lemma dset_rel tab es a z v d d' : Forall2 (prel tab es) d d' -> NoDup (map fst d) -> In (VStr a, VLoc z) d -> crel tab es (VLoc z) v ->
    (forall q x, In (q, x) d -> exists s, q = VStr s) ->
    Forall2 (prel tab es) d (dset (VStr a) v d') /\ forall c p, In (VStr c, VProxy p) (dset (VStr a) v d') -> v = VProxy p \/ c <> a /\ In (VStr c, VProxy p) d'.
  Proof.
    intros F. revert a. induction F as [|[q x] [q' x'] d d' [E M] F IH]; intros a ND I C Sk; [destruct I|]. cbn [fst snd] in *. subst q'.
    destruct (Sk q x (or_introl eq_refl)) as (s & ->). cbn [dset]. rewrite key_str. inversion ND as [|? ? Nq NDr]; subst.
    destruct (seqb_spec a s) as [->|Ns].
    - split.
      + constructor; auto. split; auto. cbn [snd]. destruct I as [I|I]; [apply (f_equal snd) in I; cbn in I; subst; auto|].
        exfalso. apply Nq. change (VStr s) with (fst (VStr s, VLoc z)). apply in_map. exact I.
      + intros c p [J|J]; [left; apply (f_equal snd) in J; auto|]. right. split; [|right; auto]. intros ->.
        apply Nq. rewrite <- (prel_keys _ _ _ _ F). change (VStr s) with (fst (VStr s, VProxy p)). apply in_map. exact J.
    - destruct I as [I|I]; [apply (f_equal fst) in I; cbn in I; injection I as ->; congruence|].
      destruct (IH a NDr I C) as (F2 & Cv); [intros; eapply Sk; right; eauto|]. split.
      + constructor; auto. split; auto.
      + intros c p [J|J].
        * right. split; [|left; auto]. apply (f_equal fst) in J. cbn in J. injection J as <-. auto.
        * destruct (Cv c p J) as [X|(X & Y)]; [left; auto|right; split; auto; right; auto].
  Qed.
  Lemma nth_list_set {A} (l : list A) n m x y : nth_error (list_set l n x) m = Some y -> m = n /\ y = x \/ m <> n /\ nth_error l m = Some y.
  Proof.
    intros E. destruct (Nat.eq_dec n m) as [->|N]; [|rewrite list_set_other in E by auto; right; split; auto].
    left. split; auto. assert (m < length l) by (rewrite <- (list_set_length l m x); apply nth_error_Some; congruence). rewrite list_set_nth in E by auto. congruence.
  Qed.

  Section final.
    Variables (b : nat) (tab : list loc) (es : list ent).
    Hypothesis ND : NoDup tab.
    Hypothesis Dn : Forall is_done es.
    Hypothesis Bn : forall l, In l tab -> back_node (VLoc l).
    Definition Inv (hp : heap) (rem : list swap) : Prop := forall l l', Rd tab es l l' -> obj_rel hp b tab es rem l l'.
    Lemma Rd_fun l x y : Rd tab es l x -> Rd tab es l y -> x = y.
    Proof.
      intros (n & p & A & B) (m & q & A' & B'). assert (n = m); [|subst; congruence].
      eapply NoDup_nth_error; eauto; [|congruence]. apply nth_error_Some. congruence.
    Qed.
    Lemma Rd_inj t l1 l2 x : St t tab es -> Rd tab es l1 x -> Rd tab es l2 x -> l1 = l2.
    Proof. intros S (n & p & A & B) (m & q & A' & B'). pose proof (st_nd _ _ _ S _ _ _ _ _ B B'). subst. congruence. Qed.
    Lemma Rd_in l x : Rd tab es l x -> In l tab /\ exists p, In (Done x p) es.
    Proof. intros (n & p & A & B). split; [eapply nth_error_In; eauto|exists p; eapply nth_error_In; eauto]. Qed.
    Lemma Rd_own t l i x z : St t tab es -> hget h l = Some (OInst i) -> Rd tab es l (S x) -> ~ Rd tab es z x.
    Proof. intros S G (n & p & A & B) Rz. apply Rd_in in Rz as (_ & q & I). exact (st_own _ _ _ S _ _ _ _ _ _ A G B I). Qed.

    Lemma other hp hp' s rem l0 l l' : sw_obj s = VLoc l0 -> l' <> l0 ->
      (hget hp' l' = hget hp l') -> (forall i x, hget h l = Some (OInst i) -> l' = S x -> hget hp' x = hget hp x) ->
      obj_rel hp b tab es (s :: rem) l l' -> obj_rel hp' b tab es rem l l'.
    Proof.
      intros Es Nl E1 E2 (B & M). split; auto.
      assert (Cv : forall mt d', covers (VLoc l') mt (s :: rem) d' -> covers (VLoc l') mt rem d').
      { intros mt d' C a p I. destruct (C a p I) as [X|X]; auto. exfalso. rewrite X in Es. cbn in Es. congruence. }
      destruct (hget h l) as [[xs|xs|d|x|i|x]|]; auto.
      - destruct M as (ys & G & F & C). exists ys. rewrite E1. split; auto. split; auto. intros n p I. destruct (C n p I) as [X|X]; auto. exfalso. rewrite X in Es. cbn in Es. congruence.
      - destruct M as (d' & G & F & C). exists d'. rewrite E1. auto.
      - destruct M as (x & -> & Bx & M). exists x. split; auto. split; auto. pose proof (E2 i x eq_refl eq_refl) as E3. destruct (c_reduce (cls (i_cls i))).
        + destruct M as (t & args & st & args' & x0 & W & G & Fa & C). exists t, args, st, args', x0. rewrite E1. split; auto. split; auto. split; auto.
          rewrite E3. exact C.
        + destruct M as (G & dl & d & d' & A1 & A2 & A3 & A4 & A5). rewrite E1, E3. split; auto. exists dl, d, d'. auto 10.
    Qed.
    Lemma resolved t z p : St t tab es -> Qp tab es z p -> exists z', proxy_get t (VProxy p) = VLoc z' /\ crel tab es (VLoc z) (VLoc z').
    Proof.
      intros S (n & A & [B|(z' & B)]).
      - rewrite Forall_forall in Dn. destruct (Dn _ (nth_error_In _ _ B)) as (? & ? & ?). discriminate.
      - exists z'. split; [cbn; rewrite (st_prox _ _ _ S z' p (nth_error_In _ _ B)); reflexivity|]. left. apply bm_obj. exists n, (Some p). auto.
    Qed.
    Lemma keys_of l d : In l tab -> hget h l = Some (ODict d) -> string_keys d.
    Proof. intros I G. pose proof (Bn l I) as X. cbn in X. rewrite G in X. exact X. Qed.
    Lemma inst_of l i dl d : In l tab -> hget h l = Some (OInst i) -> c_reduce (cls (i_cls i)) = false -> i_dict i = Some dl -> hget h dl = Some (ODict d) ->
      plain_class w (i_cls i) /\ i_slots i = [] /\ string_keys d.
    Proof.
      intros I G Nr E Gd. pose proof (Bn l I) as X. cbn in X. rewrite G, Nr in X. destruct X as (X1 & _ & _ & X2 & dl2 & d2 & E2 & G2 & X3 & _).
      assert (d2 = d) by congruence. subst. auto.
    Qed.

    Lemma swap_one s rem t : St t tab es -> valid tab es s -> Inv (u_heap t) (s :: rem) ->
      exists h', run_swap w s t = (Ret tt, us_heap h' t) /\ Inv h' rem /\ length h' = length (u_heap t) /\ forall x, x < b -> hget h' x = hget (u_heap t) x.
    Proof.
      intros S V I. destruct V as [l xs l' n z p A1 A2 A3 A4|l d l' a z p A1 A2 A3 A4|l i dl d l' a z p A1 A2 A3 A4 A5 A6 A7 A8 A9 A10].
      - destruct (resolved t z p S A4) as (z' & Pg & Cr). pose proof (I l l' A2) as (B & Or). rewrite A1 in Or. destruct Or as (ys & G & F & C).
        pose proof (hget_lt _ _ _ G) as Ll. assert (Ln : n < length ys). { destruct (Forall2_nth _ _ _ _ _ F A3) as (y & Ey & _). apply nth_error_Some. congruence. }
        set (h' := hset (u_heap t) l' (OList (list_set ys n (VLoc z')))).
        exists h'. split; [|split; [|split; [apply hset_length|intros x Lx; apply hget_hset_other; lia]]].
        + unfold run_swap. cbn [sw_proxy sw_method sw_obj sw_key]. rewrite (bind_eq _ _ t (VLoc z') t) by (unfold gets; rewrite Pg; reflexivity).
          rewrite (bind_eq _ _ t (OList ys) t) by (unfold get_uobj; rewrite (bind_eq _ _ t (u_heap t) t) by reflexivity; rewrite G; reflexivity).
          destruct (Z.leb_spec 0 (Z.of_nat n)); [|lia]. destruct (Z.ltb_spec (Z.of_nat n) (Z.of_nat (length ys))); [|lia]. cbn [andb]. rewrite Nat2Z.id. reflexivity.
        + intros l2 l2' R2. destruct (Nat.eq_dec l2' l') as [->|Nl].
          * assert (l2 = l) by (eapply Rd_inj; eauto). subst l2. split; auto. rewrite A1. exists (list_set ys n (VLoc z')).
            split; [apply hget_hset_same; auto|]. split; [eapply Forall2_list_set; eauto|].
            intros m q Em. apply nth_list_set in Em as [(_ & X)|(Nm & Em)]; [discriminate|]. destruct (C m q Em) as [X|X]; auto.
            exfalso. apply (f_equal sw_key) in X. cbn in X. injection X as X. lia.
          * refine (other (u_heap t) h' _ rem l' l2 l2' _ Nl _ _ (I l2 l2' R2)); [reflexivity| |].
            -- apply hget_hset_other; auto.
            -- intros i x Gi ->. apply hget_hset_other. intros <-. exact (Rd_own t l2 i l' l S Gi R2 A2).
      - destruct (resolved t z p S A4) as (z' & Pg & Cr). pose proof (I l l' A2) as (B & Or). rewrite A1 in Or. destruct Or as (d' & G & F & C).
        pose proof (hget_lt _ _ _ G) as Ll. destruct (keys_of l d (proj1 (Rd_in _ _ A2)) A1) as (Nd & Sk).
        destruct (dset_rel tab es a z (VLoc z') d d' F Nd A3 Cr) as (F2 & C2). { intros q x Iq. destruct (Sk q x Iq) as (s & -> & _). eauto. }
        set (h' := hset (u_heap t) l' (ODict (dset (VStr a) (VLoc z') d'))).
        exists h'. split; [|split; [|split; [apply hset_length|intros x Lx; apply hget_hset_other; lia]]].
        + unfold run_swap. cbn [sw_proxy sw_method sw_obj sw_key]. rewrite (bind_eq _ _ t (VLoc z') t) by (unfold gets; rewrite Pg; reflexivity).
          rewrite (bind_eq _ _ t (ODict d') t) by (unfold get_uobj; rewrite (bind_eq _ _ t (u_heap t) t) by reflexivity; rewrite G; reflexivity).
          reflexivity.
        + intros l2 l2' R2. destruct (Nat.eq_dec l2' l') as [->|Nl].
          * assert (l2 = l) by (eapply Rd_inj; eauto). subst l2. split; auto. rewrite A1. exists (dset (VStr a) (VLoc z') d').
            split; [apply hget_hset_same; auto|]. split; [exact F2|].
            intros c q Ic. destruct (C2 c q Ic) as [X|(Nc & X)]; [discriminate|]. destruct (C c q X) as [Y|Y]; auto.
            exfalso. apply (f_equal sw_key) in Y. cbn in Y. injection Y as Y. congruence.
          * refine (other (u_heap t) h' _ rem l' l2 l2' _ Nl _ _ (I l2 l2' R2)); [reflexivity| |].
            -- apply hget_hset_other; auto.
            -- intros i x Gi ->. apply hget_hset_other. intros <-. exact (Rd_own t l2 i l' l S Gi R2 A2).
      - destruct (resolved t z p S A7) as (z' & Pg & Cr). pose proof (I l l' A5) as (B & Or). rewrite A1, A2 in Or.
        destruct Or as (x & -> & Bx & Gx & dl2 & d2 & d' & E2 & G2 & G & F & C). assert (d2 = d) by congruence. subst d2. clear dl2 E2 G2.
        pose proof (hget_lt _ _ _ G) as Ll. destruct (inst_of l i dl d (proj1 (Rd_in _ _ A5)) A1 A2 A3 A4) as (Pc & _ & Nd & Sk).
        destruct (dset_rel tab es a z (VLoc z') d d' F Nd A6 Cr) as (F2 & C2). { intros q y Iq. destruct (Sk q y Iq) as (s & -> & _). eauto. }
        set (h' := hset (u_heap t) x (ODict (dset (VStr a) (VLoc z') d'))).
        exists h'. split; [|split; [|split; [apply hset_length|intros y Ly; apply hget_hset_other; lia]]].
        + unfold run_swap. cbn [sw_proxy sw_method sw_obj sw_key]. rewrite (bind_eq _ _ t (VLoc z') t) by (unfold gets; rewrite Pg; reflexivity).
          unfold set_attr. rewrite (bind_eq _ _ t (u_heap t) t) by reflexivity. unfold inst_setattr. rewrite Gx. cbn [mk_inst i_cls]. rewrite A10.
          destruct (attr_ok_split _ _ _ A8) as (_ & B2 & B3 & _).
          unfold inst_store. cbn [mk_inst i_cls i_dict]. rewrite (dunder_not_dict _ B2), B3. cbn [andb]. unfold slot_named in A9. rewrite A9, G. reflexivity.
        + intros l2 l2' R2. destruct (Nat.eq_dec l2' (Datatypes.S x)) as [->|Nl].
          * assert (l2 = l) by (eapply Rd_inj; eauto). subst l2. split; auto. rewrite A1. exists x. split; auto. split; auto. rewrite A2.
            split; [unfold h'; rewrite hget_hset_other by lia; exact Gx|]. exists dl, d, (dset (VStr a) (VLoc z') d'). split; auto. split; auto.
            split; [apply hget_hset_same; auto|]. split; [exact F2|].
            intros c q Ic. destruct (C2 c q Ic) as [X|(Nc & X)]; [discriminate|]. destruct (C c q X) as [Y|Y]; auto.
            exfalso. apply (f_equal sw_key) in Y. cbn in Y. injection Y as Y. congruence.
          * refine (other (u_heap t) h' _ rem (Datatypes.S x) l2 l2' _ Nl _ _ (I l2 l2' R2)); [reflexivity| |].
            -- apply hget_hset_other. intros <-. exact (Rd_own t l i x l2 S A1 A5 R2).
            -- intros i2 y Gi ->. apply hget_hset_other. lia.
    Qed.
    Lemma swaps_all rem : forall t, St t tab es -> Forall (valid tab es) rem -> Inv (u_heap t) rem ->
      exists h', foldM (fun _ x => run_swap w x) rem tt t = (Ret tt, us_heap h' t) /\ Inv h' [] /\ length h' = length (u_heap t) /\ forall x, x < b -> hget h' x = hget (u_heap t) x.
    Proof.
      induction rem as [|s rem IH]; intros t S V I.
      - exists (u_heap t). split; [destruct t; reflexivity|]. auto.
      - inversion V as [|? ? V1 V2]; subst. destruct (swap_one s rem t S V1 I) as (h1 & R1 & I1 & L1 & O1).
        destruct (IH (us_heap h1 t)) as (h2 & R2 & I2 & L2 & O2); auto.
        { eapply St_same; [| | | | |exact S]; auto. cbn. lia. }
        exists h2. split; [cbn [foldM]; rewrite (bind_eq _ _ _ _ _ R1); exact R2|]. split; auto. cbn in L2, O2. split; [lia|]. intros x Lx. rewrite O2, O1; auto.
    Qed.

    Lemma no_proxy xs ys hp tgt : Forall2 (crel tab es) xs ys -> list_covers tgt [] ys -> Forall2 (vmatch h hp b (Rd tab es)) xs ys.
    Proof.
      intros F C. assert (X : forall p, ~ In (VProxy p) ys). { intros p I. apply In_nth_error in I as (n & E). exact (C n p E). } clear C.
      induction F as [|x y xs ys [M|(l & p & -> & -> & _)] F IH]; constructor.
      - apply bmatch_vm; auto.
      - apply IH. intros p I. apply (X p). right; auto.
      - destruct (X p). left; auto.
      - apply IH. intros q I. apply (X q). right; auto.
    Qed.
    Lemma no_proxy_d d d' hp tgt mt : Forall2 (prel tab es) d d' -> covers tgt mt [] d' -> string_keys d -> Forall2 (pmatch h hp b (Rd tab es)) d d'.
    Proof.
      intros F C (_ & Sk). assert (X : forall q p, In (q, VProxy p) d' -> forall a, q <> VStr a). { intros q p I a ->. exact (C a p I). } clear C.
      induction F as [|[q x] [q' x'] d d' [E M] F IH]; constructor.
      - cbn in E, M. subst q'. destruct (Sk q x (or_introl eq_refl)) as (a & -> & _). split; [apply vm_atom; reflexivity|]. cbn [snd].
        destruct M as [M|(l & p & -> & -> & _)]; [apply bmatch_vm; auto|]. destruct (X (VStr a) p (or_introl eq_refl) a eq_refl).
      - apply IH; [intros; eapply Sk; right; eauto|]. intros q0 p I. apply (X q0 p). right; auto.
    Qed.
    Lemma order_strings d : string_keys d -> dict_order false d = d.
    Proof.
      intros (_ & Sk). unfold dict_order, non_strings. assert (X : forall q x, In (q, x) d -> exists a, q = VStr a) by (intros q x I; destruct (Sk q x I) as (a & -> & _); eauto). clear Sk.
      assert (E1 : filter (fun kv => is_str (fst kv) && negb (is_escaped false (fst kv))) d = d).
      { clear -X. induction d as [|[q x] d IH]; auto. destruct (X q x (or_introl eq_refl)) as (a & ->). cbn. f_equal. apply IH. intros; eapply X; right; eauto. }
      assert (E2 : filter (fun kv => is_escaped false (fst kv)) d = []).
      { clear -X. induction d as [|[q x] d IH]; auto. destruct (X q x (or_introl eq_refl)) as (a & ->). cbn. apply IH. intros; eapply X; right; eauto. }
      assert (E3 : filter (fun kv => negb (is_str (fst kv))) d = []).
      { clear -X. induction d as [|[q x] d IH]; auto. destruct (X q x (or_introl eq_refl)) as (a & ->). cbn. apply IH. intros; eapply X; right; eauto. }
      rewrite E1, E2. cbn [app]. rewrite E3. apply app_nil_r.
    Qed.
    Lemma opt_match hp d d' a : Forall2 (pmatch h hp b (Rd tab es)) d d' -> omatch_opt h hp b (Rd tab es) (dget (VStr a) d) (dget (VStr a) d').
    Proof.
      induction 1 as [|[q x] [q' x'] d d' [E M] F IH]; [exact Logic.I|]. cbn [fst snd] in *. cbn [dget].
      assert (X : key_eqb (VStr a) q' = key_eqb (VStr a) q) by (inversion E; subst; reflexivity). rewrite X.
      destruct (key_eqb (VStr a) q); auto.
    Qed.
    Lemma final_match hp : Inv hp [] -> forall l l', Rd tab es l l' -> omatch w k false h hp b b (Rd tab es) l l'.
    Proof.
      intros I l l' R. pose proof (proj1 (Rd_in _ _ R)) as Il. pose proof (I l l' R) as (B & M).
      destruct (hget h l) as [[xs|xs|d|x|i|x]|] eqn:G; try contradiction.
      - destruct M as (ys & G' & F & C). eapply om_list; eauto. eapply no_proxy; eauto.
      - destruct M as (d' & G' & F & C). pose proof (keys_of l d Il G) as Sk. eapply om_dict; eauto. rewrite order_strings by auto. eapply no_proxy_d; eauto.
      - destruct M as (x & -> & Bx & M). destruct (c_reduce (cls (i_cls i))) eqn:Nr.
        + destruct M as (t & args & st & args' & x0 & W & G' & Fa & C). eapply om_inst; [exact G|exact B|exact G'|reflexivity|].
          destruct W as (Rdd & Cd & Sc). eapply im_reduce; [exact Rdd| |reflexivity| |constructor|constructor|reflexivity].
          * eapply Forall2_impl; [|exact Fa]. intros; apply bmatch_vm; auto.
          * destruct C as [(-> & -> & G2)|(sd & -> & C)]; [cbn [truthy]; split; [reflexivity|]; intros y [= <-]; auto|].
            destruct Sc as [Sc|(sd2 & a & Es & Ga & Na & Ns)]; [discriminate|]. injection Es as <-. cbn [truthy]. rewrite Ga, Ns.
            destruct a; [congruence|]. cbn [otruthy]. split; [reflexivity|]. exists x0. split; [reflexivity|]. apply vm_obj; auto.
        + destruct M as (G' & dl & d & d' & Ed & Gd & Gx & F & C). destruct (inst_of l i dl d Il G Nr Ed Gd) as (Pc & Sl & Sk).
          pose proof (no_proxy_d _ _ hp _ _ F C Sk) as F2.
          eapply om_inst; [exact G|exact B|exact G'|reflexivity|].
          eapply im_attrs; [split; [exact (pc_handler _ _ Pc)|left; exact Nr]|left; exact (pc_getstate _ _ Pc)|rewrite (pc_kind _ _ Pc); discriminate|
            apply ct_none; [exact (pc_newargs_ex _ _ Pc)|exact (pc_newargs _ _ Pc)|exact (pc_initargs _ _ Pc)]| | | |reflexivity].
          * exists [], []. split; [reflexivity|]. split; constructor.
          * assert (Kp : forall a, kept (cls (i_cls i)) a = true) by (intros a; unfold kept; rewrite (pc_exclude _ _ Pc); reflexivity).
            split; [intros y [= <-]; auto|]. split; [|split].
            -- intros a. rewrite Kp. unfold inst_attr. rewrite Sl, Ed, Gd. cbn [mk_inst i_slots i_dict sget]. rewrite Gx. apply opt_match; auto.
            -- rewrite Ed. discriminate.
            -- intros items Ei. unfold attrs_of in Ei. rewrite Ed, Gd in Ei. injection Ei as <-.
               exists x, d'. split; auto. split; auto. replace (kept_attrs (cls (i_cls i)) d) with d; [exact F2|].
               clear -Kp Sk. destruct Sk as (_ & Sk). unfold kept_attrs. induction d as [|[q y] d IH]; auto. destruct (Sk q y (or_introl eq_refl)) as (a & -> & _). cbn. rewrite Kp. f_equal. apply IH. intros; eapply Sk; right; eauto.
          * rewrite (pc_kind _ _ Pc). intros [X|X]; discriminate.
    Qed.
  End final.
End dec.
