(** Round trip, part 10: the contents of instances, shape by shape. *)
From Verif Require Import PyStr Tags Json JsonText JsonTextProofs B64 B85 Base Heap Registry LoadClass Pickler Unpickler SpecJson SpecGraph.
From Verif Require Import CodecProofs PlainProofs WP RTBase RTStep RTPure RTDesc SpecRefs RTWalk RTCont RTOrder RTKinds RTInst RTObj.
From Coq Require Import Permutation.
Open Scope nat_scope.
Local Open Scope monad_scope.

Lemma key_eqb_str a b : key_eqb (VStr a) (VStr b) = seqb a b.
Proof. reflexivity. Qed.
Lemma kdistinct_filter (p : val * val -> bool) d : kdistinct (map fst d) = true -> kdistinct (map fst (filter p d)) = true.
Proof.
  induction d as [|[q v] d IH]; simpl; auto. intros H. apply andb_true_iff in H as [H1 H2]. apply negb_true_iff in H1.
  destruct (p (q, v)); simpl; auto. rewrite IH by auto. rewrite andb_true_r. apply negb_true_iff.
  destruct (existsb (key_eqb q) (map fst (filter p d))) eqn:E; auto.
  apply existsb_exists in E as (x & Hx & E). apply in_map_iff in Hx as (kv & <- & Hk). apply filter_In in Hk as [Hk _].
  assert (X : existsb (key_eqb q) (map fst d) = true); [|congruence].
  apply existsb_exists. exists (fst kv). split; auto. apply in_map; auto.
Qed.
Lemma strings_first_all d : (forall kv, In kv d -> is_str (fst kv) = true) -> strings_first d = d.
Proof.
  intros H. unfold strings_first.
  assert (F1 : filter (fun kv => is_str (fst kv)) d = d).
  { revert H. induction d as [|x d IHd]; intros H; simpl; auto. rewrite H by (left; auto). f_equal. apply IHd. intros; apply H; right; auto. }
  assert (F2 : filter (fun kv => negb (is_str (fst kv))) d = []).
  { clear F1. revert H. induction d as [|x d IHd]; intros H; simpl; auto. rewrite H by (left; auto). apply IHd. intros; apply H; right; auto. }
  rewrite F1, F2, app_nil_r. reflexivity.
Qed.
Lemma kdistinct_NoDup d : kdistinct d = true -> NoDup d.
Proof.
  induction d as [|q d IH]; simpl; intros H; constructor; apply andb_true_iff in H as [H1 H2]; auto.
  apply negb_true_iff in H1. intros C. assert (X : existsb (key_eqb q) d = true); [|congruence].
  apply existsb_exists. exists q. split; auto. apply key_eqb_refl.
Qed.
Lemma attr_ok_split keys c a : attr_ok keys c a = true ->
  name_ok keys a = true /\ dunder a = false /\ seqb a (u "default_factory") = false /\
  (c_setattr c a = SAOk \/ c_setattr c a = SARaise EFrozen).
Proof.
  unfold attr_ok. rewrite !andb_true_iff, !negb_true_iff. intros (((A & B) & C) & D). repeat split; auto.
  destruct (c_setattr c a) as [|[]]; auto; discriminate.
Qed.
Lemma slot_ok_split keys c a : slot_ok keys c a = true ->
  name_ok keys a = true /\ seqb a (u "default_factory") = false /\ seqb (mangle c a) (u "__dict__") = false /\
  seqb (mangle c a) (u "default_factory") = false /\
  (kept c a = true -> kept c (mangle c a) = true) /\
  (c_setattr c (mangle c a) = SAOk \/ dunder a = false /\ c_setattr c a = SARaise EFrozen).
Proof.
  unfold slot_ok. destruct (dunder a) eqn:DU.
  - rewrite !andb_true_iff, negb_true_iff. intros (((A & B) & C) & D). split; [exact A|].
    split; [destruct (seqb_spec a (u "default_factory")) as [->|]; [discriminate|reflexivity]|]. split; [exact C|].
    split; [unfold mangle; rewrite DU; reflexivity|]. split; [auto|]. left. destruct (c_setattr c (mangle c a)); [reflexivity|discriminate].
  - intros H. apply attr_ok_split in H as (A & _ & B & C). assert (MG : mangle c a = a) by (unfold mangle; rewrite DU; reflexivity).
    rewrite MG. split; [exact A|]. split; [exact B|]. split; [destruct (seqb_spec a (u "__dict__")) as [->|]; [discriminate|reflexivity]|].
    split; [exact B|]. split; [auto|]. destruct C; auto.
Qed.
Lemma dunder_not_dict a : dunder a = false -> seqb a (u "__dict__") = false.
Proof. intros H. destruct (seqb_spec a (u "__dict__")) as [->|]; auto. Qed.

Section shapes.
  Variables (w : world) (k : hooks) (keys : bool) (cl : list (pystr * val)) (h : heap) (bs : nat) (po : popts) (uo : uopts).
  Notation cls := (w_cls w).
  Notation shape := (shape w k keys cl h).
  Notation reach := (reach w k keys cl h).
  Notation sub := (sub w k keys cl h).
  Notation supported := (supported w k keys cl h).
  Notation Inv := (Inv cl h bs).
  Notation front := (front w k keys cl h bs).
  Notation adv := (adv w k keys cl h bs).
  Notation head_ok := (head_ok h).
  Notation pdoc := (pdoc w po).
  Notation desc := (desc w k keys cl h po).
  Notation kname := (kname w k keys cl h po).
  Notation kapart := (kapart w k h).
  Notation apart := (apart w k h).
  Notation key_ok := (key_ok w keys h).
  Notation dict_ok := (dict_ok w k keys h).
  Notation item_doc := (item_doc w k keys cl h po).
  Notation delivers := (delivers w k keys cl h bs po uo).
  Notation PP := (PP w k keys cl h bs po uo).
  Notation vm s t := (vmatch h (u_heap t) bs (rel s t)).
  Notation pm s t := (pmatch h (u_heap t) bs (rel s t)).
  Notation cell := (cell w).
  Notation dcell := (dcell w).

  Hypothesis Ou : po_unpicklable po = true.
  Hypothesis Or : po_make_refs po = true.
  Hypothesis Od : po_max_depth po = None.
  Hypothesis Op : po_props po = false.
  Hypothesis Oro : po_readonly po = false.
  Hypothesis Os : po_sort po = false.
  Hypothesis Ok : po_keys po = keys.
  Hypothesis Uk : uo_keys uo = keys.
  Hypothesis Uv : uo_v1 uo = false.

  Lemma supported_str a : str_ok a = true -> supported (VStr a).
  Proof.
    intros H x R. inversion R as [|? ? ? S]; subst; [exact H|]. inversion S.
  Qed.
  Lemma key_eqb_vm s t a q q' : vm s t q q' -> key_eqb (VStr a) q' = key_eqb (VStr a) q.
  Proof. intros M. inversion M; subst; reflexivity. Qed.
  Lemma vm_str s t a q : vm s t (VStr a) q -> q = VStr a.
  Proof. intros M. inversion M; subst; reflexivity. Qed.
  Lemma dget_match s t a l d' : Forall2 (pm s t) l d' -> omatch_opt h (u_heap t) bs (rel s t) (dget (VStr a) l) (dget (VStr a) d').
  Proof.
    induction 1 as [|[q1 v1] [q2 v2] l d' [E M] F IHF]; simpl; auto. cbn [fst snd] in *. rewrite (key_eqb_vm _ _ a _ _ E).
    destruct (key_eqb (VStr a) q1); auto.
  Qed.
  Lemma str_fresh s t a l d' : Forall2 (pm s t) l d' -> existsb (key_eqb (VStr a)) (map fst d') = existsb (key_eqb (VStr a)) (map fst l).
  Proof.
    induction 1 as [|[q1 v1] [q2 v2] l d' [E M] F IHF]; simpl; auto. cbn [fst snd] in *. rewrite (key_eqb_vm _ _ a _ _ E), IHF. auto.
  Qed.
  Lemma dict_order_all d : (forall kv, In kv d -> plain_key keys (fst kv) = true) -> dict_order keys d = d.
  Proof.
    intros H. unfold dict_order, non_strings.
    assert (F1 : filter (fun kv => is_str (fst kv) && negb (is_escaped keys (fst kv))) d = d).
    { revert H. induction d as [|x d IHd]; intros H; simpl; auto. change (is_str (fst x) && negb (is_escaped keys (fst x))) with (plain_key keys (fst x)).
      rewrite H by (left; auto). f_equal. apply IHd. intros; apply H; right; auto. }
    assert (F2 : filter (fun kv => is_escaped keys (fst kv)) d = [] /\ filter (fun kv => negb (is_str (fst kv))) d = []).
    { clear F1. revert H. induction d as [|x d IHd]; intros H; simpl; auto. destruct IHd as [-> ->]; [intros; apply H; right; auto|].
      specialize (H x (or_introl eq_refl)). unfold plain_key in H. apply andb_true_iff in H as [-> H]. apply negb_true_iff in H. rewrite H. auto. }
    destruct F2 as [-> ->]. rewrite F1, !app_nil_r. reflexivity.
  Qed.
  (** The documents of attributes. *)
  Lemma name_plain a : name_ok keys a = true -> plain_key keys (VStr a) = true /\ key_ok (VStr a) = true.
  Proof.
    intros N. apply (name_ok_key keys) in N as [N1 N2]. unfold plain_key. cbn [is_str is_escaped SpecGraph.key_ok]. rewrite N2. auto.
  Qed.
  Lemma names_docs objs its out : (forall kv, In kv its -> exists a, fst kv = VStr a /\ name_ok keys a = true) ->
    Forall2 (item_doc objs) its out -> map VStr (map fst out) = map fst its.
  Proof.
    intros ALL F. induction F as [|kv o its out [N D] F IHF]; auto. cbn [map].
    destruct (ALL kv (or_introl eq_refl)) as (a & E & NO). apply name_plain in NO as [P _].
    unfold RTDesc.kname in N. rewrite E, P in N. rewrite E, N. f_equal. apply IHF. intros; apply ALL; right; auto.
  Qed.
  Lemma item_sget objs its (out : jobj) a v : Forall2 (item_doc objs) its out -> NoDup (map fst out) -> In (VStr a, v) its ->
    name_ok keys a = true -> exists j, sget a out = Some j /\ desc objs v j.
  Proof.
    intros F ND Hi NO. apply name_plain in NO as [P _]. induction F as [|kv [x j] its out [N D] F IHF]; [destruct Hi|].
    cbn [map fst] in ND. inversion ND as [|? ? ND1 ND2]; subst. cbn [sget]. destruct Hi as [->|Hi].
    - unfold RTDesc.kname in N. cbn [fst snd] in *. rewrite P in N. injection N as <-. exists j. destruct (seqb_spec a a); [auto|congruence].
    - destruct (seqb_spec a x) as [->|_]; [|auto]. exfalso. apply ND1.
      destruct (IHF ND2 Hi) as (j' & G & _). apply sget_some_in in G. exact G.
  Qed.
  Lemma names_apart l : (forall q, In q l -> is_str q = true) -> kdistinct l = true -> ForallOrdPairs kapart l.
  Proof.
    intros S D. apply fop_kapart; [apply kdistinct_ND; auto|]. 
    replace (filter (fun q => negb (is_str q)) l) with (@nil val); [constructor|].
    clear D. induction l as [|q l IHl]; simpl; auto. rewrite S by (left; auto). apply IHl. intros; apply S; right; auto.
  Qed.
  Lemma part_attr l i a v : hget h l = Some (OInst i) -> part w k h l (FAttr a) v ->
    c_kind (cls (i_cls i)) = KPlain /\ no_state w k h (cls (i_cls i)) l /\
    ((exists at_, attrs_of h i = Some at_ /\ In (VStr a, v) (kept_attrs (cls (i_cls i)) at_)) \/
     (exists sl, i_dict i = None /\ c_slots (cls (i_cls i)) = Some sl /\ In a sl /\ kept (cls (i_cls i)) a = true /\ sget (mangle (cls (i_cls i)) a) (i_slots i) = Some v)).
  Proof.
    intros H P. inversion P as [i' at_ ? ? H' _ E1 E2 E3 E4|i' sl ? ? H' _ E1 E2 E3 E4 E5 E6 E7|]; subst; assert (i' = i) by congruence; subst i'; eauto 10.
  Qed.
  Lemma part_kind l i a v : hget h l = Some (OInst i) -> c_kind (cls (i_cls i)) <> KPlain -> part w k h l (FAttr a) v -> False.
  Proof. intros H N P. destruct (part_attr _ _ _ _ H P) as (E & _). auto. Qed.
  Lemma part_state l i st a v : hget h l = Some (OInst i) -> own_state w k h (cls (i_cls i)) l st -> part w k h l (FAttr a) v -> False.
  Proof.
    intros H (G1 & G2 & G3 & _) P. destruct (part_attr _ _ _ _ H P) as (_ & [E|(st' & E1 & E2 & _)] & _); [congruence|].
    rewrite G2 in E1. injection E1 as <-. congruence.
  Qed.
  Lemma dget_kept c a l : (forall kv, In kv l -> is_str (fst kv) = true) ->
    dget (VStr a) (kept_attrs c l) = if kept c a then dget (VStr a) l else None.
  Proof.
    induction l as [|[q v] l IHl]; intros H; simpl; [destruct (kept c a); auto|].
    assert (T := H (q, v) (or_introl eq_refl)). cbn [fst] in T. destruct q as [| | | |b| | | | | | | | |]; try discriminate.
    assert (IHl' : dget (VStr a) (kept_attrs c l) = if kept c a then dget (VStr a) l else None) by (apply IHl; intros; apply H; right; auto).
    rewrite key_eqb_str. cbn [fst]. destruct (kept c b) eqn:KB; cbn [dget].
    - rewrite key_eqb_str. destruct (seqb_spec a b) as [->|N]; [rewrite KB; auto | auto].
    - change (dget (VStr a) (kept_attrs c l) = if kept c a then if seqb a b then Some v else dget (VStr a) l else None).
      rewrite IHl'. destruct (seqb_spec a b) as [->|N]; [rewrite KB; auto|auto].
  Qed.

  (** ** Storing one attribute *)
  Definition rfd (m : nat) (x : loc) (_ : unit) (kv : pystr * json) : MU unit :=
    if is_reserved (fst kv) then ret tt
    else key <- restore_key uo (restore w uo m) (fst kv) ;; v <- restore w uo m (snd kv) ;; set_one w uo (VLoc x) key v.

  Lemma set_one_run x i' a v t h' : hget (u_heap t) x = Some (OInst i') -> c_kind (cls (i_cls i')) <> KDict ->
    attr_ok keys (cls (i_cls i')) a = true -> is_proxy v = false ->
    inst_store cls (u_heap t) x i' a v = Ret h' -> set_one w uo (VLoc x) (VStr a) v t = (Ret tt, us_heap h' t).
  Proof.
    intros HX NK AO NP ST. destruct (attr_ok_split _ _ _ AO) as (_ & DU & _ & SA).
    unfold set_one. rewrite (bind_eq _ _ t (u_heap t) t) by reflexivity. cbn [u_inst]. rewrite HX.
    rewrite (bind_eq _ _ t true (us_heap h' t)).
    { unfold swap_if_proxy. rewrite NP. reflexivity. }
    assert (X : set_plain_attr w uo (VLoc x) (VStr a) v t = (Ret true, us_heap h' t)).
    { unfold set_plain_attr. rewrite (bind_eq _ _ t (u_heap t) t) by reflexivity. rewrite DU.
      assert (ES : set_attr w (VLoc x) a v t = match c_setattr (cls (i_cls i')) a with SARaise e => (Exc e, t) | SAOk => (Ret tt, us_heap h' t) end).
      { unfold set_attr. rewrite (bind_eq _ _ t (u_heap t) t) by reflexivity. unfold inst_setattr. rewrite HX.
        destruct (c_setattr (cls (i_cls i')) a); [|reflexivity]. rewrite ST. reflexivity. }
      destruct SA as [SA|SA]; rewrite SA in ES.
      - apply catch_ret. rewrite (bind_eq _ _ _ _ _ ES). reflexivity.
      - unfold catch, bind at 1. rewrite ES. cbn [is_KeyError is_AttributeError orb is_Frozen].
        unfold object_setattr. rewrite (bind_eq _ _ t tt (us_heap h' t)); [reflexivity|].
        rewrite (bind_eq _ _ t (u_heap t) t) by reflexivity. rewrite HX, ST. reflexivity. }
    destruct (c_kind (cls (i_cls i'))); auto. contradiction.
  Qed.

  Lemma set_slot_run x i' a v t h' : hget (u_heap t) x = Some (OInst i') -> c_kind (cls (i_cls i')) <> KDict ->
    slot_ok keys (cls (i_cls i')) a = true -> is_proxy v = false ->
    inst_store cls (u_heap t) x i' (mangle (cls (i_cls i')) a) v = Ret h' -> set_one w uo (VLoc x) (VStr a) v t = (Ret tt, us_heap h' t).
  Proof.
    intros HX NK AO NP ST. destruct (dunder a) eqn:DU.
    - destruct (slot_ok_split _ _ _ AO) as (_ & _ & _ & _ & _ & [SA|[C _]]); [|congruence].
      unfold set_one. rewrite (bind_eq _ _ t (u_heap t) t) by reflexivity. cbn [u_inst]. rewrite HX.
      rewrite (bind_eq _ _ t true (us_heap h' t)).
      { unfold swap_if_proxy. rewrite NP. reflexivity. }
      assert (X : set_plain_attr w uo (VLoc x) (VStr a) v t = (Ret true, us_heap h' t)).
      { unfold set_plain_attr. rewrite (bind_eq _ _ t (u_heap t) t) by reflexivity. rewrite DU. cbn [u_inst]. rewrite HX.
        rewrite (bind_eq _ _ t tt (us_heap h' t)); [reflexivity|]. unfold set_attr. rewrite (bind_eq _ _ t (u_heap t) t) by reflexivity.
        unfold inst_setattr. rewrite HX, SA, ST. reflexivity. }
      destruct (c_kind (cls (i_cls i'))); auto. contradiction.
    - unfold slot_ok in AO. rewrite DU in AO. unfold mangle in ST. rewrite DU in ST. eapply set_one_run; eauto.
  Qed.

  Definition jattr (x q : loc) (i' : inst) (acc : list (val * val)) (s : pst) (t : ust) : Prop :=
    hget (u_heap t) x = Some (OInst i') /\
    exists d', hget (u_heap t) q = Some (ODict d') /\ Forall2 (pm s t) acc d'.
  Lemma attr_step x q i' a v v' acc rest s t : Inv s t -> x <> q -> jattr x q i' acc s t ->
    c_kind (cls (i_cls i')) <> KDict -> i_dict i' = Some q ->
    attr_ok keys (cls (i_cls i')) a = true -> slot_named (cls (i_cls i')) a = false ->
    kdistinct (map fst (acc ++ (VStr a, v) :: rest)) = true -> vm s t v v' ->
    exists t3, set_one w uo (VLoc x) (VStr a) v' t = (Ret tt, t3) /\ adv (own x (Some q)) none s t s t3 /\
               jattr x q i' (acc ++ [(VStr a, v)]) s t3.
  Proof.
    intros I NXQ (HX & d' & HQ & F) NK ID AO SN HD M. pose proof (vmatch_not_proxy _ _ _ _ _ _ M) as NP.
    destruct (attr_ok_split _ _ _ AO) as (_ & DU & DF & _).
    rewrite map_app in HD. simpl in HD. apply kdistinct_split in HD as (HD & _ & _).
    rewrite <- (str_fresh _ _ a _ _ F) in HD.
    set (t3 := us_heap (hset (u_heap t) q (ODict (d' ++ [(VStr a, v')]))) t).
    pose proof (hget_lt _ _ _ HQ) as LQ.
    assert (A3 : adv (own x (Some q)) none s t s t3).
    { apply adv_own; auto.
      - simpl. eapply evolve_set; eauto. intros NX. apply noprox_snoc; auto.
      - intros y Hy Hn. simpl. rewrite hget_hset_other; auto. intros ->. apply Hn. right. reflexivity.
      - simpl. rewrite hset_length. auto. }
    exists t3. split; [|split; auto].
    - apply (set_one_run x i' a v' t); auto. unfold inst_store. rewrite (dunder_not_dict _ DU), DF. cbn [andb].
      unfold slot_named in SN. rewrite SN, ID, HQ. rewrite dset_snoc by auto. reflexivity.
    - split; [simpl; rewrite hget_hset_other; auto|].
      exists (d' ++ [(VStr a, v')]). split; [simpl; apply hget_hset_same; auto|]. apply Forall2_app.
      + eapply pmatches_adv; [exact A3 | exact F].
      + constructor; [|constructor]. split; [apply vm_atom; reflexivity|]. cbn [snd]. eapply vmatch_adv; [exact A3 | exact M].
  Qed.

  Section level.
    Variables (n m : nat).
    Hypothesis IH : PP n m.
    Hypothesis Hnm : n <= m.
    Hypothesis Hm1 : 1 <= m.
    Notation fl := (flatten w k po n).
    Notation rs := (restore w uo m).

    Lemma rfd_str x a j t v' t2 : name_ok keys a = true -> rs j t = (Ret v', t2) ->
      rfd m x tt (a, j) t = set_one w uo (VLoc x) (VStr a) v' t2.
    Proof.
      intros N R. destruct (name_ok_split _ _ N) as (_ & NR & _ & _ & NJ). unfold rfd. cbn [fst snd]. rewrite NR.
      rewrite (bind_eq _ _ t (VStr a) t).
      - rewrite (bind_eq _ _ _ _ _ R). reflexivity.
      - unfold restore_key. rewrite Uk. destruct (Bool.bool_dec keys true) as [E|E]; [|apply not_true_is_false in E]; rewrite E; auto.
        unfold restore_pickled_key. rewrite NJ by auto. reflexivity.
    Qed.

    (** Attributes kept in [__dict__]. *)
    Lemma rt_attrs its data4 s2 t4 x q i' : Inv s2 t4 -> x <> q ->
      hget (u_heap t4) x = Some (OInst i') -> hget (u_heap t4) q = Some (ODict []) ->
      c_kind (cls (i_cls i')) <> KDict -> i_dict i' = Some q ->
      (forall y, In y (Json.keys data4) -> is_reserved y = true) ->
      (forall kv, In kv its -> exists a, fst kv = VStr a /\ attr_ok keys (cls (i_cls i')) a = true /\
                               slot_named (cls (i_cls i')) a = false /\ supported (snd kv)) ->
      kdistinct (map fst its) = true ->
      (forall kv s' t', In kv its -> adv (own x (Some q)) none s2 t4 s' t' -> front s' t' (snd kv)) ->
      wp (foldM (estep w k keys po n) its data4) s2 (fun dt s3 => exists out, dt = data4 ++ out /\
        Forall2 (item_doc (p_objs s3)) its out /\
        map VStr (map fst out) = map fst its /\ (forallb jwf (map snd out) = true /\ (unhandled w h -> walkf keys (length (p_objs s2)) out (length (p_objs s3)))) /\
        exists t5, foldM (rfd m x) out tt t4 = (Ret tt, t5) /\ adv (own x (Some q)) none s2 t4 s3 t5 /\
          jattr x q i' its s3 t5).
    Proof.
      intros I NXQ HX HQ NK ID RES ALL DI FR. pose proof (hget_lt _ _ _ HX) as LX. pose proof (hget_lt _ _ _ HQ) as LQ.
      eapply wp_mono.
      { eapply (rt_items w k keys cl h bs po uo Oro Os Ok Uk n m IH (own x (Some q)) s2 t4 data4 its (rfd m x) (jattr x q i')); eauto.
        - intros y [->|E]; [auto|]. injection E as <-. auto.
        - intros kv Hkv. destruct (ALL kv Hkv) as (a & E & AO & _ & S). rewrite E. destruct (attr_ok_split _ _ _ AO) as (NO & _).
          split; [apply name_plain; exact NO|]. split; auto. apply supported_str. apply name_ok_split in NO. tauto.
        - apply names_apart; auto. intros y Hy. apply in_map_iff in Hy as (kv & <- & Hkv). destruct (ALL kv Hkv) as (a & E & _). rewrite E. auto.
        - intros kv s' t' Hkv A. split; [|apply FR; auto]. destruct (ALL kv Hkv) as (a & E & AO & _). rewrite E. intros C. apply attr_ok_split in AO as (NO & _). apply name_plain in NO as [NO _]. congruence.
        - intros acc s1 t1 s2' t2 (HX1 & d' & HQ1 & F1) I1 A L. split; [rewrite (a_heap _ _ _ _ _ _ _ _ _ _ _ _ A); auto; lia|].
          exists d'. split; [rewrite (a_heap _ _ _ _ _ _ _ _ _ _ _ _ A); auto; lia|]. eapply pmatches_adv; [exact A|exact F1].
        - intros a v j s1 t1 v' t2 acc rest EA NE R I1 A J M.
          destruct (ALL (VStr a, v)) as (a' & E & AO & SN & S); [rewrite EA; apply in_or_app; right; left; auto|].
          injection E as <-. destruct (attr_ok_split _ _ _ AO) as (NO & _). rewrite (rfd_str x a j t1 v' t2) by auto.
          eapply attr_step; eauto. rewrite <- EA. auto.
        - intros qq v jq j s1 t1 q' v' t1' t2 acc rest EA T. exfalso.
          destruct (ALL (qq, v)) as (a' & E & AO & _); [rewrite EA; apply in_or_app; right; left; auto|].
          destruct (attr_ok_split _ _ _ AO) as (NO & _). apply name_plain in NO as [NO _].
          cbn [fst] in E. subst qq. congruence.
        - split; auto. exists []. split; auto. }
      intros dt s3 _ (out & -> & EO & ND & W & t5 & R & A & J). exists out. split; auto. split; auto. split; [|split; eauto].
      eapply names_docs; [|exact EO]. intros kv Hkv. destruct (ALL kv Hkv) as (a & E & AO & _). exists a. split; auto. apply attr_ok_split in AO. tauto.
    Qed.

    Lemma out_keys_attr (its : list (val * val)) (out : jobj) : map VStr (map fst out) = map fst its ->
      (forall kv, In kv its -> exists a, fst kv = VStr a /\ name_ok keys a = true /\ seqb a (u "default_factory") = false) -> kdistinct (map fst its) = true ->
      (forall y, In y (map fst out) -> is_reserved y = false /\ out_key y) /\ NoDup (map fst out).
    Proof.
      intros E ALL DI. split.
      - intros y Hy. apply (in_map VStr) in Hy. rewrite E in Hy. apply in_map_iff in Hy as (kv & E2 & Hkv).
        destruct (ALL kv Hkv) as (a & E3 & NO & DF). rewrite E2 in E3. injection E3 as ->.
        destruct (name_ok_split _ _ NO) as (A1 & A2 & A3 & A4 & _).
        split; auto. unfold out_key. split; [auto|]. split; auto. intros ->. discriminate.
      - apply kdistinct_NoDup in DI. rewrite <- E in DI. eapply NoDup_map_inv; eauto.
    Qed.

    (** Reserved entries are skipped by the attribute loop. *)
    Lemma rfd_skip x (d : jobj) t : (forall y, In y (map fst d) -> is_reserved y = true) -> foldM (rfd m x) d tt t = (Ret tt, t).
    Proof.
      intros H. apply foldM_skip. intros kv s Hkv. unfold rfd. rewrite H; [reflexivity|]. apply in_map; auto.
    Qed.
    Lemma rfd_around x (d1 out d2 : jobj) t t2 : (forall y, In y (map fst d1) -> is_reserved y = true) ->
      (forall y, In y (map fst d2) -> is_reserved y = true) ->
      foldM (rfd m x) out tt t = (Ret tt, t2) -> restore_from_dict w uo rs (d1 ++ out ++ d2) (VLoc x) t = (Ret tt, t2).
    Proof.
      intros H1 H2 R. change (foldM (rfd m x) (d1 ++ out ++ d2) tt t = (Ret tt, t2)).
      rewrite foldM_app. rewrite (bind_eq _ _ t tt t) by (apply rfd_skip; auto).
      rewrite foldM_app. rewrite (bind_eq _ _ _ _ _ R). apply rfd_skip; auto.
    Qed.

    (** ** No state of its own *)
    Definition by_kind (l : loc) (i : inst) (data4 : jobj) : MP json :=
      let c := cls (i_cls i) in
      match c_kind c with
      | KDict => d <- flatten_dict_subclass w k po fl l i data4 ;; ret (JObj d)
      | KList | KSet | KTuple => flatten_sequence_obj w k po fl i data4
      | KIter => js <- iter_loop k fl n l (po_max_iter po) ;; ret (JObj (sset ITERATOR (JList js) data4))
      | _ =>
          match i_dict i with
          | Some d => dt <- flatten_plain_dict w k po fl d (c_exclude c) data4 ;; ret (JObj dt)
          | None =>
              match c_slots c with
              | Some _ => flatten_newstyle_with_slots w k po fl l i data4
              | None =>
                  match data4 with
                  | _ :: _ => ret (JObj data4)
                  | [] =>
                      (if po_unpicklable po then pickle_warning po (VLoc l) ;;; ret JNull
                       else
                         r <- reduce_of w k l i ;;
                         match r with
                         | RTup rl =>
                             let state := nth 2 rl VNone in
                             let args := nth 1 rl VNone in
                             ts <- truthy_p w state ;;
                             if ts then fl state else
                             ta <- truthy_p w args ;;
                             if ta then fl args else
                             pickle_warning po (VLoc l) ;;; ret JNull
                         | _ => pickle_warning po (VLoc l) ;;; ret JNull
                         end)
                  end
              end
          end
      end.
    Lemma body_nostate l i data4 s : p_heap s = h -> no_state w k h (cls (i_cls i)) l ->
      inst_body w k po n l i data4 s = by_kind l i data4 s.
    Proof.
      intros HP NS. unfold inst_body. fold (by_kind l i data4).
      assert (G : exists st, (if c_getstate (cls (i_cls i)) then
               catch (st <- lift (k_getstate k l) ;; ret (Some st)) is_TypeError (fun _ => ret None)
             else ret (Some VNone)) s = (Ret (Some st), s) /\ (forall x, st <> VLoc x) /\
             truthy cls h st && c_getstate (cls (i_cls i)) = false).
      { destruct (c_getstate (cls (i_cls i))) eqn:E.
        - destruct NS as [NS|(st & E1 & E2 & E3)]; [congruence|]. exists st. split; [|split; auto].
          + apply catch_ret. rewrite E1. reflexivity.
          + rewrite E2. reflexivity.
        - exists VNone. split; [reflexivity|]. split; [discriminate | reflexivity]. }
      destruct G as (st & G1 & G2 & G3). rewrite (bind_eq _ _ _ _ _ G1). rewrite (bind_eq _ _ s (p_heap s) s) by reflexivity.
      rewrite (bind_eq _ _ s st s).
      2: { destruct (c_exclude (cls (i_cls i))); auto. destruct st; auto. exfalso. eapply G2; eauto. }
      rewrite (bind_eq _ _ s (truthy cls h st) s) by (rewrite <- HP; reflexivity).
      rewrite G3. reflexivity.
    Qed.

    Lemma cell_dcell ci b q : dcell ci b = Some q -> cell ci b <> q /\ b <= q.
    Proof. unfold RTInst.cell, RTInst.dcell. destruct (c_dict (cls ci)); [|discriminate]. intros E. injection E as <-. lia. Qed.
    Lemma cell_ge ci b : b <= cell ci b.
    Proof. unfold RTInst.cell. destruct (c_dict (cls ci)); lia. Qed.
    Lemma dcell_some ci b : c_dict (cls ci) = true -> exists q, dcell ci b = Some q.
    Proof. unfold RTInst.dcell. intros ->. eauto. Qed.
    Lemma head_reserved (data4 : jobj) : (forall y, In y (Json.keys data4) -> In y head_tags) ->
      forall y, In y (map fst data4) -> is_reserved y = true.
    Proof. intros H y Hy. apply H, head_tags_ok in Hy. tauto. Qed.
    Lemma head_sget (data4 : jobj) tg : (forall y, In y (Json.keys data4) -> In y head_tags) -> tg = SEQ \/ tg = STATE -> sget tg data4 = None.
    Proof.
      intros H E. apply sget_notin. intros C. apply H, head_tags_ok in C as (_ & _ & C1 & C2 & _). destruct E; auto.
    Qed.
    Lemma made_adv s t s2 t2 O args kw r : adv O none s t s2 t2 -> made_match h (u_heap t) bs (rel s t) args kw r ->
      made_match h (u_heap t2) bs (rel s2 t2) args kw r.
    Proof.
      intros A M. eapply made_stable; [| | |exact M]; auto.
      - apply (adv_rel _ _ _ _ _ _ _ _ _ _ _ _ A).
      - apply A.
    Qed.

    Section one.
      Variables (l : loc) (i : inst) (cs args : list val) (kw : list (pystr * val)) (all : list val).
      Notation ci := (i_cls i).
      Notation c := (cls (i_cls i)).
      Hypothesis H : hget h l = Some (OInst i).
      Hypothesis CT : ctor k h c l cs args kw.
      Hypothesis SH : shape l all.
      Hypothesis SU : supported (VLoc l).
      Hypothesis ORD : ordinary w k l i.

      Lemma part_supported x : In x all -> supported x.
      Proof. intros Hx. eapply supported_sub; eauto. eapply sub_obj; eauto. Qed.

      Lemma attrs_ok_kept a kv : attrs_ok keys c a = true -> In kv (kept_attrs c a) ->
        exists n, fst kv = VStr n /\ attr_ok keys c n = true /\ slot_named c n = false.
      Proof.
        intros AO Hk. unfold attrs_ok in AO. apply andb_true_iff in AO as [AO _]. rewrite forallb_forall in AO.
        apply filter_In in Hk as [Hk Hp]. specialize (AO kv Hk). destruct (fst kv) as [| | | |n0| | | | | | | | |]; try discriminate.
        exists n0. split; auto. rewrite Hp in AO. cbn [negb orb] in AO. apply andb_true_iff in AO as [A B]. apply negb_true_iff in B. auto.
      Qed.
      Lemma attrs_ok_str a : attrs_ok keys c a = true -> forall kv, In kv a -> is_str (fst kv) = true.
      Proof.
        intros AO kv Hk. unfold attrs_ok in AO. apply andb_true_iff in AO as [AO _]. rewrite forallb_forall in AO.
        specialize (AO kv Hk). destruct (fst kv); auto; discriminate.
      Qed.
      Lemma items_kept a : attrs_ok keys c a = true -> items (c_exclude c) a = kept_attrs c a.
      Proof.
        intros AO. unfold items, kept_attrs. apply filter_ext_in. intros kv Hk. pose proof (attrs_ok_str a AO kv Hk) as T.
        destruct (fst kv); try discriminate. reflexivity.
      Qed.
      (** Encoding the attributes is the fold of [estep] over the kept ones. *)
      Lemma plain_dict_run d a ex data4 s t : Inv s t -> hget h d = Some (ODict a) -> attrs_ok keys c a = true ->
        ex = c_exclude c ->
        flatten_plain_dict w k po fl d ex data4 s = foldM (estep w k keys po n) (kept_attrs c a) data4 s.
      Proof.
        intros I HA AO ->. unfold flatten_plain_dict. rewrite (bind_eq _ _ s (ODict a) s) by (eapply get_obj_run; eauto).
        rewrite (flatten_items_merge w k keys po Ok n) by (intros _; apply (attrs_ok_str a AO)).
        rewrite items_kept by auto. rewrite strings_first_all; auto.
        intros kv Hk. apply filter_In in Hk as [Hk _]. apply (attrs_ok_str a AO kv Hk).
      Qed.

      Lemma contents_plain a n0 b0 : all = cs ++ map snd (kept_attrs c a) ->
        c_kind c = KPlain -> no_state w k h c l -> c_dict c = true -> attrs_of h i = Some a -> attrs_ok keys c a = true ->
        i_slots i = [] -> c_deffac c = false ->
        contents w k keys cl h bs po uo n m l i args kw all None false n0 b0.
      Proof.
        intros EALL KP NS CD AT AO SL DF data4 s2 t4 args' kw' b1 x dc KD Lb I HX HQ HE HD MM FR FIN.
        cbn [option_map olist app] in HX, MM.
        destruct (dcell_some ci b1 CD) as [q EQ]. subst x dc. rewrite EQ in *. set (x := cell ci b1) in *.
        destruct (cell_dcell _ _ _ EQ) as [NXQ LQ]. specialize (HQ q eq_refl).
        set (i' := new_inst ci (Some q) None args' kw') in *.
        apply (wp_eq _ (by_kind l i data4)); [apply body_nostate; auto; apply I|]. unfold by_kind. rewrite KP.
        unfold attrs_of in AT. destruct (i_dict i) as [d|] eqn:ED; [|discriminate].
        destruct (hget h d) as [[| |a0| | |]|] eqn:HDd; try discriminate. injection AT as ->.
        apply wp_bind. apply (wp_eq _ (foldM (estep w k keys po n) (kept_attrs c a) data4)).
        { eapply plain_dict_run; eauto. }
        assert (DI : kdistinct (map fst (kept_attrs c a)) = true).
        { apply kdistinct_filter. unfold attrs_ok in AO. apply andb_true_iff in AO. tauto. }
        assert (ALL : forall kv, In kv (kept_attrs c a) -> In (snd kv) all).
        { intros kv Hk. rewrite EALL. apply in_or_app. right. apply in_map; auto. }
        eapply wp_mono.
        { apply (rt_attrs (kept_attrs c a) data4 s2 t4 x q i'); auto.
          - change (c_kind c <> KDict). congruence.
          - apply head_reserved; auto.
          - intros kv Hk. destruct (attrs_ok_kept a kv AO Hk) as (nm & E & A1 & A2). exists nm. split; auto. split; auto. split; auto.
            apply part_supported; auto. }
        intros dt s3 _ (out & -> & IDO & EO & WW & t5 & R & A & (HX5 & d' & HQ5 & F5)). apply wp_ret.
        destruct (out_keys_attr (kept_attrs c a) out EO) as [OK1 OK2]; auto.
        { intros kv Hk. destruct (attrs_ok_kept a kv AO Hk) as (nm & E & A1 & A2). apply attr_ok_split in A1 as (A1 & _ & A3 & _). eauto. }
        exists out, []. cbn [fad app]. rewrite !app_nil_r. split; [reflexivity|]. split; [intros y Hy; apply OK1; auto|].
        split; [auto|]. split; [auto|].
        assert (NT : forall tg, tg = SEQ \/ tg = STATE -> sget tg out = None).
        { intros tg Htg. apply sget_notin. intros C. apply OK1 in C as [C _]. destruct Htg; subst tg; discriminate. }
        split; [unfold shas; rewrite NT; auto|].
        split.
        { intros nm v PT. destruct (part_attr _ _ _ _ H PT) as (_ & _ & [(at_ & E1 & E2)|(sl & E1 & _)]); [|congruence].
          unfold attrs_of in E1. rewrite ED, HDd in E1. injection E1 as <-. eapply item_sget; eauto.
          destruct (attrs_ok_kept a _ AO E2) as (nm' & E3 & A1 & _). injection E3 as <-. apply attr_ok_split in A1. tauto. }
        exists t5. split; [|split; [exact A|split]].
        - unfold restore_object_instance_variables. rewrite (bind_eq _ _ t4 tt t5).
          + rewrite (sget_app SEQ), (sget_app STATE), (head_sget data4 SEQ), (head_sget data4 STATE), (NT SEQ), (NT STATE) by auto. reflexivity.
          + pose proof (rfd_around x data4 out [] t4 t5 (head_reserved _ KD)) as Y. rewrite app_nil_r in Y. apply Y; auto.
        - intros f. unfold inst_factory. cbn [u_inst]. rewrite HX5. change (i_cls i') with ci. rewrite DF.
          unfold inst_attr. cbn [i' new_inst i_slots i_dict sget]. rewrite HQ5. intros Hf.
          pose proof (dget_match s3 t5 (u "default_factory") _ _ F5) as MF. rewrite Hf in MF.
          destruct (dget (VStr (u "default_factory")) (kept_attrs c a)) as [v|]; [|destruct MF]. eapply vmatch_not_proxy; exact MF.
        - eapply om_inst; eauto; [pose proof (cell_ge ci b1); unfold x; lia|].
          eapply im_attrs; eauto.
          + congruence.
          + eapply made_adv; [exact A|]. exact MM.
          + split; [|split; [|split]].
            * intros d0 E0. cbn in E0. injection E0 as <-. lia.
            * intros nm. replace (inst_attr (u_heap t5) i' nm) with (dget (VStr nm) d').
              2: { unfold inst_attr. cbn [i' new_inst i_slots i_dict sget]. rewrite HQ5. reflexivity. }
              replace (if kept c nm then inst_attr h i nm else None) with (dget (VStr nm) (kept_attrs c a)).
              { apply dget_match; auto. }
              rewrite dget_kept by (apply attrs_ok_str; auto). unfold inst_attr. rewrite SL, ED, HDd. reflexivity.
            * congruence.
            * intros items Hi. unfold attrs_of in Hi. rewrite ED, HDd in Hi. injection Hi as <-. exists q, d'. auto.
          + intros [C|C]; congruence.
      Qed.

      (** ** Slots *)
      Lemma fkvp_estep a v dt s : name_ok keys a = true ->
        flatten_key_value_pair w k po fl (VStr a) v dt s = estep w k keys po n dt (VStr a, v) s.
      Proof.
        intros NO. destruct (name_ok_split _ _ NO) as (_ & NR & _ & _ & NJ). unfold estep. cbn [fst snd is_str].
        destruct (Bool.bool_dec keys true) as [E|E]; [|apply not_true_is_false in E]; rewrite E; auto.
        unfold flatten_key_value_pair, flatten_string_key_value_pair. rewrite NR, NJ by auto. cbn [orb andb].
        apply bind_ext; auto. intros h0 s0 _. destruct (negb _); auto. unfold readonly_skip. rewrite Oro. reflexivity.
      Qed.
      Lemma wp_bind_inv {S A B} (mm : M S A) (f : A -> M S B) s (Q : B -> S -> Prop) :
        wp (bind mm f) s Q -> wp mm s (fun a s1 => wp (f a) s1 Q).
      Proof. unfold wp, bind. destruct (mm s) as [[]]; auto. Qed.

      Definition present (sl : list pystr) : list (val * val) :=
        flat_map (fun a => if kept c a then match sget (mangle c a) (i_slots i) with Some v => [(VStr a, v)] | None => [] end else []) sl.
      Definition nonempty {A} (l : list A) : bool := match l with [] => false | _ => true end.
      Definition slotstep (ex : list pystr) (st : jobj * bool) (a : pystr) : MP (jobj * bool) :=
        if smem a ex then ret st else
          catch (v <- p_getattr k l i (mangle c a) ;;
                 d <- flatten_key_value_pair w k po fl (VStr a) v (fst st) ;;
                 ret (d, true))
                is_AttributeError (fun _ => ret st).
      Lemma slots_transfer sl : i_dict i = None ->
        (forall a, In a sl -> kept c a = true -> slot_ok keys c a = true) ->
        (forall a, In a sl -> kept c a = true -> sget (mangle c a) (i_slots i) = None -> k_attr k l (mangle c a) = Exc EAttributeError) ->
        forall dt b s Q, wp (foldM (estep w k keys po n) (present sl) dt) s (fun dt' s' => Q (dt', b || nonempty (present sl)) s') ->
        wp (foldM (slotstep (c_exclude c)) sl (dt, b)) s Q.
      Proof.
        intros ID. induction sl as [|a sl IHs]; intros AO UN dt b s Q W.
        - simpl in *. rewrite orb_false_r in W. exact W.
        - cbn [foldM]. apply wp_bind. cbn [present flat_map] in W. fold (present sl) in W.
          assert (IHs' : forall dt b s Q, wp (foldM (estep w k keys po n) (present sl) dt) s (fun dt' s' => Q (dt', b || nonempty (present sl)) s') ->
              wp (foldM (slotstep (c_exclude c)) sl (dt, b)) s Q).
          { apply IHs; intros; [apply AO | apply UN]; auto; right; auto. }
          unfold slotstep at 1. unfold kept in W. destruct (smem a (c_exclude c)) eqn:EX.
          + cbn [negb app] in W. apply wp_ret. apply IHs'. exact W.
          + assert (KA : kept c a = true) by (unfold kept; rewrite EX; reflexivity). cbn [negb] in W.
            pose proof (AO a (or_introl eq_refl) KA) as AA. destruct (slot_ok_split _ _ _ AA) as (NO & _).
            destruct (sget (mangle c a) (i_slots i)) as [v|] eqn:EV.
            * cbn [app foldM] in W. apply wp_catch. apply wp_bind. apply (wp_eq _ (ret v)).
              { unfold p_getattr, bind, gets, inst_attr. rewrite EV. reflexivity. }
              apply wp_ret. apply wp_bind. apply (wp_eq _ _ _ _ (fkvp_estep a v _ s NO)). cbn [fst].
              apply wp_bind_inv in W. eapply wp_mono; [exact W|]. intros dt1 s1 _ W1. apply wp_ret. apply IHs'.
              eapply wp_mono; [exact W1|]. intros dt2 s2 _ HQ. cbn [nonempty] in HQ. rewrite orb_true_r in HQ. exact HQ.
            * apply wp_catch_exc with (e := EAttributeError) (s1 := s).
              { unfold p_getattr, bind, gets, inst_attr. rewrite EV, ID. rewrite (UN a (or_introl eq_refl) KA EV). reflexivity. }
              { reflexivity. }
              apply wp_ret. apply IHs'. exact W.
      Qed.

      Lemma present_In sl q v : In (q, v) (present sl) -> exists a, q = VStr a /\ In a sl /\ kept c a = true /\ sget (mangle c a) (i_slots i) = Some v.
      Proof.
        unfold present. rewrite in_flat_map. intros (a & Ha & Hi). exists a. destruct (kept c a); [|destruct Hi].
        destruct (sget (mangle c a) (i_slots i)); [|destruct Hi]. destruct Hi as [E|[]]. injection E as <- <-. auto.
      Qed.
      Lemma present_distinct sl : NoDup sl -> kdistinct (map fst (present sl)) = true.
      Proof.
        induction 1 as [|a sl N ND IHn]; auto. cbn [present flat_map]. fold (present sl).
        destruct (kept c a); auto. destruct (sget (mangle c a) (i_slots i)) as [v|]; auto. cbn [app map fst kdistinct]. rewrite IHn, andb_true_r.
        apply negb_true_iff. destruct (existsb (key_eqb (VStr a)) (map fst (present sl))) eqn:E; auto.
        apply existsb_exists in E as (q & Hq & E). apply in_map_iff in Hq as ([q' v'] & E' & Hq). cbn [fst] in E'. subst q'.
        apply present_In in Hq as (b & -> & Hb & _). rewrite key_eqb_str in E. destruct (seqb_spec a b); [subst; contradiction|discriminate].
      Qed.
      (** The same under the names that are stored. *)
      Definition stored (kv : val * val) : val * val := (match fst kv with VStr a => VStr (mangle c a) | q => q end, snd kv).
      Lemma stored_distinct sl : NoDup (map (mangle c) sl) -> kdistinct (map fst (map stored (present sl))) = true.
      Proof.
        induction sl as [|a sl IHn]; auto. cbn [map]. intros ND. inversion ND as [|? ? N ND']; subst. specialize (IHn ND').
        cbn [present flat_map]. fold (present sl).
        destruct (kept c a); auto. destruct (sget (mangle c a) (i_slots i)) as [v|]; auto. cbn [app map stored fst kdistinct]. rewrite IHn, andb_true_r.
        apply negb_true_iff. destruct (existsb (key_eqb (VStr (mangle c a))) (map fst (map stored (present sl)))) eqn:E; auto.
        apply existsb_exists in E as (q & Hq & E). apply in_map_iff in Hq as (kv & E' & Hq). apply in_map_iff in Hq as ([q' v'] & E2 & Hq).
        apply present_In in Hq as (b & -> & Hb & _). subst kv. cbn [stored fst] in E'. subst q.
        rewrite key_eqb_str in E. destruct (seqb_spec (mangle c a) (mangle c b)) as [X|]; [|discriminate].
        exfalso. apply N. rewrite X. apply in_map. exact Hb.
      Qed.
      Lemma stored_get sl nm : (forall a, In a sl -> kept c (mangle c a) = kept c a) ->
        dget (VStr nm) (map stored (present sl)) = if smem nm (map (mangle c) sl) && kept c nm then sget nm (i_slots i) else None.
      Proof.
        induction sl as [|b sl IHs]; auto. intros KM. assert (KB : kept c (mangle c b) = kept c b) by (apply KM; left; auto).
        assert (IHs' := IHs (fun a Ha => KM a (or_intror Ha))). clear IHs.
        cbn [present flat_map]. fold (present sl). cbn [map smem existsb].
        fold (smem nm (map (mangle c) sl)). destruct (seqb_spec nm (mangle c b)) as [->|N]; cbn [orb andb].
        - rewrite KB. destruct (kept c b) eqn:KB'.
          + destruct (sget (mangle c b) (i_slots i)) as [v|] eqn:EV.
            * cbn [app map dget stored fst snd]. rewrite key_eqb_str. destruct (seqb_spec (mangle c b) (mangle c b)); congruence.
            * cbn [app]. rewrite IHs'. destruct (smem _ _ && _); reflexivity.
          + cbn [app]. rewrite IHs', KB, andb_false_r. auto.
        - destruct (kept c b); [|exact IHs']. destruct (sget (mangle c b) (i_slots i)) as [v|]; [|exact IHs'].
          cbn [app map dget stored fst snd]. rewrite key_eqb_str. destruct (seqb_spec nm (mangle c b)); [congruence|]. exact IHs'.
      Qed.

      Definition wslots (i0 : inst) (sl : list (pystr * val)) : inst :=
        mkInst (i_cls i0) (i_dict i0) sl (i_items i0) (i_elems i0) (i_fac i0) (i_rec i0) (i_state i0) (i_pos i0).
      Definition as_keys (sl : list (pystr * val)) : list (val * val) := map (fun p => (VStr (fst p), snd p)) sl.
      Lemma as_keys_get a sl : dget (VStr a) (as_keys sl) = sget a sl.
      Proof. induction sl as [|[b v] sl IHs]; simpl; auto. rewrite key_eqb_str. destruct (seqb a b); auto. Qed.
      Definition jslot (x : loc) (i0 : inst) (acc : list (val * val)) (s : pst) (t : ust) : Prop :=
        exists sl', hget (u_heap t) x = Some (OInst (wslots i0 sl')) /\ Forall2 (pm s t) (map stored acc) (as_keys sl').
      Lemma slot_step x i0 a v v' acc rest s t : Inv s t -> jslot x i0 acc s t ->
        c_kind (cls (i_cls i0)) <> KDict ->
        i_cls i0 = i_cls i -> slot_ok keys c a = true -> slot_named c (mangle c a) = true ->
        kdistinct (map fst (map stored (acc ++ (VStr a, v) :: rest))) = true -> vm s t v v' ->
        exists t3, set_one w uo (VLoc x) (VStr a) v' t = (Ret tt, t3) /\ adv (own x None) none s t s t3 /\
                   jslot x i0 (acc ++ [(VStr a, v)]) s t3.
      Proof.
        intros I (sl' & HX & F) NK EC AO SN HD M. set (b := mangle c a) in *. pose proof (vmatch_not_proxy _ _ _ _ _ _ M) as NP.
        destruct (slot_ok_split _ _ _ AO) as (_ & _ & DU & DF & _). fold b in DU, DF.
        rewrite !map_app in HD. cbn [map stored fst snd] in HD. fold b in HD. apply kdistinct_split in HD as (HD & _ & _).
        rewrite <- (str_fresh _ _ b _ _ F) in HD.
        assert (NI : ~ In b (Json.keys sl')).
        { intros C. assert (X : existsb (key_eqb (VStr b)) (map fst (as_keys sl')) = true); [|congruence].
          apply existsb_exists. exists (VStr b). split; [|apply key_eqb_refl]. unfold as_keys. rewrite map_map. cbn [fst].
          unfold Json.keys in C. apply in_map_iff in C as (p & <- & C). apply in_map_iff. exists p. auto. }
        set (t3 := us_heap (hset (u_heap t) x (OInst (wslots i0 (sl' ++ [(b, v')])))) t).
        pose proof (hget_lt _ _ _ HX) as LX.
        assert (A3 : adv (own x None) none s t s t3).
        { apply adv_own; auto.
          - simpl. eapply evolve_set; eauto. simpl. auto.
          - intros y Hy Hn. simpl. rewrite hget_hset_other; auto. intros ->. apply Hn. left. reflexivity.
          - simpl. rewrite hset_length. auto. }
        exists t3. split; [|split; auto].
        - assert (EC' : cls (i_cls (wslots i0 sl')) = c) by (cbn [wslots i_cls]; rewrite EC; reflexivity).
          apply (set_slot_run x (wslots i0 sl') a v' t); auto; [rewrite EC'; exact AO|].
          unfold inst_store. rewrite EC'. fold b. rewrite DU, DF. cbn [andb].
          unfold slot_named in SN. rewrite SN. cbn [wslots i_slots]. rewrite sset_app by exact NI. reflexivity.
        - exists (sl' ++ [(b, v')]). split; [simpl; apply hget_hset_same; auto|]. unfold as_keys. rewrite !map_app. apply Forall2_app.
          + eapply pmatches_adv; [exact A3 | exact F].
          + constructor; [|constructor]. split; [apply vm_atom; reflexivity|]. cbn [snd]. eapply vmatch_adv; [exact A3 | exact M].
      Qed.

      Lemma present_snd sl :
        map snd (present sl) = flat_map (fun a => if kept c a then match sget (mangle c a) (i_slots i) with Some v => [v] | None => [] end else []) sl.
      Proof.
        induction sl as [|a sl IHs]; auto. cbn [present flat_map]. fold (present sl). rewrite map_app, IHs.
        destruct (kept c a); auto. destruct (sget (mangle c a) (i_slots i)); auto.
      Qed.

      (** The document of an object that only has attributes. *)
      Lemma attr_doc (its : list (val * val)) (data4 out : jobj) x t4 t5 : (forall y, In y (Json.keys data4) -> In y head_tags) ->
        map VStr (map fst out) = map fst its ->
        (forall kv, In kv its -> exists a, fst kv = VStr a /\ name_ok keys a = true /\ seqb a (u "default_factory") = false) -> kdistinct (map fst its) = true ->
        foldM (rfd m x) out tt t4 = (Ret tt, t5) ->
        (forall y, In y (map fst out) -> out_key y) /\ NoDup (map fst out) /\ shas SEQ out = false /\
        restore_object_instance_variables w uo rs (data4 ++ out) (VLoc x) t4 = (Ret (VLoc x), t5).
      Proof.
        intros KD EO ALL DI R. destruct (out_keys_attr its out EO ALL DI) as [OK1 OK2].
        assert (NT : forall tg, tg = SEQ \/ tg = STATE -> sget tg out = None).
        { intros tg Htg. apply sget_notin. intros C. apply OK1 in C as [C _]. destruct Htg; subst tg; discriminate. }
        split; [intros y Hy; apply OK1; auto|]. split; auto. split; [unfold shas; rewrite NT; auto|].
        unfold restore_object_instance_variables. rewrite (bind_eq _ _ t4 tt t5).
        - rewrite (sget_app SEQ), (sget_app STATE), (head_sget data4 SEQ), (head_sget data4 STATE), (NT SEQ), (NT STATE) by auto. reflexivity.
        - pose proof (rfd_around x data4 out [] t4 t5 (head_reserved _ KD)) as Y. rewrite app_nil_r in Y. apply Y; auto.
      Qed.

      Lemma contents_slots sl n0 b0 : all = cs ++ map snd (present sl) ->
        c_kind c = KPlain -> no_state w k h c l -> c_dict c = false -> i_dict i = None -> c_slots c = Some sl -> NoDup (map (mangle c) sl) ->
        forallb (fun a => if kept c a then slot_ok keys c a else negb (kept c (mangle c a))) sl = true ->
        (forall a, In a (map fst (i_slots i)) -> In a (map (mangle c) sl)) ->
        (forall a, In a sl -> kept c a = true -> sget (mangle c a) (i_slots i) = None -> k_attr k l (mangle c a) = Exc EAttributeError) ->
        (exists a v, In a sl /\ kept c a = true /\ sget (mangle c a) (i_slots i) = Some v) ->
        c_deffac c = false ->
        contents w k keys cl h bs po uo n m l i args kw all None false n0 b0.
      Proof.
        intros EALL KP NS CD ID CS ND AOK INS UN EX DF data4 s2 t4 args' kw' b1 x dc KD Lb I HX HQ HE HD MM FR FIN.
        cbn [option_map olist app] in HX, MM.
        assert (EQ : dcell ci b1 = None) by (unfold RTInst.dcell; rewrite CD; auto).
        subst x dc. rewrite EQ in *. set (x := cell ci b1) in *. clear HQ.
        set (i0 := new_inst ci None None args' kw') in *.
        assert (AO : forall a, In a sl -> kept c a = true -> slot_ok keys c a = true).
        { intros a Ha Hk. rewrite forallb_forall in AOK. specialize (AOK a Ha). rewrite Hk in AOK. exact AOK. }
        assert (KM : forall a, In a sl -> kept c (mangle c a) = kept c a).
        { intros a Ha. rewrite forallb_forall in AOK. specialize (AOK a Ha). destruct (kept c a) eqn:Hk; [|apply negb_true_iff; exact AOK].
          destruct (slot_ok_split _ _ _ AOK) as (_ & _ & _ & _ & X & _). auto. }
        apply (wp_eq _ (by_kind l i data4)); [apply body_nostate; auto; apply I|]. unfold by_kind. rewrite KP, ID, CS.
        unfold flatten_newstyle_with_slots. rewrite Op, CS. apply wp_bind, wp_ret, wp_bind.
        change (flatten_obj_attrs w k po fl l i sl (c_exclude c) data4) with (foldM (slotstep (c_exclude c)) sl (data4, false)).
        apply slots_transfer; auto.
        assert (NE : nonempty (present sl) = true).
        { destruct EX as (a & v & E1 & E2 & E3). destruct (present sl) eqn:EP; auto. exfalso.
          assert (C : In (VStr a, v) (present sl)); [|rewrite EP in C; destruct C].
          apply in_flat_map. exists a. split; auto. rewrite E2, E3. left. auto. }
        pose proof (present_distinct sl (NoDup_map_inv _ _ ND)) as DI. pose proof (stored_distinct sl ND) as DS.
        assert (PN : forall kv, In kv (present sl) -> exists a, fst kv = VStr a /\ slot_ok keys c a = true /\ slot_named c (mangle c a) = true).
        { intros [q v] Hk. apply present_In in Hk as (a & -> & Ha & Hk & _). exists a. split; auto. split; auto.
          unfold slot_named. rewrite CS. apply smem_In. apply in_map. auto. }
        assert (ALL : forall kv, In kv (present sl) -> In (snd kv) all).
        { intros kv Hk. rewrite EALL. apply in_or_app. right. apply in_map; auto. }
        pose proof (hget_lt _ _ _ HX) as LX.
        eapply wp_mono.
        { eapply (rt_items w k keys cl h bs po uo Oro Os Ok Uk n m IH (own x None) s2 t4 data4 (present sl) (rfd m x) (jslot x i0)); eauto.
          - intros y [->|E]; [auto|discriminate].
          - intros kv Hkv. destruct (PN kv Hkv) as (a & E & AA & _). rewrite E. destruct (slot_ok_split _ _ _ AA) as (NO & _).
            split; [apply name_plain; exact NO|]. split; [apply supported_str; apply name_ok_split in NO; tauto|]. apply part_supported; auto.
          - apply names_apart; auto. intros y Hy. apply in_map_iff in Hy as (kv & <- & Hkv). destruct (PN kv Hkv) as (a & E & _). rewrite E. auto.
          - intros kv s' t' Hkv A. split; [|apply FR; auto]. destruct (PN kv Hkv) as (a & E & AO2 & _). rewrite E. intros C. apply slot_ok_split in AO2 as (NO & _). apply name_plain in NO as [NO _]. congruence.
          - apply head_reserved; auto.
          - intros acc s1 t1 s2' t2 (sl' & HX1 & F1) I1 A L. exists sl'. split; [rewrite (a_heap _ _ _ _ _ _ _ _ _ _ _ _ A); auto; lia|].
            eapply pmatches_adv; [exact A|exact F1].
          - intros a v j s1 t1 v' t2 acc rest EA NEs R I1 A J M.
            destruct (PN (VStr a, v)) as (a' & E & AA & SN); [rewrite EA; apply in_or_app; right; left; auto|].
            injection E as <-. destruct (slot_ok_split _ _ _ AA) as (NO & _). rewrite (rfd_str x a j t1 v' t2) by auto.
            eapply slot_step; eauto; [change (c_kind c <> KDict); congruence|]. rewrite <- EA. exact DS.
          - intros qq v jq j s1 t1 q' v' t1' t2 acc rest EA T. exfalso.
            destruct (PN (qq, v)) as (a' & E & AA & _); [rewrite EA; apply in_or_app; right; left; auto|].
            destruct (slot_ok_split _ _ _ AA) as (NO & _). apply name_plain in NO as [NO _].
            cbn [fst] in E. subst qq. congruence.
          - exists []. split; [exact HX | constructor]. }
        intros dt s3 _ (out & -> & IDO & NDO & WW & t5 & R & A & (sl' & HX5 & F5)). rewrite NE. cbn [orb snd fst]. apply wp_ret.
        assert (EO' : map VStr (map fst out) = map fst (present sl)).
        { eapply names_docs; [|exact IDO]. intros kv Hk. destruct (PN kv Hk) as (a & E & AA & _). exists a. split; auto. apply slot_ok_split in AA. tauto. }
        destruct (attr_doc (present sl) data4 out x t4 t5 KD EO') as (OK1 & OK2 & OK3 & OK4); auto.
        { intros kv Hk. destruct (PN kv Hk) as (a & E1 & E2 & _). apply slot_ok_split in E2 as (E2 & E3 & _). eauto. }
        exists out, []. cbn [fad app]. rewrite !app_nil_r. split; [reflexivity|]. split; [auto|]. split; [auto|]. split; [auto|]. split; [auto|].
        split.
        { intros nm v PT. destruct (part_attr _ _ _ _ H PT) as (_ & _ & [(at_ & E1 & E2)|(sl0 & _ & E0 & E1 & E2 & E3)]).
          - unfold attrs_of in E1. rewrite ID in E1. discriminate.
          - rewrite CS in E0. injection E0 as <-. eapply item_sget; eauto.
            + apply in_flat_map. exists nm. split; auto. rewrite E2, E3. left; auto.
            + apply (slot_ok_split keys c). auto. }
        exists t5. split; [exact OK4|]. split; [exact A|]. split.
        - intros f. unfold inst_factory. cbn [u_inst]. rewrite HX5. change (i_cls (wslots i0 sl')) with ci. rewrite DF.
          unfold inst_attr. cbn [wslots i0 new_inst i_slots i_dict].
          pose proof (dget_match s3 t5 (u "default_factory") _ _ F5) as MF. rewrite as_keys_get in MF.
          destruct (sget (u "default_factory") sl') as [f0|]; [|discriminate]. intros Hf. injection Hf as <-.
          destruct (dget (VStr (u "default_factory")) (map stored (present sl))); [|destruct MF]. eapply vmatch_not_proxy; exact MF.
        - eapply om_inst; eauto; [pose proof (cell_ge ci b1); unfold x; lia|].
          eapply im_attrs; eauto.
          + congruence.
          + eapply made_adv; [exact A|]. exact MM.
          + split; [|split; [|split]].
            * intros d0 E0. cbn in E0. discriminate.
            * intros nm. replace (inst_attr (u_heap t5) (wslots i0 sl') nm) with (dget (VStr nm) (as_keys sl')).
              2: { rewrite as_keys_get. unfold inst_attr. cbn [wslots i0 new_inst i_slots i_dict]. destruct (sget nm sl'); reflexivity. }
              replace (if kept c nm then inst_attr h i nm else None) with (dget (VStr nm) (map stored (present sl))).
              { apply dget_match; auto. }
              rewrite stored_get by exact KM. unfold inst_attr. rewrite ID. destruct (smem nm (map (mangle c) sl)) eqn:SM; cbn [andb].
              -- destruct (kept c nm); auto. destruct (sget nm (i_slots i)); auto.
              -- destruct (kept c nm); auto. destruct (sget nm (i_slots i)) eqn:EV; auto. exfalso.
                 apply sget_some_in in EV. apply INS in EV. apply smem_In in EV. congruence.
            * reflexivity.
            * intros items Hi. unfold attrs_of in Hi. rewrite ID in Hi. discriminate.
          + intros [C|C]; congruence.
      Qed.

      (** ** Elements of list and set subclasses *)
      Lemma adv_mono (O O2 : loc -> Prop) J s t s' t' : (forall y, O y -> O2 y) -> adv O J s t s' t' -> adv O2 J s t s' t'.
      Proof. intros HO [A B C D E F F2 G G2]. constructor; auto. Qed.
      Definition put (isset : bool) (x : loc) (v : val) : MU unit := if isset then do_add w (VLoc x) v else do_append (VLoc x) v.
      Lemma rt_elems (isset : bool) x i' vs : forall acc acc' s t, Inv s t ->
        hget (u_heap t) x = Some (OInst (set_elems i' acc')) -> Forall2 (vm s t) acc acc' ->
        (forall v, In v vs -> supported v) ->
        (forall v s1 t1, In v vs -> adv (eq x) none s t s1 t1 -> front s1 t1 v) ->
        (isset = true -> forallb (hashable cls h) (acc ++ vs) = true /\ kdistinct (acc ++ vs) = true) ->
        wp (mapM fl vs) s (fun js s' => forallb jwf js = true /\ (unhandled w h -> walks keys (length (p_objs s)) js (length (p_objs s'))) /\
          exists acc2 t', foldM (fun _ j => v <- rs j ;; put isset x v) js tt t = (Ret tt, t') /\
            adv (eq x) none s t s' t' /\ hget (u_heap t') x = Some (OInst (set_elems i' acc2)) /\
            Forall2 (vm s' t') (acc ++ vs) acc2).
      Proof.
        induction vs as [|v vs IHv]; intros acc acc' s t I HX F SUP FR HS; cbn [mapM].
        - apply wp_ret. split; [reflexivity|]. split; [intros _; apply walks_nil|]. exists acc', t. split; [reflexivity|]. split; [apply adv_refl; auto|]. rewrite app_nil_r. auto.
        - apply wp_bind. eapply wp_mono.
          { apply (IH v s t); auto; [apply SUP; left; auto|]. apply FR; [left; auto | apply adv_refl; auto]. }
          intros j s1 _ (W & [_ WK] & v' & t1 & R & A & M). apply wp_bind.
          pose proof (hget_lt _ _ _ HX) as LX.
          assert (HX1 : hget (u_heap t1) x = Some (OInst (set_elems i' acc'))).
          { rewrite (a_heap _ _ _ _ _ _ _ _ _ _ _ _ A); auto. }
          pose proof (vmatches_adv _ _ _ _ _ _ _ _ _ _ _ _ _ _ _ A F) as F1.
          pose proof (hget_lt _ _ _ HX1) as LX1.
          set (t2 := uset x (OInst (set_elems i' (acc' ++ [v']))) t1).
          assert (A2 : adv (eq x) none s1 t1 s1 t2).
          { apply adv_own; auto; [apply A| | |].
            - simpl. eapply evolve_set; eauto. simpl. auto.
            - intros y Hy Hn. simpl. rewrite hget_hset_other; auto.
            - simpl. rewrite hset_length. auto. }
          assert (PUT : put isset x v' t1 = (Ret tt, t2)).
          { unfold put. destruct isset.
            - destruct (HS eq_refl) as [HH HD]. unfold do_add, get_uobj. rewrite bind_assoc. rewrite (bind_eq _ _ t1 (u_heap t1) t1) by reflexivity.
              rewrite HX1. rewrite (bind_eq _ _ t1 (OInst (set_elems i' acc')) t1) by reflexivity.
              rewrite (bind_eq _ _ t1 (u_heap t1) t1) by reflexivity.
              rewrite forallb_forall in HH.
              rewrite (hash_match w cl h bs s1 t1 bs v v'); auto; [|apply A|apply HH; apply in_or_app; right; left; auto].
              assert (NV : existsb (key_eqb v') acc' = false).
              { apply kdistinct_split in HD as (HD & _ & _). eapply existsb_key_Forall2; [exact F1| |exact HD].
                intros y y' Hy My. apply (key_eqb_match w cl h bs s1 t1 bs); auto; [apply A| |]; apply HH; apply in_or_app; simpl; auto. }
              cbn [set_elems i_elems]. unfold set_add. rewrite NV. reflexivity.
            - unfold do_append, get_uobj. rewrite bind_assoc. rewrite (bind_eq _ _ t1 (u_heap t1) t1) by reflexivity.
              rewrite HX1. reflexivity. }
          assert (A02 : adv (eq x) none s t s1 t2).
          { eapply adv_trans; [|apply adv_weaken; exact A|exact A2]. intros y <-. auto. }
          eapply wp_mono.
          { apply (IHv (acc ++ [v]) (acc' ++ [v']) s1 t2).
            - apply A2.
            - simpl. apply hget_hset_same; auto.
            - apply Forall2_app; [eapply vmatches_adv; [exact A2|exact F1]|]. constructor; [|constructor]. eapply vmatch_adv; [exact A2|exact M].
            - intros; apply SUP; right; auto.
            - intros y s2 t3 Hy A3. apply FR; [right; auto|]. eapply adv_trans; [|exact A02|exact A3]. intros z <-. auto.
            - intros E. rewrite <- !app_assoc. apply HS; auto. }
          intros js s2 _ (W2 & WS2 & acc2 & t3 & R3 & A3 & HX3 & F3). apply wp_ret. cbn [forallb]. rewrite W, W2. split; [reflexivity|].
          split; [intros NH; eapply walks_cons; [apply WK|apply WS2]; auto|].
          exists acc2, t3. split.
          { cbn [foldM]. rewrite bind_assoc, (bind_eq _ _ _ _ _ R). rewrite (bind_eq _ _ _ _ _ PUT). exact R3. }
          split; [eapply adv_trans; [|exact A02|exact A3]; intros z <-; auto|]. split; auto. rewrite <- app_assoc in F3. exact F3.
      Qed.

      (** Attributes, when the class may have none. *)
      Definition attrs_at (d : option loc) (a : list (val * val)) : Prop :=
        match d with
        | None => c_dict c = false /\ a = []
        | Some d => c_dict c = true /\ hget h d = Some (ODict a) /\ attrs_ok keys c a = true
        end.
      Lemma contents_seq a n0 b0 : all = cs ++ map snd a ++ i_elems i ->
        (c_kind c = KList \/ c_kind c = KSet /\ forallb (hashable cls h) (i_elems i) = true /\ kdistinct (i_elems i) = true) ->
        no_state w k h c l -> c_exclude c = [] -> attrs_at (i_dict i) a -> i_slots i = [] -> c_deffac c = false ->
        contents w k keys cl h bs po uo n m l i args kw all None true n0 b0.
      Proof.
        intros EALL KK NS CE AT SL DF data4 s2 t4 args' kw' b1 x dc KD Lb I HX HQ HE HD MM FR FIN.
        cbn [option_map olist app] in HX, MM.
        assert (EALL1 : forall v, In v (map snd a) -> In v all) by (intros; rewrite EALL, !in_app_iff; auto).
        assert (EALL2 : forall v, In v (i_elems i) -> In v all) by (intros; rewrite EALL, !in_app_iff; auto).
        set (i' := new_inst ci dc None args' kw') in *.
        apply (wp_eq _ (by_kind l i data4)); [apply body_nostate; auto; apply I|]. unfold by_kind.
        apply (wp_eq _ (flatten_sequence_obj w k po fl i data4)).
        { destruct KK as [KK|[KK _]]; rewrite KK; reflexivity. }
        unfold flatten_sequence_obj. apply wp_bind.
        assert (KA : kept_attrs c a = a).
        { unfold kept_attrs, kept. rewrite CE. clear. induction a as [|[q v] r IHr]; auto. cbn [filter fst]. destruct q; cbn [smem existsb negb]; f_equal; auto. }
        assert (LX : x < length (u_heap t4)) by (eapply hget_lt; eauto).
        assert (LO : forall y, own x dc y -> y < length (u_heap t4)).
        { intros y [->|E]; auto. apply HQ in E. eapply hget_lt; eauto. }
        (* the attributes *)
        assert (ATTR : wp (match i_dict i with Some d => flatten_plain_dict w k po fl d [] data4 | None => ret data4 end) s2
          (fun dt s3 => exists out, dt = data4 ++ out /\ (forall y, In y (map fst out) -> is_reserved y = false /\ out_key y) /\ NoDup (map fst out) /\
             (forallb jwf (map snd out) = true /\ (unhandled w h -> walkf keys (length (p_objs s2)) out (length (p_objs s3)))) /\
             exists t5, foldM (rfd m x) out tt t4 = (Ret tt, t5) /\ adv (own x dc) none s2 t4 s3 t5 /\
               hget (u_heap t5) x = Some (OInst i') /\
               match dc with None => a = [] /\ i_dict i = None | Some q => x <> q /\ b1 <= q /\ (exists d, i_dict i = Some d /\ hget h d = Some (ODict a)) /\
                               exists d', hget (u_heap t5) q = Some (ODict d') /\ Forall2 (pm s3 t5) a d' end)).
        { unfold attrs_at in AT. destruct (i_dict i) as [d|] eqn:ID.
          - destruct AT as (CD & HDd & AO). destruct (dcell_some ci b1 CD) as [q EQ]. unfold i', dc in *. rewrite EQ in *. clear i' dc. set (i' := new_inst ci (Some q) None args' kw') in *.
            destruct (cell_dcell _ _ _ EQ) as [NXQ LQ]. specialize (HQ q eq_refl).
            apply (wp_eq _ (foldM (estep w k keys po n) a data4)).
            { rewrite (plain_dict_run d a [] data4 s2 t4) ; auto. rewrite KA. reflexivity. }
            assert (DI : kdistinct (map fst a) = true) by (unfold attrs_ok in AO; apply andb_true_iff in AO; tauto).
            eapply wp_mono.
            { apply (rt_attrs a data4 s2 t4 x q i'); auto.
              - change (c_kind c <> KDict). destruct KK as [KK|[KK _]]; congruence.
              - apply head_reserved; auto.
              - intros kv Hk. assert (Hk2 : In kv (kept_attrs c a)) by (rewrite KA; auto).
                destruct (attrs_ok_kept a kv AO Hk2) as (nm & E & A1 & A2). exists nm. split; auto. split; auto. split; auto.
                apply part_supported. apply EALL1. apply in_map; auto.
              - intros kv s' t' Hk A. apply FR; auto. apply EALL1. apply in_map; auto. }
            intros dt s3 _ (out & -> & _ & EO & W & t5 & R & A & (HX5 & d' & HQ5 & F5)). exists out. split; auto.
            destruct (out_keys_attr a out EO) as [OK1 OK2]; auto.
            { intros kv Hk. assert (Hk2 : In kv (kept_attrs c a)) by (rewrite KA; auto).
              destruct (attrs_ok_kept a kv AO Hk2) as (nm & E & A1 & A2). apply attr_ok_split in A1 as (A1 & _ & A3 & _). eauto. }
            split; auto. split; auto. split; auto. exists t5. split; auto. split; auto. split; auto. split; auto. split; auto. split; eauto.
          - destruct AT as (CD & EA). assert (EQ : dc = None) by (unfold dc, RTInst.dcell; rewrite CD; auto).
            apply wp_ret. exists []. rewrite app_nil_r. split; auto. split; [intros y []|]. split; [constructor|]. split; [split; [auto|intros _; apply walkf_nil]|].
            exists t4. split; [reflexivity|]. split; [apply adv_refl; auto|]. split; auto. rewrite EQ. auto. }
        eapply wp_mono; [exact ATTR|].
        intros dt s3 _ (out & -> & OK1 & OK2 & [W WO] & t5 & R5 & A5 & HX5 & DD). apply wp_bind.
        (* the elements *)
        set (isset := match c_kind c with KSet => true | _ => false end).
        eapply wp_mono.
        { apply (rt_elems isset x i' (i_elems i) [] [] s3 t5); auto.
          - apply A5.
          - intros v Hv. apply part_supported. auto.
          - intros v s' t' Hv A. apply FR; auto. eapply adv_trans; [exact LO|exact A5|]. eapply adv_mono; [|exact A]. intros y <-. left; auto.
          - unfold isset. destruct KK as [KK|(KK & K1 & K2)]; rewrite KK; auto. discriminate. }
        intros js s4 _ (WJ & WSJ & els & t6 & R6 & A6 & HX6 & F6). rewrite Ou. apply wp_ret.
        assert (NSEQ : ~ In SEQ (map fst out)) by (intros C; apply OK1 in C as [C _]; discriminate).
        assert (NSTATE : ~ In STATE (map fst out)) by (intros C; apply OK1 in C as [C _]; discriminate).
        assert (A46 : adv (own x dc) none s2 t4 s4 t6).
        { eapply adv_trans; [exact LO|exact A5|]. eapply adv_mono; [|exact A6]. intros y <-. left; auto. }
        exists (out ++ [(SEQ, JList js)]), []. cbn [fad app]. rewrite app_nil_r.
        split.
        { rewrite sset_app; [rewrite <- app_assoc; reflexivity|]. unfold Json.keys. rewrite map_app. intros C. apply in_app_or in C as [C|C]; [|auto].
          apply KD, head_tags_ok in C. tauto. }
        split.
        { intros y Hy. rewrite map_app in Hy. apply in_app_or in Hy as [Hy|[<-|[]]]; [apply OK1; auto|].
          split; [left; reflexivity|]. split; [discriminate|reflexivity]. }
        split.
        { rewrite map_app. apply NoDup_app_intro; auto; [repeat constructor; intros []|]. intros y Hy [<-|[]]. auto. }
        split.
        { split; [rewrite map_app, forallb_app, W; cbn [map snd forallb andb jwf]; rewrite WJ; reflexivity|].
          intros NH. rewrite ?app_nil_r. eapply walkf_app; [apply WO; auto|]. eapply walkf_bare; [left; reflexivity|apply WSJ; auto|apply walkf_nil]. }
        split.
        { unfold shas. rewrite sget_app, sget_notin by auto. reflexivity. }
        split.
        { intros nm v PT. exfalso. eapply part_kind; [exact H| |exact PT]. destruct KK as [KK|[KK _]]; congruence. }
        exists t6. split; [|split; [exact A46|split]].
        - unfold restore_object_instance_variables. rewrite (bind_eq _ _ t4 tt t5).
          2: { apply (rfd_around x data4 out [(SEQ, JList js)] t4 t5 (head_reserved _ KD)); auto. intros y [<-|[]]. reflexivity. }
          rewrite (sget_app SEQ data4), (sget_app SEQ out), (head_sget data4 SEQ), (sget_notin SEQ out) by auto.
          change (sget SEQ [(SEQ, JList js)]) with (Some (JList js)). cbv iota.
          rewrite (sget_app STATE data4), (sget_app STATE out), (head_sget data4 STATE), (sget_notin STATE out) by auto.
          change (sget STATE [(SEQ, JList js)]) with (@None json). cbv iota.
          rewrite (bind_eq _ _ t5 tt t6); [reflexivity|].
          rewrite (bind_eq _ _ t5 (u_heap t5) t5) by reflexivity. unfold seq_method. rewrite HX5. change (i_cls i') with ci.
          unfold put, isset in R6. destruct KK as [KK|(KK & _)]; rewrite KK in R6; rewrite KK; exact R6.
        - intros f. unfold inst_factory. cbn [u_inst]. rewrite HX6. change (i_cls (set_elems i' els)) with ci. rewrite DF.
          unfold inst_attr. cbn [set_elems i' new_inst i_slots i_dict sget]. destruct dc as [q|] eqn:EDC; [|discriminate].
          destruct DD as (NXQ & LQ & _ & d' & HQ5 & F5). rewrite (a_heap _ _ _ _ _ _ _ _ _ _ _ _ A6); [|eapply hget_lt; eauto|auto]. rewrite HQ5. intros Hf.
          pose proof (dget_match s3 t5 (u "default_factory") _ _ F5) as MF. rewrite Hf in MF.
          destruct (dget (VStr (u "default_factory")) a) as [v|]; [|destruct MF]. eapply vmatch_not_proxy; exact MF.
        - eapply om_inst; eauto; [pose proof (cell_ge ci b1); unfold x; lia|].
          eapply im_attrs; eauto.
          + destruct KK as [KK|[KK _]]; congruence.
          + eapply made_adv; [exact A46|]. exact MM.
          + split; [|split; [|split]].
            * intros d0 E0. cbn in E0. destruct dc as [q|]; [|discriminate]. injection E0 as <-. destruct DD as (_ & LQ & _). lia.
            * intros nm. unfold kept. rewrite CE. cbn [smem existsb negb]. unfold inst_attr. cbn [set_elems i' new_inst i_slots i_dict sget]. rewrite SL. cbn [sget].
              destruct dc as [q|].
              -- destruct DD as (NXQ & LQ & (d & ED & HDd) & d' & HQ5 & F5). rewrite ED, HDd.
                 rewrite (a_heap _ _ _ _ _ _ _ _ _ _ _ _ A6); [|eapply hget_lt; eauto|auto]. rewrite HQ5.
                 apply dget_match. eapply pmatches_adv; [exact A6|exact F5].
              -- destruct DD as [_ ->]. exact Logic.I.
            * cbn [set_elems i' new_inst i_dict]. destruct dc as [q|]; [|auto]. destruct DD as (_ & _ & (d & ED & _) & _). congruence.
            * intros items Hi. destruct dc as [q|] eqn:EDC.
              -- destruct DD as (NXQ & LQ & (d & ED & HDd) & d' & HQ5 & F5). unfold attrs_of in Hi. rewrite ED, HDd in Hi. injection Hi as <-.
                 exists q, d'. split; [cbn; auto|]. split; [rewrite (a_heap _ _ _ _ _ _ _ _ _ _ _ _ A6); [exact HQ5|eapply hget_lt; eauto|auto]|].
                 assert (KAT : kept_attrs c a = a).
                 { unfold kept_attrs, kept. rewrite CE. clear. induction a as [|[q0 v0] r IHr]; simpl; auto. destruct q0; simpl; f_equal; exact IHr. }
                 change (kept_attrs (cls (i_cls i)) a) with (kept_attrs c a). rewrite KAT. eapply pmatches_adv; [exact A6|exact F5].
              -- destruct DD as [_ DDn]. unfold attrs_of in Hi. rewrite DDn in Hi. discriminate.
      Qed.

      (** ** State *)
      Lemma body_state data4 st s : p_heap s = h -> own_state w k h c l st ->
        inst_body w k po n l i data4 s = (j <- fl st ;; ret (JObj (sset STATE j data4))) s.
      Proof.
        intros HP (G1 & G2 & G3 & G4). unfold inst_body. rewrite G1.
        rewrite (bind_eq _ _ s (Some st) s) by (apply catch_ret; rewrite G2; reflexivity).
        rewrite (bind_eq _ _ s (p_heap s) s) by reflexivity.
        rewrite (bind_eq _ _ s st s).
        2: { destruct (c_exclude c); auto. destruct st; auto. destruct G4 as [G4|G4]; [discriminate|]. exfalso. eapply G4; eauto. }
        rewrite (bind_eq _ _ s (truthy cls h st) s) by (rewrite <- HP; reflexivity).
        rewrite G3. cbn [andb]. rewrite Ou. reflexivity.
      Qed.
      Lemma state_doc data4 j (KD : forall y, In y (Json.keys data4) -> In y head_tags) : jwf j = true ->
        sset STATE j data4 = data4 ++ [(STATE, j)] /\ (forall y, In y (map fst [(STATE, j)]) -> out_key y) /\
        NoDup (map fst [(STATE, j)]) /\ forallb jwf (map snd [(STATE, j)]) = true /\ shas SEQ [(STATE, j)] = false /\
        sget SEQ (data4 ++ [(STATE, j)]) = None /\ sget STATE (data4 ++ [(STATE, j)]) = Some j.
      Proof.
        intros W. split.
        { apply sset_app. intros C. apply KD, head_tags_ok in C. tauto. }
        split; [intros y [<-|[]]; split; [right; left; reflexivity|split; [discriminate|reflexivity]]|].
        split; [repeat constructor; intros []|]. split; [cbn; rewrite W; reflexivity|]. split; [reflexivity|].
        rewrite !sget_app, (head_sget data4 SEQ), (head_sget data4 STATE) by auto. auto.
      Qed.

      Lemma state_walk n1 j n2 : walk keys n1 j n2 -> walkf keys n1 [(STATE, j)] n2.
      Proof.
        intros W. eapply walkf_value; [|intros _; reflexivity|exact W|apply walkf_nil]. intros C. repeat (destruct C as [C|C]; [discriminate|]). destruct C.
      Qed.

      Lemma contents_state st n0 b0 : all = cs ++ [st] ->
        own_state w k h c l st -> c_setstate c = true -> (forall h' st', w_setstate w h' ci st' = None) -> c_deffac c = false ->
        contents w k keys cl h bs po uo n m l i args kw all None false n0 b0.
      Proof.
        intros EALL OS SS WS DF data4 s2 t4 args' kw' b1 x dc KD Lb I HX HQ HE HD MM FR FIN.
        cbn [option_map olist app] in HX, MM.
        assert (IN : In st all) by (rewrite EALL; apply in_or_app; right; left; auto).
        set (i' := new_inst ci dc None args' kw') in *.
        apply (wp_eq _ _ _ _ (body_state data4 st s2 (i_heap _ _ _ _ _ I) OS)). apply wp_bind. eapply wp_mono.
        { apply (IH st s2 t4); auto; [apply part_supported; auto|]. apply FR; auto. apply adv_refl; auto. }
        intros j s3 _ (W & [_ WK] & st' & t5 & R & A & M). apply wp_ret.
        destruct (state_doc data4 j KD W) as (D1 & D2 & D3 & D4 & D5 & D6 & D7).
        exists [(STATE, j)], []. cbn [fad app]. rewrite D1.
        split; [reflexivity|]. split; [auto|]. split; [auto|].
        split; [split; [auto|intros NH; apply state_walk, WK; auto]|]. split; [auto|].
        split; [intros nm v PT; exfalso; eapply part_state; eauto|].
        assert (LX : x < length (u_heap t4)) by (eapply hget_lt; eauto).
        assert (HX5 : hget (u_heap t5) x = Some (OInst i')) by (rewrite (a_heap _ _ _ _ _ _ _ _ _ _ _ _ A); auto).
        set (i2 := mkInst (i_cls i') (i_dict i') (i_slots i') (i_items i') (i_elems i') (i_fac i') (i_rec i') [st'] (i_pos i')).
        set (t6 := us_log (u_log t5 ++ [EvSetstate x st']) t5).
        set (t7 := us_heap (hset (u_heap t6) x (OInst i2)) t6).
        assert (A67 : adv (own x dc) none s3 t5 s3 t7).
        { apply adv_own; auto; [apply A| | |].
          - simpl. eapply evolve_set; eauto. simpl. auto.
          - intros y Hy Hn. simpl. apply hget_hset_other. intros ->. apply Hn. left; auto.
          - simpl. rewrite hset_length. auto. }
        assert (A47 : adv (own x dc) none s2 t4 s3 t7).
        { eapply adv_trans; [|apply adv_weaken; exact A|exact A67]. intros y [->|E]; auto. apply HQ in E. eapply hget_lt; eauto. }
        exists t7. split; [|split; [exact A47|split]].
        - unfold restore_object_instance_variables. rewrite (bind_eq _ _ t4 tt t4).
          2: { apply (rfd_around x data4 [] [(STATE, j)] t4 t4 (head_reserved _ KD)); auto. intros y [<-|[]]. reflexivity. }
          rewrite D6, D7. rewrite (bind_eq _ _ t4 tt t4) by reflexivity. unfold restore_state, jfield. rewrite D7.
          rewrite (bind_eq _ _ _ _ _ R). rewrite (bind_eq _ _ t5 (u_heap t5) t5) by reflexivity. cbn [u_inst]. rewrite HX5.
          change (i_cls i') with ci. rewrite SS. rewrite (bind_eq _ _ t5 tt t7); [reflexivity|].
          unfold call_setstate. rewrite (bind_eq _ _ t5 tt t6) by reflexivity. rewrite (bind_eq _ _ t6 (u_heap t6) t6) by reflexivity.
          change (i_cls i') with ci. rewrite WS. reflexivity.
        - intros f. unfold inst_factory. cbn [u_inst]. 
          assert (HX7 : hget (u_heap t7) x = Some (OInst i2)) by (simpl; apply hget_hset_same; eapply hget_lt; eauto).
          rewrite HX7. change (i_cls i2) with ci. rewrite DF. unfold inst_attr. cbn [i2 i' new_inst i_slots i_dict sget].
          destruct dc as [q|] eqn:EDC; [|discriminate]. destruct (cell_dcell _ _ _ EDC) as [NXQ LQ]. specialize (HQ q eq_refl).
          assert (HQ7 : hget (u_heap t7) q = Some (ODict [])).
          { simpl. rewrite hget_hset_other by auto. rewrite (a_heap _ _ _ _ _ _ _ _ _ _ _ _ A); auto. eapply hget_lt; eauto. }
          rewrite HQ7. discriminate.
        - eapply (om_inst w k keys h _ _ _ _ l x i i2); eauto; [pose proof (cell_ge ci b1); unfold x; lia|simpl; apply hget_hset_same; eapply hget_lt; eauto|].
          eapply im_state; eauto.
          + eapply made_adv; [exact A47|]. exact MM.
          + reflexivity.
          + eapply vmatch_adv; [exact A67|exact M].
      Qed.

      Lemma vals_run x q i' its : forall its' acc s t, Inv s t -> x <> q -> jattr x q i' acc s t ->
        c_kind (cls (i_cls i')) <> KDict -> i_dict i' = Some q -> Forall2 (pm s t) its its' ->
        (forall kv, In kv its -> exists a, fst kv = VStr a /\ attr_ok keys (cls (i_cls i')) a = true /\ slot_named (cls (i_cls i')) a = false) ->
        kdistinct (map fst (acc ++ its)) = true ->
        exists t3, restore_from_vals w uo its' (VLoc x) t = (Ret tt, t3) /\ adv (own x (Some q)) none s t s t3 /\
                   jattr x q i' (acc ++ its) s t3.
      Proof.
        induction its as [|[qk v] its IHi]; intros its' acc s t I NXQ J NK ID F AO KDi.
        - destruct its'; [|inversion F]. exists t. split; [reflexivity|]. split; [apply adv_refl; auto|]. rewrite app_nil_r. auto.
        - destruct its' as [|[k' v'] r']; [inversion F|].
          assert (F2 : Forall2 (pm s t) its r') by (inversion F; auto).
          assert (E12 : pm s t (qk, v) (k', v')) by (inversion F; auto). destruct E12 as [E1 E2]. cbn [fst snd] in E1, E2.
          destruct (AO _ (or_introl eq_refl)) as (a & E & A1 & A2). cbn [fst] in E. rewrite E in *. clear E. apply vm_str in E1. subst k'.
          destruct (attr_step x q i' a v v' acc its s t) as (t3 & R & A & J3); auto.
          destruct (IHi r' (acc ++ [(VStr a, v)]) s t3) as (t4 & R4 & A4 & J4); auto.
          + apply A.
          + eapply pmatches_adv; [exact A|exact F2].
          + intros kv Hk. apply AO. right; auto.
          + rewrite <- app_assoc. exact KDi.
          + exists t4. split; [|split].
            * unfold restore_from_vals. cbn [foldM fst snd]. rewrite (bind_eq _ _ _ _ _ R). exact R4.
            * eapply adv_trans; [|exact A|exact A4]. destruct J as (HX & d' & HQ & _).
              intros y [->|Ey]; [|injection Ey as <-]; eapply hget_lt; eauto.
            * rewrite <- app_assoc in J4. exact J4.
      Qed.

      Lemma contents_dstate sd a n0 b0 : all = cs ++ [VLoc sd] -> c_kind c = KPlain ->
        own_state w k h c l (VLoc sd) -> c_setstate c = false -> c_dict c = true ->
        hget h sd = Some (ODict a) -> attrs_ok keys c a = true -> c_deffac c = false ->
        contents w k keys cl h bs po uo n m l i args kw all None false n0 b0.
      Proof.
        intros EALL KP OS SS CD HSD AO DF data4 s2 t4 args' kw' b1 x dc KD Lb I HX HQ HE HD MM FR FIN.
        cbn [option_map olist app] in HX, MM. destruct (dcell_some ci b1 CD) as [q EQ]. subst x dc. rewrite EQ in *.
        set (x := cell ci b1) in *. destruct (cell_dcell _ _ _ EQ) as [NXQ LQ]. specialize (HQ q eq_refl). fold x in NXQ.
        assert (IN : In (VLoc sd) all) by (rewrite EALL; apply in_or_app; right; left; auto).
        assert (CE : c_exclude c = []).
        { destruct OS as (_ & _ & _ & [E|E]); auto. exfalso. eapply E; eauto. }
        set (i' := new_inst ci (Some q) None args' kw') in *.
        apply (wp_eq _ _ _ _ (body_state data4 (VLoc sd) s2 (i_heap _ _ _ _ _ I) OS)). apply wp_bind. eapply wp_mono.
        { apply (IH (VLoc sd) s2 t4); auto; [apply part_supported; auto|]. apply FR; auto. apply adv_refl; auto. }
        intros j s3 _ (W & [_ WK] & st' & t5 & R & A & M). apply wp_ret.
        destruct (state_doc data4 j KD W) as (D1 & D2 & D3 & D4 & D5 & D6 & D7).
        exists [(STATE, j)], []. cbn [fad app]. rewrite D1.
        split; [reflexivity|]. split; [auto|]. split; [auto|].
        split; [split; [auto|intros NH; apply state_walk, WK; auto]|]. split; [auto|].
        split; [intros nm v PT; exfalso; eapply part_state; eauto|].
        assert (LX : x < length (u_heap t4)) by (eapply hget_lt; eauto).
        assert (LQ4 : q < length (u_heap t4)) by (eapply hget_lt; eauto).
        assert (HX5 : hget (u_heap t5) x = Some (OInst i')) by (rewrite (a_heap _ _ _ _ _ _ _ _ _ _ _ _ A); auto).
        assert (HQ5 : hget (u_heap t5) q = Some (ODict [])) by (rewrite (a_heap _ _ _ _ _ _ _ _ _ _ _ _ A); auto).
        assert (AOK : forall kv, In kv a -> exists nm, fst kv = VStr nm /\ attr_ok keys c nm = true /\ slot_named c nm = false).
        { intros kv Hk. apply (attrs_ok_kept a kv AO). unfold kept_attrs. apply filter_In. split; auto. destruct (fst kv); auto.
          unfold kept. rewrite CE. reflexivity. }
        assert (DI : kdistinct (map fst a) = true) by (unfold attrs_ok in AO; apply andb_true_iff in AO; tauto).
        assert (SF : dict_order keys a = a).
        { apply dict_order_all. intros kv Hk. destruct (AOK kv Hk) as (nm & -> & A1 & _). apply attr_ok_split in A1 as (A1 & _). apply name_plain in A1. tauto. }
        assert (MD : exists sd' d', st' = VLoc sd' /\ hget (u_heap t5) sd' = Some (ODict d') /\ Forall2 (pm s3 t5) a d').
        { inversion M as [? C|?|? ? ? ? C|? ? ? C|? sd' RR E1]; try discriminate; try congruence.
          exists sd'. assert (OM : omatch w k keys h (u_heap t5) 0 bs (rel s3 t5) sd sd').
          { apply (FIN sd sd' s3 t5); auto; [apply adv_weaken; exact A|]. destruct (supported_node _ _ _ _ _ _ SU) as [_ EA]. apply EA.
            eapply ea_state; eauto. }
          inversion OM as [? ? C|d0 d' C _ HD' FF|? ? C]; try congruence. exists d'. split; auto. split; auto.
          rewrite HSD in C. injection C as <-. rewrite SF in FF. exact FF. }
        destruct MD as (sd' & d' & -> & HSD' & FF).
        destruct (vals_run x q i' a d' [] s3 t5) as (t6 & R6 & A6 & (HX6 & d6 & HQ6 & F6)); auto.
        { apply A. }
        { split; auto. exists []. split; auto. }
        { change (c_kind c <> KDict). congruence. }
        assert (A46 : adv (own x (Some q)) none s2 t4 s3 t6).
        { eapply adv_trans; [|apply adv_weaken; exact A|exact A6]. intros y [->|E]; auto. injection E as <-. auto. }
        exists t6. split; [|split; [exact A46|split]].
        - unfold restore_object_instance_variables. rewrite (bind_eq _ _ t4 tt t4).
          2: { apply (rfd_around x data4 [] [(STATE, j)] t4 t4 (head_reserved _ KD)); auto. intros y [<-|[]]. reflexivity. }
          rewrite D6, D7. rewrite (bind_eq _ _ t4 tt t4) by reflexivity. unfold restore_state, jfield. rewrite D7.
          rewrite (bind_eq _ _ _ _ _ R). rewrite (bind_eq _ _ t5 (u_heap t5) t5) by reflexivity. cbn [u_inst]. rewrite HX5.
          change (i_cls i') with ci. rewrite SS. unfold default_state. rewrite (bind_eq _ _ t5 (u_heap t5) t5) by reflexivity. cbn [as_dict]. rewrite HSD'.
          rewrite (bind_eq _ _ t5 tt t6); [reflexivity|]. exact R6.
        - intros f. unfold inst_factory. cbn [u_inst]. rewrite HX6. change (i_cls i') with ci. rewrite DF.
          unfold inst_attr. cbn [i' new_inst i_slots i_dict sget]. rewrite HQ6. intros Hf.
          pose proof (dget_match s3 t6 (u "default_factory") _ _ F6) as MF. rewrite Hf in MF.
          destruct (dget (VStr (u "default_factory")) ([] ++ a)) as [v|]; [|destruct MF]. eapply vmatch_not_proxy; exact MF.
        - eapply (om_inst w k keys h _ _ _ _ l x i i'); eauto; [pose proof (cell_ge ci b1); unfold x; lia|].
          eapply im_dstate; eauto.
          + eapply made_adv; [exact A46|]. exact MM.
          + intros d0 E0. cbn in E0. injection E0 as <-. lia.
          + intros nm. unfold inst_attr. cbn [i' new_inst i_slots i_dict sget]. rewrite HQ6. apply dget_match. exact F6.
          + exists q. eexists. split; [reflexivity|]. split; [exact HQ6|exact F6].
      Qed.

      Lemma slotvals_run x i0 its : forall its' acc s t, Inv s t -> jslot x i0 acc s t -> c_kind (cls (i_cls i0)) <> KDict ->
        i_cls i0 = i_cls i -> Forall2 (pm s t) its its' ->
        (forall kv, In kv its -> exists a, fst kv = VStr a /\ attr_ok keys c a = true /\ slot_named c a = true) ->
        kdistinct (map fst (map stored (acc ++ its))) = true ->
        exists t3, restore_from_vals w uo its' (VLoc x) t = (Ret tt, t3) /\ adv (own x None) none s t s t3 /\
                   jslot x i0 (acc ++ its) s t3.
      Proof.
        induction its as [|[qk v] its IHi]; intros its' acc s t I J NK EC F AO KDi.
        - destruct its'; [|inversion F]. exists t. split; [reflexivity|]. split; [apply adv_refl; auto|]. rewrite app_nil_r. auto.
        - destruct its' as [|[k' v'] r']; [inversion F|].
          assert (F2 : Forall2 (pm s t) its r') by (inversion F; auto).
          assert (E12 : pm s t (qk, v) (k', v')) by (inversion F; auto). destruct E12 as [E1 E2]. cbn [fst snd] in E1, E2.
          destruct (AO _ (or_introl eq_refl)) as (a & E & A1 & A2). cbn [fst] in E. rewrite E in *. clear E. apply vm_str in E1. subst k'.
          destruct (attr_ok_split _ _ _ A1) as (_ & DU & _).
          assert (EM : mangle c a = a) by (unfold mangle; rewrite DU; reflexivity).
          destruct (slot_step x i0 a v v' acc its s t) as (t3 & R & A & J3); auto.
          + unfold slot_ok. rewrite DU. exact A1.
          + rewrite EM. exact A2.
          + destruct (IHi r' (acc ++ [(VStr a, v)]) s t3) as (t4 & R4 & A4 & J4); auto.
            * apply A.
            * eapply pmatches_adv; [exact A|exact F2].
            * intros kv Hk. apply AO. right; auto.
            * rewrite <- app_assoc. exact KDi.
            * exists t4. split; [|split].
              -- unfold restore_from_vals. cbn [foldM fst snd]. rewrite (bind_eq _ _ _ _ _ R). exact R4.
              -- eapply adv_trans; [|exact A|exact A4]. destruct J as (sl' & HX & _).
                 intros y [->|Ey]; [|discriminate]; eapply hget_lt; eauto.
              -- rewrite <- app_assoc in J4. exact J4.
      Qed.

      (** The decoded dict of a state. *)
      Lemma state_dict_read x dc s2 t4 s3 t5 st sd a st' :
        (forall y y' s' t', adv (own x dc) none s2 t4 s' t' -> ~ reach (VLoc y) (VLoc l) -> rel s' t' y y' ->
           omatch w k keys h (u_heap t') 0 bs (rel s' t') y y') ->
        adv (own x dc) none s2 t4 s3 t5 -> own_state w k h c l st -> c_setstate c = false -> reach st (VLoc sd) ->
        hget h sd = Some (ODict a) -> (forall kv, In kv a -> exists nm, fst kv = VStr nm /\ attr_ok keys c nm = true) ->
        vm s3 t5 (VLoc sd) st' ->
        exists sd' d', st' = VLoc sd' /\ hget (u_heap t5) sd' = Some (ODict d') /\ Forall2 (pm s3 t5) a d'.
      Proof.
        intros FIN A OS SS RS HSD AOK M.
        assert (SF : dict_order keys a = a).
        { apply dict_order_all. intros kv Hk. destruct (AOK kv Hk) as (nm & -> & A1). apply attr_ok_split in A1 as (A1 & _). apply name_plain in A1. tauto. }
        inversion M as [? C|?|? ? ? ? C|? ? ? C|? sd' RR E1]; try discriminate; try congruence.
        exists sd'. assert (OM : omatch w k keys h (u_heap t5) 0 bs (rel s3 t5) sd sd').
        { apply (FIN sd sd' s3 t5); auto. intros RL. destruct (supported_node _ _ _ _ _ _ SU) as [_ EA].
          apply (EA st); [eapply ea_state; eauto|]. clear - RS RL. induction RS as [|? ? ? SB _ IHr]; auto. eapply reach_step; eauto. }
        inversion OM as [? ? C|d0 d' C _ HD' FF|? ? C]; try congruence. exists d'. split; auto. split; auto.
        rewrite HSD in C. injection C as <-. rewrite SF in FF. exact FF.
      Qed.

      Lemma contents_pstate xa sb b n0 b0 : all = cs ++ [VTuple [xa; VLoc sb]] -> c_kind c = KPlain ->
        own_state w k h c l (VTuple [xa; VLoc sb]) -> c_setstate c = false ->
        pair_state keys h c xa sb b -> c_deffac c = false ->
        contents w k keys cl h bs po uo n m l i args kw all None false n0 b0.
      Proof.
        intros EALL KP OS SS (HSB & BO & a & SA & AX & AO) DF data4 s2 t4 args' kw' b1 x dc KD Lb I HX HQ HE HD MM FR FIN.
        cbn [option_map olist app] in HX, MM.
        set (st := VTuple [xa; VLoc sb]) in *.
        assert (IN : In st all) by (rewrite EALL; apply in_or_app; right; left; auto).
        assert (QX : forall q, dc = Some q -> x <> q /\ b1 <= q) by (intros q E; apply cell_dcell; exact E).
        set (i' := new_inst ci dc None args' kw') in *.
        apply (wp_eq _ _ _ _ (body_state data4 st s2 (i_heap _ _ _ _ _ I) OS)). apply wp_bind. eapply wp_mono.
        { apply (IH st s2 t4); auto; [apply part_supported; auto|]. apply FR; auto. apply adv_refl; auto. }
        intros j s3 _ (W & [_ WK] & st' & t5 & R & A & M). apply wp_ret.
        destruct (state_doc data4 j KD W) as (D1 & D2 & D3 & D4 & D5 & D6 & D7).
        exists [(STATE, j)], []. cbn [fad app]. rewrite D1.
        split; [reflexivity|]. split; [auto|]. split; [auto|].
        split; [split; [auto|intros NH; apply state_walk, WK; auto]|]. split; [auto|].
        split; [intros nm v PT; exfalso; eapply part_state; eauto|].
        assert (LX : x < length (u_heap t4)) by (eapply hget_lt; eauto).
        assert (HX5 : hget (u_heap t5) x = Some (OInst i')) by (rewrite (a_heap _ _ _ _ _ _ _ _ _ _ _ _ A); auto).
        assert (HQ5 : forall q, dc = Some q -> hget (u_heap t5) q = Some (ODict [])).
        { intros q E. rewrite (a_heap _ _ _ _ _ _ _ _ _ _ _ _ A); auto. eapply hget_lt; eauto. }
        unfold names_in in AO, BO. apply andb_true_iff in AO as [AO DA]. apply andb_true_iff in BO as [BO DB].
        assert (BOK : forall kv, In kv b -> exists nm, fst kv = VStr nm /\ attr_ok keys c nm = true /\ slot_named c nm = true).
        { intros kv Hk. rewrite forallb_forall in BO. specialize (BO kv Hk). destruct (fst kv); try discriminate.
          apply andb_true_iff in BO as []. eauto. }
        assert (ES : map stored b = b).
        { clear - BOK. induction b as [|[qk v] r IHr]; auto. cbn [map]. rewrite IHr by (intros; apply BOK; right; auto). f_equal.
          destruct (BOK _ (or_introl eq_refl)) as (nm & E & A1 & _). cbn [fst] in E. subst qk. unfold stored. cbn [fst snd].
          destruct (attr_ok_split _ _ _ A1) as (_ & DU & _). unfold mangle. rewrite DU. reflexivity. }
        assert (A' : adv (own x dc) none s2 t4 s3 t5) by (apply adv_weaken; exact A).
        assert (MT : exists xa' xb', st' = VTuple [xa'; xb'] /\ vm s3 t5 xa xa' /\ vm s3 t5 (VLoc sb) xb').
        { unfold st in M. inversion M as [? C|? ys F E1 E2|? ? ? ? C|? ? ? C|]; subst.
          - discriminate C.
          - inversion F as [|? xa' ? r Ma F2]; subst. inversion F2 as [|? xb' ? r2 Mb F3]; subst. inversion F3; subst. eauto. }
        destruct MT as (xa' & xb' & -> & Ma & Mb).
        destruct (state_dict_read x dc s2 t4 s3 t5 st sb b xb' FIN A' OS SS) as (sb' & db & -> & HSB' & FB); auto.
        { eapply reach_step; [apply sub_tuple; right; left; reflexivity|apply reach_refl]. }
        { intros kv Hk. destruct (BOK kv Hk) as (nm & ? & ? & _). eauto. }
        destruct (slotvals_run x i' b db [] s3 t5) as (t6 & R6 & A6 & (sl' & HX6 & F6)); auto.
        { apply A. }
        { exists []. split; [exact HX5|constructor]. }
        { change (c_kind c <> KDict). congruence. }
        { cbn [app]. rewrite ES. exact DB. }
        cbn [app] in F6. rewrite ES in F6.
        assert (HQ6 : forall q, dc = Some q -> hget (u_heap t6) q = Some (ODict [])).
        { intros q E. rewrite (a_heap _ _ _ _ _ _ _ _ _ _ _ _ A6); auto; [eapply hget_lt; eauto|].
          intros [C|C]; [|discriminate]. destruct (QX q E). congruence. }
        assert (A6' : adv (own x dc) none s3 t5 s3 t6) by (eapply adv_mono; [|exact A6]; intros y [->|C]; [left; auto|discriminate]).
        assert (A46 : adv (own x dc) none s2 t4 s3 t6).
        { eapply adv_trans; [|exact A'|exact A6']. intros y [->|E]; auto. apply HQ in E. eapply hget_lt; eauto. }
        set (i2 := wslots i' sl') in *.
        assert (FIN2 : exists t7, (match as_dict w (u_heap t5) xa' with Some da => restore_from_vals w uo da (VLoc x) ;;; ret (VLoc x) | None => ret (VLoc x) end) t6 = (Ret (VLoc x), t7) /\
          adv (own x dc) none s2 t4 s3 t7 /\ adv (own x dc) none s3 t6 s3 t7 /\ hget (u_heap t7) x = Some (OInst i2) /\
          match dc with Some q => exists d7, hget (u_heap t7) q = Some (ODict d7) /\ Forall2 (pm s3 t7) a d7 | None => a = [] end).
        { destruct SA as [[-> ->]|(sa & -> & HSA)].
          - assert (xa' = VNone) by (inversion Ma; auto). subst xa'. exists t6. split; [reflexivity|]. split; [exact A46|].
            split; [apply adv_refl; apply A6|]. split; [exact HX6|]. destruct dc as [q|]; auto. exists []. split; auto.
          - assert (CD : c_dict c = true) by (apply AX; discriminate). destruct (dcell_some ci b1 CD) as [q EQ]. fold dc in EQ. rewrite EQ in *.
            destruct (QX q eq_refl) as [NXQ LQ].
            assert (CEX : forall kv, In kv a -> exists nm, fst kv = VStr nm /\ attr_ok keys c nm = true /\ slot_named c nm = false).
            { intros kv Hk. rewrite forallb_forall in AO. specialize (AO kv Hk). destruct (fst kv); try discriminate.
              apply andb_true_iff in AO as [X Y]. apply negb_true_iff in Y. eauto. }
            destruct (state_dict_read x (Some q) s2 t4 s3 t5 st sa a xa' FIN A' OS SS) as (sa' & da & -> & HSA' & FA); auto.
            { eapply reach_step; [apply sub_tuple; left; reflexivity|apply reach_refl]. }
            { intros kv Hk. destruct (CEX kv Hk) as (nm & ? & ? & _). eauto. }
            cbn [as_dict]. rewrite HSA'.
            destruct (vals_run x q i2 a da [] s3 t6) as (t7 & R7 & A7 & (HX7 & d7 & HQ7 & F7)); auto.
            { apply A6. }
            { split; auto. exists []. split; auto. }
            { change (c_kind c <> KDict). congruence. }
            { eapply pmatches_adv; [exact A6|exact FA]. }
            exists t7. split; [rewrite (bind_eq _ _ t6 tt t7); [reflexivity|exact R7]|].
            split; [eapply adv_trans; [|exact A46|exact A7]; intros y [->|E]; auto; apply HQ in E; eapply hget_lt; eauto|].
            split; [exact A7|]. split; [exact HX7|]. exists d7. auto. }
        destruct FIN2 as (t7 & R7 & A47 & A67 & HX7 & DQ).
        assert (FB7 : Forall2 (pm s3 t7) b (as_keys sl')) by (eapply pmatches_adv; [exact A67|exact F6]).
        assert (ATT : forall nm, omatch_opt h (u_heap t7) bs (rel s3 t7) (match dget (VStr nm) b with Some v => Some v | None => dget (VStr nm) a end) (inst_attr (u_heap t7) i2 nm)).
        { intros nm. unfold inst_attr. cbn [i2 wslots i_slots i_dict]. rewrite <- as_keys_get.
          pose proof (dget_match s3 t7 nm _ _ FB7) as MB. destruct (dget (VStr nm) b) as [v|], (dget (VStr nm) (as_keys sl')) as [v'|]; try (exfalso; exact MB); [exact MB|].
          cbn [i' new_inst i_dict]. destruct dc as [q|].
          - destruct DQ as (d7 & -> & F7). apply dget_match. exact F7.
          - subst a. exact Logic.I. }
        exists t7. split; [|split; [exact A47|split]].
        - unfold restore_object_instance_variables. rewrite (bind_eq _ _ t4 tt t4).
          2: { apply (rfd_around x data4 [] [(STATE, j)] t4 t4 (head_reserved _ KD)); auto. intros y [<-|[]]. reflexivity. }
          rewrite D6, D7. rewrite (bind_eq _ _ t4 tt t4) by reflexivity. unfold restore_state, jfield. rewrite D7.
          rewrite (bind_eq _ _ _ _ _ R). rewrite (bind_eq _ _ t5 (u_heap t5) t5) by reflexivity. cbn [u_inst]. rewrite HX5.
          change (i_cls i') with ci. rewrite SS. unfold default_state. rewrite (bind_eq _ _ t5 (u_heap t5) t5) by reflexivity. cbn [as_dict as_pair]. rewrite HSB'.
          rewrite (bind_eq _ _ t5 tt t6); [|exact R6]. exact R7.
        - intros f. unfold inst_factory. cbn [u_inst]. rewrite HX7. change (i_cls i2) with ci. rewrite DF.
          intros Hf. pose proof (ATT (u "default_factory")) as MF. rewrite Hf in MF.
          destruct (match dget (VStr (u "default_factory")) b with Some v => Some v | None => dget (VStr (u "default_factory")) a end) as [v|]; [|destruct MF].
          eapply vmatch_not_proxy; exact MF.
        - eapply (om_inst w k keys h _ _ _ _ l x i i2); eauto; [pose proof (cell_ge ci b1); unfold x; lia|].
          eapply im_pstate; eauto.
          + eapply made_adv; [exact A47|]. exact MM.
          + intros d0 E0. cbn in E0. destruct (QX d0 E0). lia.
          + intros NN. assert (CD : c_dict c = true) by auto. destruct (dcell_some ci b1 CD) as [q EQ]. fold dc in EQ.
            assert (EI : i_dict i2 = Some q) by exact EQ. rewrite EQ in DQ. destruct DQ as (d7 & HQ7 & F7).
            exists q, d7. split; [exact EI|]. split; [exact HQ7|exact F7].
      Qed.

      (** ** Dict subclasses *)
      Definition set_items (i0 : inst) (its : list (val * val)) : inst :=
        mkInst (i_cls i0) (i_dict i0) (i_slots i0) its (i_elems i0) (i_fac i0) (i_rec i0) (i_state i0) (i_pos i0).
      Definition set_idict (i0 : inst) (d : loc) : inst :=
        mkInst (i_cls i0) (Some d) (i_slots i0) (i_items i0) (i_elems i0) (i_fac i0) (i_rec i0) (i_state i0) (i_pos i0).
      Definition jitems (x : loc) (i0 : inst) (acc : list (val * val)) (s : pst) (t : ust) : Prop :=
        exists its', hget (u_heap t) x = Some (OInst (set_items i0 its')) /\ Forall2 (pm s t) acc its'.
      Lemma item_step x i0 q q' v v' acc rest s t : Inv s t -> jitems x i0 acc s t -> c_kind (cls (i_cls i0)) = KDict ->
        (forall kv, In kv (acc ++ (q, v) :: rest) -> key_ok (fst kv) = true) -> (forall a, q = VStr a -> a <> u "__dict__") ->
        kdistinct (map fst (acc ++ (q, v) :: rest)) = true -> vm s t q q' -> vm s t v v' ->
        exists t3, set_one w uo (VLoc x) q' v' t = (Ret tt, t3) /\ adv (eq x) none s t s t3 /\ jitems x i0 (acc ++ [(q, v)]) s t3.
      Proof.
        intros I (its' & HX & F) KK HK ND HDi MQ M. pose proof (vmatch_not_proxy _ _ _ _ _ _ M) as NP.
        pose proof (hget_lt _ _ _ HX) as LX.
        assert (HQ : hashable cls h q = true) by (apply (key_ok_hash w keys h), (HK (q, v)); apply in_or_app; right; left; auto).
        assert (HH : hashable cls (u_heap t) q' = true) by (eapply hash_match; eauto).
        rewrite map_app in HDi. simpl in HDi. apply kdistinct_split in HDi as (HDi & _ & _).
        assert (HD' : existsb (key_eqb q') (map fst its') = false).
        { eapply existsb_key_Forall2; [eapply pmatch_keys; exact F| |exact HDi].
          intros y y' Hy My. apply in_map_iff in Hy as (kv & <- & Hkv).
          apply (key_eqb_match w cl h bs s t bs); auto. apply (key_ok_hash w keys h), HK. apply in_or_app; auto. }
        set (t3 := uset x (OInst (set_items i0 (its' ++ [(q', v')]))) t).
        assert (A3 : adv (eq x) none s t s t3).
        { apply adv_own; auto.
          - simpl. eapply evolve_set; eauto. simpl. auto.
          - intros y Hy Hn. simpl. rewrite hget_hset_other by auto. auto.
          - simpl. rewrite hset_length. auto. }
        exists t3. split; [|split; auto].
        - unfold set_one. rewrite (bind_eq _ _ t (u_heap t) t) by reflexivity. cbn [u_inst]. rewrite HX.
          change (i_cls (set_items i0 its')) with (i_cls i0). rewrite KK.
          assert (X : (inst_setitem w x (set_items i0 its') q' v' ;;; ret true) t = (Ret true, t3)).
          { unfold inst_setitem. rewrite bind_assoc. rewrite (bind_eq _ _ t (u_heap t) t) by reflexivity. rewrite HH.
            change (i_items (set_items i0 its')) with its'. rewrite dset_snoc by auto. reflexivity. }
          rewrite (bind_eq _ _ t true t3).
          + unfold swap_if_proxy. rewrite NP. reflexivity.
          + assert (NDq : forall a, q' = VStr a -> a <> u "__dict__").
            { intros a ->. inversion MQ; subst. eapply ND; eauto. }
            destruct q' as [| | | |s0| | | | | | | | |]; try exact X. destruct (seqb_spec s0 (u "__dict__")) as [E|E]; [|exact X]. exfalso. eapply NDq; eauto.
        - exists (its' ++ [(q', v')]). split; [simpl; apply hget_hset_same; auto|]. apply Forall2_app.
          + eapply pmatches_adv; [exact A3 | exact F].
          + constructor; [|constructor]. split; cbn [fst snd]; (eapply vmatch_adv; [exact A3 | assumption]).
      Qed.
      Lemma rfd_key x jq q' j t1 t1' v' t2 : keys = true -> jwf jq = true ->
        rs jq t1 = (Ret q', t1') -> rs j t1' = (Ret v', t2) ->
        rfd m x tt (JSON_KEY ++ dumps jq, j) t1 = set_one w uo (VLoc x) q' v' t2.
      Proof.
        intros EK WK RK R. unfold rfd. cbn [fst snd].
        rewrite json_key_not_reserved. unfold restore_key. rewrite Uk, EK. unfold restore_pickled_key.
        rewrite json_key_prefix, json_key_skip, loads_dumps by auto.
        rewrite (bind_eq _ _ _ _ _ RK), (bind_eq _ _ _ _ _ R). reflexivity.
      Qed.
      Lemma rfd_skey x a j t v' t2 : skey_ok keys a = true -> escaped keys a = false -> rs j t = (Ret v', t2) ->
        rfd m x tt (a, j) t = set_one w uo (VLoc x) (VStr a) v' t2.
      Proof.
        intros KO N R.
        assert (KN : kname [] (VStr a) a) by (unfold RTDesc.kname, plain_key; cbn [is_str is_escaped]; rewrite N; reflexivity).
        destruct (kname_tags w k keys cl h po [] (VStr a) a KO KN) as (NR & _).
        unfold rfd. cbn [fst snd]. rewrite NR. rewrite (bind_eq _ _ t (VStr a) t).
        - rewrite (bind_eq _ _ _ _ _ R). reflexivity.
        - unfold restore_key. rewrite Uk. destruct (Bool.bool_dec keys true) as [E|E]; [|apply not_true_is_false in E]; rewrite E; auto.
          unfold restore_pickled_key. destruct (plain_not_json keys a N E) as [NJ _]. rewrite NJ. reflexivity.
      Qed.
      Lemma kname_avoids objs q s0 x : prefixb JSON_KEY s0 = false -> (forall a, q = VStr a -> a <> s0) -> kname objs q x -> x <> s0.
      Proof.
        intros NP NS N E. subst x. unfold RTDesc.kname in N. destruct (plain_key keys q).
        - eapply NS; eauto.
        - destruct N as (j & -> & _). rewrite json_key_prefix in NP. discriminate.
      Qed.

      Lemma dget_noprox d q v : noprox d -> dget q d = Some v -> is_proxy v = false.
      Proof.
        induction 1 as [|[a b] d P F IHd]; simpl; [discriminate|]. destruct (key_eqb q a); [intros E; injection E as <-; exact P|auto].
      Qed.

      Definition fac_class : option nat := match i_fac i with Some (VType f) => if c_deffac c then Some f else None | _ => None end.
      Lemma fac_class_args : olist (option_map VType fac_class) = factory_args w i.
      Proof. unfold fac_class, factory_args. destruct (c_deffac c); destruct (i_fac i) as [[]|]; auto. Qed.

      (** What the decoder finds as the dict of the new object. *)
      Lemma factory_doc data s : p_heap s = h -> factory_ok w h i -> ~ In (u "default_factory") (Json.keys data) ->
        flatten_factory w k po fl i data s = (Ret (data ++ fad w fac_class), s).
      Proof.
        intros HP FK ND. unfold flatten_factory. rewrite (bind_eq _ _ s (p_heap s) s) by reflexivity. rewrite HP.
        unfold factory_ok in FK. unfold factory_of, fac_class, fad. destruct (c_deffac c) eqn:DF.
        - destruct (i_fac i) as [[]|] eqn:EF; try tauto; try (rewrite app_nil_r; reflexivity).
          cbn [callable]. unfold shas. rewrite sget_notin by exact ND. unfold bind, ret. rewrite sset_app by auto. reflexivity.
        - rewrite FK. destruct (i_fac i) as [[]|]; rewrite app_nil_r; reflexivity.
      Qed.

      Lemma contents_dictsub m' n0 b0 : m = Datatypes.S m' -> PP n m' -> n <= m' ->
        all = cs ++ map fst (i_items i) ++ map snd (i_items i) ++ factory_args w i ++ (match i_dict i with Some d => [VLoc d] | None => [] end) ->
        c_kind c = KDict -> no_state w k h c l -> c_exclude c = [] -> dict_ok (i_items i) ->
        (forall kv s, In kv (i_items i) -> fst kv = VStr s -> s <> u "__dict__" /\ s <> u "default_factory") ->
        factory_ok w h i -> i_slots i = [] ->
        match i_dict i with
        | None => c_dict c = false
        | Some d => c_dict c = true /\ c_setattr c (u "__dict__") = SAOk /\
                    exists a, hget h d = Some (ODict a) /\ dict_ok a /\
                    (length a = length (i_items i) -> a = [] \/ k_eqdict k l = false)
        end ->
        contents w k keys cl h bs po uo n m l i args kw all fac_class false n0 b0.
      Proof.
        intros EM IH' Hnm' EALL KK NS CE DO NK FK SL DD data4 s2 t4 args' kw' b1 x dc KD Lb I HX HQ HE HD MM FR FIN.
        rewrite fac_class_args in HX, MM.
        set (fo := option_map VType fac_class) in *.
        set (i' := new_inst ci dc fo (factory_args w i ++ args') kw') in *.
        apply (wp_eq _ (by_kind l i data4)); [apply body_nostate; auto; apply I|]. unfold by_kind. rewrite KK.
        unfold flatten_dict_subclass. rewrite CE. apply wp_bind, wp_bind.
        set (its := i_items i) in *.
        assert (LX : x < length (u_heap t4)) by (eapply hget_lt; eauto).
        assert (LO : forall y, own x dc y -> y < length (u_heap t4)).
        { intros y [->|E]; auto. apply HQ in E. eapply hget_lt; eauto. }
        destruct (dict_ok_kapart w k keys h its (strings_first its) DO (strings_first_perm its) (strings_first_non its)) as (DK & HDD & DA).
        assert (KS : forall kv, In kv its -> is_str (fst kv) = false -> keys = true).
        { intros [q v] Hq T. apply (proj2 (strings_first_In _ _)) in Hq. apply DK in Hq. cbn [fst] in *.
          destruct q; try discriminate; cbn [SpecGraph.key_ok] in Hq; apply andb_true_iff in Hq; tauto. }
        assert (HALL : forall kv, In kv (strings_first its) -> key_ok (fst kv) = true /\ supported (fst kv) /\ supported (snd kv)).
        { intros kv Hkv. split; [apply DK; auto|]. apply (proj1 (strings_first_In _ _)) in Hkv.
          split; apply part_supported; rewrite EALL, !in_app_iff; [right; left|right; right; left]; apply in_map; auto. }
        assert (NDD : forall kv a, In kv (strings_first its) -> fst kv = VStr a -> a <> u "__dict__" /\ a <> u "default_factory").
        { intros kv a Hkv. apply (proj1 (strings_first_In _ _)) in Hkv. apply NK; auto. }
        apply (wp_eq _ (foldM (estep w k keys po n) (strings_first its) data4)).
        { rewrite (flatten_items_merge w k keys po Ok n its [] data4), items_nil; auto.
          intros EK kv Hkv. destruct (is_str (fst kv)) eqn:T; auto. apply KS in T; auto. congruence. }
        eapply wp_mono.
        { eapply (rt_items w k keys cl h bs po uo Oro Os Ok Uk n m IH (eq x) s2 t4 data4 (strings_first its) (rfd m x) (jitems x i')); eauto.
          - intros y <-. auto.
          - intros kv s' t' Hkv A. apply (proj1 (strings_first_In _ _)) in Hkv.
            split; [intros _|]; apply FR; try (eapply adv_mono; [|exact A]; intros y <-; left; auto).
            + rewrite EALL, !in_app_iff. right; left. apply in_map; auto.
            + rewrite EALL, !in_app_iff. right; right; left. apply in_map; auto.
          - apply head_reserved; auto.
          - intros acc s1 t1 s2' t2 (its' & HX1 & F1) I1 A L. exists its'. split; [rewrite (a_heap _ _ _ _ _ _ _ _ _ _ _ _ A); auto; lia|].
            eapply pmatches_adv; [exact A|exact F1].
          - intros a v j s1 t1 v' t2 acc rest EA NO R I1 A J M.
            assert (IA : In (VStr a, v) (strings_first its)) by (rewrite EA; apply in_or_app; right; left; auto).
            rewrite (rfd_skey x a j t1 v' t2); auto; [|apply (DK (VStr a, v) IA)].
            apply (item_step x i' (VStr a) (VStr a) v v' acc rest s1 t2); auto.
            + rewrite <- EA. auto.
            + intros a' E. injection E as <-. eapply (NDD (VStr a, v)); eauto.
            + rewrite <- EA. auto.
            + apply vm_atom. reflexivity.
          - intros qq v jq j s1 t1 q' v' t1' t2 acc rest EA T EK KO RK WK R I1 A J MQ M.
            assert (IA : In (qq, v) (strings_first its)) by (rewrite EA; apply in_or_app; right; left; auto).
            rewrite (rfd_key x jq q' j t1 t1' v' t2) by auto. apply (item_step x i' qq q' v v' acc rest s1 t2); auto.
            + rewrite <- EA. auto.
            + intros a' E. eapply (NDD (qq, v)); eauto.
            + rewrite <- EA. auto.
          - exists []. split; [exact HX | constructor]. }
        intros dt s3 _ (out & -> & IDO & NDO & [W WO] & t5 & R5 & A5 & (its' & HX5 & F5)).
        assert (WF : unhandled w h -> walkf keys (length (p_objs s2)) (out ++ fad w fac_class) (length (p_objs s3))).
        { intros NH. eapply walkf_app; [apply WO; auto|]. unfold fad. destruct fac_class as [f|]; [|apply walkf_nil].
          eapply walkf_value; [|intros _; reflexivity|apply walk_leaf; [left|]; reflexivity|apply walkf_nil].
          intros C. repeat (destruct C as [C|C]; [discriminate|]). destruct C. }
        assert (EN : Forall2 (fun kv o => kname (p_objs s3) (fst kv) (fst o)) (strings_first its) out).
        { eapply Forall2_impl; [|exact IDO]. intros kv o [X _]. exact X. }
        (* the names *)
        assert (NMS : forall y, In y (map fst out) -> is_reserved y = false /\ out_key y /\ y <> u "__dict__").
        { intros y Hy. destruct (kname_In w k keys cl h po _ _ _ _ EN Hy) as (kv & Hkv & N).
          destruct (kname_tags w k keys cl h po _ _ _ (DK kv Hkv) N) as (N1 & N2 & N3). split; auto.
          assert (NJ1 : y <> u "default_factory") by (eapply kname_avoids; [reflexivity| |exact N]; intros a E; eapply (NDD kv); eauto).
          assert (NJ2 : y <> u "__dict__") by (eapply kname_avoids; [reflexivity| |exact N]; intros a E; eapply (NDD kv); eauto).
          split; auto. split; [auto|]. split; auto. eapply (kname_ok w k keys cl h po); [apply (DK kv Hkv)|exact N]. }
        assert (NSEQ : ~ In SEQ (map fst out)) by (intros C; apply NMS in C as [C _]; discriminate).
        assert (NSTATE : ~ In STATE (map fst out)) by (intros C; apply NMS in C as [C _]; discriminate).
        apply wp_bind. apply (wp_eq _ (ret ((data4 ++ out) ++ fad w fac_class))).
        { apply factory_doc; auto; [apply A5|]. unfold Json.keys. rewrite map_app. intros C. apply in_app_or in C as [C|C].
          - apply KD, head_tags_ok in C. tauto.
          - apply NMS in C as (_ & (_ & C & _) & _). auto. }
        apply wp_ret.
        assert (A45 : adv (own x dc) none s2 t4 s3 t5) by (eapply adv_mono; [|exact A5]; intros y <-; left; auto).
        assert (RS : forall d2 t6, foldM (rfd m x) d2 tt t5 = (Ret tt, t6) -> sget SEQ d2 = None -> sget STATE d2 = None ->
          restore_object_instance_variables w uo rs (data4 ++ out ++ d2) (VLoc x) t4 = (Ret (VLoc x), t6)).
        { intros d2 t6 R6 N1 N2. unfold restore_object_instance_variables. rewrite (bind_eq _ _ t4 tt t6).
          2: { change (foldM (rfd m x) (data4 ++ out ++ d2) tt t4 = (Ret tt, t6)).
               rewrite foldM_app. rewrite (bind_eq _ _ t4 tt t4) by (apply rfd_skip; apply head_reserved; auto).
               rewrite foldM_app. rewrite (bind_eq _ _ _ _ _ R5). exact R6. }
          rewrite !sget_app, (head_sget data4 SEQ), (head_sget data4 STATE), (sget_notin SEQ out), (sget_notin STATE out), N1, N2 by auto. reflexivity. }
        assert (FACT : forall i2 t6, i_cls i2 = ci -> i_fac i2 = fo -> i_slots i2 = [] ->
          hget (u_heap t6) x = Some (OInst i2) ->
          (forall d2, i_dict i2 = Some d2 -> exists d', hget (u_heap t6) d2 = Some (ODict d') /\ noprox d') ->
          forall f, inst_factory w (u_heap t6) (VLoc x) = Some f -> is_proxy f = false).
        { intros i2 t6 E1 E2 E3 HX6 ND f. unfold inst_factory. cbn [u_inst]. rewrite HX6, E1. destruct (c_deffac c).
          - rewrite E2. unfold fo. destruct fac_class; simpl; [intros E; injection E as <-; reflexivity|discriminate].
          - unfold inst_attr. rewrite E3. cbn [sget]. destruct (i_dict i2) as [d2|]; [|discriminate].
            destruct (ND d2 eq_refl) as (d' & HD' & NP). rewrite HD'. apply dget_noprox; auto. }
        assert (FACM : c_deffac c = true -> match i_fac i with Some (VType f) => fo = Some (VType f) | _ => fo = None end).
        { intros E. unfold fo, fac_class. rewrite E. destruct (i_fac i) as [[]|]; reflexivity. }
        (* nothing more to store *)
        assert (NODICT : match i_dict i, dc with
                         | None, None => True
                         | Some d, Some d' => its = [] /\ hget h d = Some (ODict [])
                         | _, _ => False end ->
          wp (ret ((data4 ++ out) ++ fad w fac_class)) s3 (fun d s' => wp (ret (JObj d)) s' (fun j s3 => exists out1 out2, j = JObj (data4 ++ out1 ++ fad w fac_class ++ out2) /\
          (forall y, In y (map fst (out1 ++ out2)) -> out_key y) /\
          NoDup (map fst (out1 ++ out2)) /\ (forallb jwf (map snd (out1 ++ out2)) = true /\
            (unhandled w h -> walkf keys (length (p_objs s2)) (out1 ++ fad w fac_class ++ out2) (length (p_objs s3)))) /\
          shas SEQ (out1 ++ out2) = false /\
          (forall a v, part w k h l (FAttr a) v -> exists j, sget a (out1 ++ out2) = Some j /\ desc (p_objs s3) v j) /\
          exists t5, restore_object_instance_variables w uo rs (data4 ++ out1 ++ out2) (VLoc x) t4 = (Ret (VLoc x), t5) /\
            adv (own x dc) none s2 t4 s3 t5 /\
            (forall f, inst_factory w (u_heap t5) (VLoc x) = Some f -> is_proxy f = false) /\
            omatch w k keys h (u_heap t5) b0 bs (rel s3 t5) l x))).
        { intros CASE. apply wp_ret, wp_ret. exists out, []. rewrite !app_nil_r. split; [rewrite <- app_assoc; reflexivity|].
          split; [intros y Hy; apply NMS in Hy; tauto|]. split; [auto|]. split; [auto|].
          split; [unfold shas; rewrite sget_notin by auto; reflexivity|].
          split; [intros nm v PT; exfalso; eapply part_kind; [exact H| |exact PT]; congruence|].
          exists t5. split; [rewrite <- (app_nil_r out); apply RS; reflexivity|]. split; [exact A45|].
          assert (HQ5 : forall q, dc = Some q -> hget (u_heap t5) q = Some (ODict [])).
          { intros q Eq. rewrite (a_heap _ _ _ _ _ _ _ _ _ _ _ _ A5); auto. - apply LO. right; auto. - apply cell_dcell in Eq. intros E. apply (proj1 Eq). exact E. }
          split.
          - apply (FACT (set_items i' its') t5); auto. intros d2 E2. exists []. split; [apply HQ5; exact E2|constructor].
          - eapply (om_inst w k keys h _ _ _ _ l x i (set_items i' its')); eauto; [pose proof (cell_ge ci b1); unfold x; lia|].
            eapply im_dictsub; eauto.
            + eapply made_adv; [exact A45|]. exact MM.
            + change (i_dict (set_items i' its')) with dc. destruct (i_dict i) as [d|]; destruct dc as [q|] eqn:EDC; auto.
              right. split; [apply CASE|]. split; [apply CASE|]. split; [apply cell_dcell in EDC; lia|auto]. }
        destruct (i_dict i) as [d|] eqn:EDI.
        2: { apply NODICT. unfold dc, RTInst.dcell. rewrite DD. exact Logic.I. }
        destruct DD as (CD & SA & a & HDd & DOK & LEN). destruct (dcell_some ci b1 CD) as [q EQ]. fold dc in EQ.
        apply wp_bind. apply (wp_eq _ (ret (ODict a))); [eapply get_obj_run; eauto; apply A5|]. apply wp_ret. rewrite Ou. cbn [andb].
        assert (DIF : differs_from_dict k l its a = false /\ a = [] /\ its = [] \/ differs_from_dict k l its a = true).
        { unfold differs_from_dict. destruct its as [|p r] eqn:EI; destruct a as [|p2 r2] eqn:EA; auto; right; auto.
          destruct (Nat.eqb_spec (length (p :: r)) (length (p2 :: r2))) as [E|E]; auto.
          destruct LEN as [L|L]; [symmetry; exact E|discriminate|]. rewrite L. reflexivity. }
        destruct DIF as [(DF1 & DF2 & DF3)|DF1]; rewrite DF1; [apply NODICT; rewrite EQ; split; [exact DF3|rewrite <- DF2; exact HDd]|].
        assert (IND : In (VLoc d) all) by (rewrite EALL, !in_app_iff; right; right; right; right; left; auto).
        pose proof (part_supported _ IND) as SD.
        pose proof (a_inv _ _ _ _ _ _ _ _ _ _ _ _ A45) as I5.
        assert (F5d : front s3 t5 (VLoc d)) by (apply FR; auto).
        (* the document of the dict, however it is encoded *)
        assert (NEW : wp (is_new <- mkref po (VLoc d) ;;
                          if is_new then dd <- flatten_plain_dict w k po fl d [] [] ;;
                            ret (sset (u "__dict__") (JObj dd) ((data4 ++ out) ++ fad w fac_class))
                          else r <- getref (VLoc d) ;; ret (sset (u "__dict__") r ((data4 ++ out) ++ fad w fac_class))) s3
           (fun dt s4 => exists j, dt = sset (u "__dict__") j ((data4 ++ out) ++ fad w fac_class) /\ delivers m (VLoc d) s3 t5 j s4)).
        { apply wp_bind. destruct (mkref_cases po Ou Or (VLoc d) s3) as [(ix & E1 & E2)|(E1 & E2)].
          - apply (wp_eq _ (ret false)); [exact E2|]. apply wp_ret. apply wp_bind. rewrite EM.
            eapply wp_mono; [eapply deliver_ref; eauto|]. intros j s4 _ D. apply wp_ret. eauto.
          - apply (wp_eq _ (fun _ => (Ret true, openE (VLoc d) s3))); [exact E2|]. cbn [wp]. apply wp_bind. rewrite EM.
            eapply wp_mono; [eapply (rt_plain_dict w k keys cl h bs po uo Ou Or Od Oro Os Ok Uk Uv n m' IH' Hnm'); eauto|].
            intros dd s4 _ D. apply wp_ret. eauto. }
        eapply wp_mono; [exact NEW|]. intros dt s4 _ (j & -> & WJ & [_ WKJ] & v' & t6 & R6 & A6 & M6). apply wp_ret.
        assert (MV : exists d', v' = VLoc d' /\ rel s4 t6 d d' /\ exists a', hget (u_heap t6) d' = Some (ODict a') /\ noprox a').
        { inversion M6 as [? C|?|? ? ? ? C|? ? ? C|? d' RR E1]; try discriminate; try congruence.
          exists d'. split; auto. split; auto. pose proof (a_inv _ _ _ _ _ _ _ _ _ _ _ _ A6) as I6.
          pose proof (i_ent _ _ _ _ _ I6) as IE. destruct RR as (ix & RE & RD).
          destruct (Forall2_nth _ _ _ _ _ IE RE) as (y & RY & EN2). rewrite RD in RY. injection RY as <-. cbn [ent] in EN2.
          unfold RTBase.head_ok in EN2. rewrite HDd in EN2. destruct (hget (u_heap t6) d') as [[| |a'| | |]|]; try tauto. eauto. }
        destruct MV as (d' & -> & RD & a' & HD' & NP').
        assert (HX6 : hget (u_heap t6) x = Some (OInst (set_items i' its'))).
        { rewrite (a_heap _ _ _ _ _ _ _ _ _ _ _ _ A6); auto. eapply hget_lt; eauto. }
        set (i2 := set_idict (set_items i' its') d').
        set (t7 := us_heap (hset (u_heap t6) x (OInst i2)) t6).
        pose proof (hget_lt _ _ _ HX6) as LX6.
        assert (HX7 : hget (u_heap t7) x = Some (OInst i2)) by (simpl; apply hget_hset_same; auto).
        assert (A67 : adv (eq x) none s4 t6 s4 t7).
        { apply adv_own; auto; [apply A6| | |].
          - simpl. eapply evolve_set; eauto. simpl. split; auto. right. intros d2 E. injection E as <-. eauto.
          - intros y Hy Hn. simpl. apply hget_hset_other. auto.
          - simpl. rewrite hset_length. auto. }
        assert (A57 : adv (own x dc) none s3 t5 s4 t7).
        { eapply adv_trans; [|apply adv_weaken; exact A6|eapply adv_mono; [|exact A67]].
          - intros y Hy. apply LO in Hy. pose proof (a_len _ _ _ _ _ _ _ _ _ _ _ _ A45). lia.
          - intros y <-. left; auto. }
        assert (A47 : adv (own x dc) none s2 t4 s4 t7) by (eapply adv_trans; [exact LO|exact A45|exact A57]).
        assert (ND0 : ~ In (u "__dict__") (Json.keys ((data4 ++ out) ++ fad w fac_class))).
        { unfold Json.keys. rewrite !map_app. intros C. apply in_app_or in C as [C|C]; [apply in_app_or in C as [C|C]|].
          - apply head_reserved in C; auto. discriminate.
          - apply NMS in C. tauto.
          - unfold fad in C. destruct fac_class; [destruct C as [C|[]]; discriminate|destruct C]. }
        exists out, [(u "__dict__", j)]. split; [rewrite sset_app by exact ND0; rewrite <- !app_assoc; reflexivity|].
        split.
        { intros y Hy. rewrite map_app in Hy. apply in_app_or in Hy as [Hy|[<-|[]]]; [apply NMS in Hy; tauto|].
          split; [right; right; repeat split; reflexivity|]. split; [discriminate|reflexivity]. }
        split.
        { rewrite map_app. apply NoDup_app_intro; auto; [repeat constructor; intros []|]. intros y Hy [<-|[]]. apply NMS in Hy. tauto. }
        split.
        { split; [rewrite map_app, forallb_app, W; cbn [map snd forallb andb]; rewrite WJ; reflexivity|].
          intros NH. rewrite app_assoc. eapply walkf_app; [apply WF; auto|].
          eapply walkf_value; [|intros _; reflexivity|apply WKJ; auto|apply walkf_nil].
          intros C. repeat (destruct C as [C|C]; [discriminate|]). destruct C. }
        split; [unfold shas; rewrite sget_app, sget_notin by auto; reflexivity|].
        split; [intros nm v PT; exfalso; eapply part_kind; [exact H| |exact PT]; congruence|].
        exists t7. split; [|split; [exact A47|split]].
        - apply RS; auto. cbn [foldM].
          assert (X : rfd m x tt (u "__dict__", j) t5 = (Ret tt, t7)); [|rewrite (bind_eq _ _ _ _ _ X); reflexivity].
          rewrite (rfd_str x (u "__dict__") j t5 (VLoc d') t6); auto.
          2: { unfold name_ok. destruct (Bool.bool_dec keys true) as [E|E]; [|apply not_true_is_false in E]; rewrite E; reflexivity. }
          unfold set_one. rewrite (bind_eq _ _ t6 (u_heap t6) t6) by reflexivity. cbn [u_inst]. rewrite HX6.
          change (i_cls (set_items i' its')) with ci. rewrite KK. change (seqb (u "__dict__") (u "__dict__")) with true. cbv iota.
          rewrite (bind_eq _ _ t6 true t7); [reflexivity|].
          apply catch_ret. unfold set_attr. rewrite bind_assoc. rewrite (bind_eq _ _ t6 (u_heap t6) t6) by reflexivity.
          unfold inst_setattr. rewrite HX6. change (i_cls (set_items i' its')) with ci. rewrite SA.
          unfold inst_store. change (i_cls (set_items i' its')) with ci. change (seqb (u "__dict__") (u "__dict__")) with true. cbv iota. rewrite CD, HD'. reflexivity.
        - assert (HD7 : exists a7, hget (u_heap t7) d' = Some (ODict a7) /\ noprox a7).
          { exists a'. split; auto. simpl. rewrite hget_hset_other; auto. intros <-. congruence. }
          apply (FACT i2 t7); auto. intros d2 E2. cbn in E2. injection E2 as <-. exact HD7.
        - eapply (om_inst w k keys h _ _ _ _ l x i i2); eauto; [pose proof (cell_ge ci b1); unfold x; lia|].
          eapply im_dictsub; eauto.
          + eapply made_adv; [exact A47|]. exact MM.
          + change (i_items i2) with its'. eapply pmatches_adv; [exact A57|exact F5].
          + rewrite EDI. cbn. left. exact RD.
      Qed.
    End one.
  End level.
End shapes.
