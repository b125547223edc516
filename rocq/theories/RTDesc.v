(** Round trip, part 4: what can be told about the document of a value that serves as the key
    of a dict, and when the documents of two keys differ. *)
From Verif Require Import PyStr Tags Json JsonText JsonTextProofs B64 B85 Base Heap Registry LoadClass Pickler Unpickler SpecGraph.
From Verif Require Import CodecProofs PlainProofs WP RTBase RTStep RTPure.
Open Scope nat_scope.

Section desc.
  Variables (w : world) (k : hooks) (keys : bool) (cl : list (pystr * val)) (h : heap) (po : popts) (uo : uopts).
  Notation cls := (w_cls w).
  Notation supported := (supported w k keys cl h).
  Notation pdoc := (pdoc w po).
  Notation apart := (apart w k h).
  Notation part := (part w k h).
  Notation by_name := (by_name w k h).

  Definition fname (f : field) : pystr := match f with FAttr a => a | FArgs => NEWARGS end.
  Inductive desc (objs : list val) : val -> json -> Prop :=
  | de_pure v : pure v = true -> supported v -> desc objs v (pdoc v)
  | de_tuple xs js : Forall2 (desc objs) xs js -> desc objs (VTuple xs) (JObj [(TUPLE, JList js)])
  | de_ref l n : nth_error objs n = Some (VLoc l) -> desc objs (VLoc l) (JObj [(ID, JInt (Z.of_nat n))])
  | de_new l dd : (forall c, by_name l c -> sget OBJECT dd = Some (JStr (importable_name (cls c)))) ->
      (forall f v, part l f v -> exists j, sget (fname f) dd = Some j /\ desc objs v j) -> desc objs (VLoc l) (JObj dd)
  | de_list l xs js : hget h l = Some (OList xs) -> desc objs (VLoc l) (JList js)
  | de_mod m dd : desc objs (VMod m) (JObj dd).

  Fixpoint desc_mono o1 o2 (HO : forall n v, nth_error o1 n = Some v -> nth_error o2 n = Some v) v j (D : desc o1 v j) : desc o2 v j :=
    match D with
    | de_pure _ v P SU => de_pure o2 v P SU
    | de_tuple _ xs js F => de_tuple o2 xs js
        ((fix go xs js (F : Forall2 (desc o1) xs js) : Forall2 (desc o2) xs js :=
            match F with
            | Forall2_nil _ => Forall2_nil _
            | Forall2_cons x y a b => Forall2_cons x y (desc_mono o1 o2 HO _ _ a) (go _ _ b)
            end) xs js F)
    | de_ref _ l n E => de_ref o2 l n (HO _ _ E)
    | de_new _ l dd A B => de_new o2 l dd A (fun f v p => match B f v p with
        | ex_intro _ j (conj x y) => ex_intro _ j (conj x (desc_mono o1 o2 HO _ _ y)) end)
    | de_list _ l xs js E => de_list o2 l xs js E
    | de_mod _ m dd => de_mod o2 m dd
    end.

  Lemma desc_pure objs v j : desc objs v j -> pure v = true -> j = pdoc v /\ supported v.
  Proof.
    revert j. induction v as [|x|x|x|x|x|l IH|x|x|x|x|x|x|x] using val_ind'; intros j D P; try discriminate; inversion D as [? ? SU|xs js F| | | |]; subst; auto.
    rewrite Forall_forall in IH. simpl in P. rewrite forallb_forall in P. clear D. cut (js = map pdoc l /\ forall x, In x l -> supported x).
    - intros [-> S]. split; [reflexivity|]. intros x R. inversion R as [|? y ? SB R2]; subst; [exact Logic.I|].
      inversion SB; subst. eapply S; eauto.
    - induction F as [|a b l js Ha F IHF]; simpl; [split; auto; intros ? []|]. 
      destruct (IH a (or_introl eq_refl) b Ha) as [-> SA]; [apply P; left; auto|].
      destruct IHF as [-> SL]; [intros; apply IH; auto; right; auto | intros; apply P; right; auto|].
      split; auto. intros x [<-|Hx]; auto.
  Qed.
  Lemma desc_tuple objs xs j : desc objs (VTuple xs) j -> exists js, j = JObj [(TUPLE, JList js)] /\ Forall2 (desc objs) xs js.
  Proof.
    intros D. inversion D as [? P SU|xs' js F| | | |]; subst; eauto. exists (map pdoc xs). split; [reflexivity|].
    assert (S : forall x, In x xs -> supported x) by (intros; eapply supported_tuple; eauto). clear D SU. simpl in P.
    induction xs as [|x xs IH]; simpl in *; constructor; apply andb_true_iff in P as [P1 P2]; auto.
    constructor; auto.
  Qed.
  Lemma desc_not_str objs v j a : is_str v = false -> desc objs v j -> j <> JStr a.
  Proof.
    intros S D E. subst j. inversion D as [? P SU EP| | | | |]; subst. destruct v; try discriminate.
    cbn in H. unfold flatten_bytestring in H. destruct (po_b85 po); discriminate.
  Qed.
  Lemma pdoc_obj_key v dd : pure v = true -> pdoc v = JObj dd ->
    exists x j, dd = [(x, j)] /\ x <> OBJECT /\ x <> ID.
  Proof.
    intros P E. destruct v; try discriminate; simpl in E; [unfold flatten_bytestring in E; destruct (po_b85 po)|..];
      injection E as <-; eexists _, _; repeat split; discriminate.
  Qed.
  Lemma by_name_inst l c : by_name l c -> exists i, hget h l = Some (OInst i).
  Proof. intros (i & H & _). eauto. Qed.
  Lemma by_name_fun l c c' : by_name l c -> by_name l c' -> c = c'.
  Proof. intros (i & H & <- & _) (i' & H' & <- & _). congruence. Qed.
  Lemma part_name l f v : part l f v -> exists c, by_name l c.
  Proof. intros P. inversion P as [i ? ? ? H O|i ? ? ? H O|i ? H O]; exists (i_cls i); exists i; auto. Qed.

  Lemma part_args l v : part l FArgs v -> exists i a, v = VTuple a /\ hget h l = Some (OInst i) /\
    c_newargs_ex (cls (i_cls i)) = false /\ c_newargs (cls (i_cls i)) = true /\ k_newargs k l = Ret (VTuple a).
  Proof. intros P. inversion P; subst. eauto 10. Qed.

  (** The document of such an instance: a reference, or one that has its parts. *)
  Lemma desc_named objs l c j : by_name l c -> desc objs (VLoc l) j ->
    (exists n, nth_error objs n = Some (VLoc l) /\ j = JObj [(ID, JInt (Z.of_nat n))]) \/
    (exists dd, j = JObj dd /\ sget OBJECT dd = Some (JStr (importable_name (cls c))) /\
       forall f v, part l f v -> exists j, sget (fname f) dd = Some j /\ desc objs v j).
  Proof.
    intros N D. inversion D as [? P| |? n E|? dd A B|? xs js E|]; subst; [discriminate|left; eauto|right; eauto|].
    apply by_name_inst in N as [i N]. congruence.
  Qed.

  Lemma apart_docs objs t q1 q2 : u_classes t = cl -> apart q1 q2 -> forall j1 j2,
    desc objs q1 j1 -> desc objs q2 j2 -> j1 <> j2.
  Proof.
    intros CT A. induction A as [x y P1 P2 N|xs ys N|xs ys n x y E1 E2 A IH|xs v P NT|l c v N KV|l l' c c' N N' NE|l l' f v v' NE P P' A IH|x y A IH]; intros j1 j2 D1 D2 E.
    - destruct (desc_pure _ _ _ D1 P1) as [-> S1]. destruct (desc_pure _ _ _ D2 P2) as [-> S2].
      apply N. eapply (pdoc_inj w k keys cl h po uo); eauto.
    - apply desc_tuple in D1 as (js1 & -> & F1). apply desc_tuple in D2 as (js2 & -> & F2). injection E as ->.
      apply N. rewrite (Forall2_len _ _ _ F1), (Forall2_len _ _ _ F2). reflexivity.
    - apply desc_tuple in D1 as (js1 & -> & F1). apply desc_tuple in D2 as (js2 & -> & F2). injection E as ->.
      destruct (Forall2_nth _ _ _ _ _ F1 E1) as (a & Ha & Da). destruct (Forall2_nth _ _ _ _ _ F2 E2) as (b & Hb & Db).
      rewrite Ha in Hb. injection Hb as ->. eapply IH; eauto.
    - apply desc_tuple in D1 as (js1 & -> & F1). destruct (desc_pure _ _ _ D2 P) as [-> _].
      destruct v; try discriminate; [|eapply NT; reflexivity]. simpl in E. unfold flatten_bytestring in E. destruct (po_b85 po); discriminate.
    - assert (X : (exists dd, j1 = JObj dd /\ (sget OBJECT dd <> None \/ sget ID dd <> None))).
      { destruct (desc_named _ _ _ _ N D1) as [(n & _ & ->)|(dd & -> & S & _)]; eexists; (split; [reflexivity|]); [right; discriminate|left; congruence]. }
      destruct X as (dd & -> & X).
      assert (Y : exists x j, dd = [(x, j)] /\ x <> OBJECT /\ x <> ID).
      { destruct KV as [P|(xs & ->)].
        - destruct (desc_pure _ _ _ D2 P) as [-> _]. symmetry in E. eapply pdoc_obj_key; eauto.
        - apply desc_tuple in D2 as (js & -> & _). injection E as ->. eexists _, _. repeat split; discriminate. }
      destruct Y as (x & j & -> & Y1 & Y2). cbn [sget] in X.
      destruct (seqb_spec OBJECT x) as [EX|_]; [congruence|]. destruct (seqb_spec ID x) as [EX|_]; [congruence|]. destruct X; congruence.
    - destruct (desc_named _ _ _ _ N D1) as [(n & E1 & ->)|(dd & -> & S & _)]; destruct (desc_named _ _ _ _ N' D2) as [(n' & E1' & ->)|(dd' & -> & S' & _)].
      + injection E as E. apply Nat2Z.inj in E. subst n'. assert (l = l') by congruence. subst l'.
        assert (c = c') by (eapply by_name_fun; eauto). subst; auto.
      + injection E as <-. discriminate.
      + injection E as ->. discriminate.
      + injection E as ->. rewrite S in S'. injection S' as E. auto.
    - destruct (part_name _ _ _ P) as [c N]. destruct (part_name _ _ _ P') as [c' N'].
      destruct (desc_named _ _ _ _ N D1) as [(n & E1 & ->)|(dd & -> & S & B)]; destruct (desc_named _ _ _ _ N' D2) as [(n' & E1' & ->)|(dd' & -> & S' & B')].
      + injection E as E. apply Nat2Z.inj in E. subst n'. congruence.
      + injection E as <-. discriminate.
      + injection E as ->. discriminate.
      + injection E as ->. destruct (B _ _ P) as (j & G & D). destruct (B' _ _ P') as (j' & G' & D').
        rewrite G in G'. injection G' as <-. eapply IH; eauto.
    - eapply IH; eauto.
  Qed.

  (** ** The text of a key *)
  Notation escaped := (escaped keys).
  Notation is_escaped := (is_escaped keys).
  Definition plain_key (q : val) : bool := is_str q && negb (is_escaped q).
  Definition kname (objs : list val) (q : val) (x : pystr) : Prop :=
    if plain_key q then q = VStr x
    else exists j, x = JSON_KEY ++ dumps j /\ jwf j = true /\ desc objs q j.
  Lemma kname_mono o1 o2 q x : (forall n v, nth_error o1 n = Some v -> nth_error o2 n = Some v) -> kname o1 q x -> kname o2 q x.
  Proof. intros HO. unfold kname. destruct (plain_key q); auto. intros (j & A & B & C). exists j. eauto using desc_mono. Qed.
  Lemma plain_key_inv q : plain_key q = true -> exists a, q = VStr a /\ escaped a = false.
  Proof. destruct q; try discriminate. unfold plain_key. simpl. intros H. apply negb_true_iff in H. eauto. Qed.
  Lemma unplain_keys q : plain_key q = false -> key_ok w keys h q = true -> keys = true.
  Proof.
    unfold plain_key. destruct q; cbn [is_str andb SpecGraph.is_escaped key_ok]; intros P K; try (apply andb_true_iff in K; tauto).
    apply negb_false_iff in P. unfold SpecGraph.escaped in P. apply andb_true_iff in P. tauto.
  Qed.
  Lemma plain_not_json a : escaped a = false -> keys = true -> prefixb JSON_KEY a = false /\ is_reserved a = false.
  Proof. unfold SpecGraph.escaped. intros E EK. rewrite EK in E. cbn [andb] in E. apply orb_false_iff in E. auto. Qed.

  (** What dict_ok says about two keys. *)
  Definition kapart (q1 q2 : val) : Prop :=
    q1 <> q2 /\ (is_str q1 = true \/ is_str q2 = true \/ apart q1 q2).
  Lemma kname_neq objs t q1 q2 x1 x2 : u_classes t = cl -> key_ok w keys h q1 = true -> key_ok w keys h q2 = true -> kapart q1 q2 ->
    kname objs q1 x1 -> kname objs q2 x2 -> x1 <> x2.
  Proof.
    intros CT K1 K2 [NE A] N1 N2 E. subst x2. unfold kname in *.
    destruct (plain_key q1) eqn:P1, (plain_key q2) eqn:P2.
    - congruence.
    - apply plain_key_inv in P1 as (a & -> & E1). injection N1 as <-. pose proof (unplain_keys _ P2 K2) as EK.
      destruct N2 as (j & -> & _). apply plain_not_json in E1 as [E1 _]; auto. rewrite json_key_prefix in E1. discriminate.
    - apply plain_key_inv in P2 as (a & -> & E1). injection N2 as <-. pose proof (unplain_keys _ P1 K1) as EK.
      destruct N1 as (j & -> & _). apply plain_not_json in E1 as [E1 _]; auto. rewrite json_key_prefix in E1. discriminate.
    - destruct N1 as (j1 & E1 & W1 & D1). destruct N2 as (j2 & E2 & W2 & D2). rewrite E1 in E2. apply app_inv_head in E2.
      apply dumps_inj in E2; auto. subst j2.
      destruct (is_str q1) eqn:S1, (is_str q2) eqn:S2.
      + destruct q1; try discriminate. destruct q2; try discriminate. apply desc_pure in D1 as [D1 _]; auto. apply desc_pure in D2 as [D2 _]; auto.
        rewrite D1 in D2. cbn in D2. congruence.
      + destruct q1; try discriminate. apply desc_pure in D1 as [-> _]; auto. eapply (desc_not_str _ _ _ _ S2 D2). reflexivity.
      + destruct q2; try discriminate. apply desc_pure in D2 as [-> _]; auto. eapply (desc_not_str _ _ _ _ S1 D1). reflexivity.
      + destruct A as [C|[C|A]]; try discriminate. eapply apart_docs; eauto.
  Qed.
  Lemma kname_ok objs q x : key_ok w keys h q = true -> kname objs q x -> str_ok x = true.
  Proof.
    intros K N. unfold kname in N. destruct (plain_key q) eqn:P.
    - subst q. cbn [key_ok] in K. unfold skey_ok in K. rewrite !andb_true_iff in K. tauto.
    - destruct N as (j & -> & W & _). apply json_key_ok; auto.
  Qed.
  Lemma kname_tags objs q x : key_ok w keys h q = true -> kname objs q x ->
    is_reserved x = false /\ seqb x B64 = false /\ seqb x B85 = false.
  Proof.
    intros K N. unfold kname in N. destruct (plain_key q) eqn:P.
    - subst q. cbn [key_ok] in K. unfold skey_ok in K. rewrite !andb_true_iff, !negb_true_iff in K. destruct K as (((A & B) & C) & D).
      repeat split; auto. apply plain_key_inv in P as (a & E & P). injection E as <-.
      destruct (Bool.bool_dec keys true) as [EK|EK]; [apply plain_not_json in P; tauto|]. apply not_true_is_false in EK. rewrite EK in D.
      apply negb_true_iff in D. auto.
    - destruct N as (j & -> & _). split; [apply json_key_not_reserved|]. split; reflexivity.
  Qed.
  Lemma kname_prefix objs q x : keys = true -> kname objs q x -> prefixb JSON_KEY x = negb (plain_key q).
  Proof.
    intros EK N. unfold kname in N. destruct (plain_key q) eqn:P.
    - subst q. apply plain_key_inv in P as (a & E & P). injection E as <-. apply plain_not_json in P; auto. tauto.
    - destruct N as (j & -> & _). apply json_key_prefix.
  Qed.
End desc.
