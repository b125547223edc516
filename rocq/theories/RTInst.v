(** Round trip, part 8: making instances. *)
From Verif Require Import PyStr Tags Json JsonText JsonTextProofs B64 B85 Base Heap Registry LoadClass Pickler Unpickler SpecJson SpecGraph.
From Verif Require Import CodecProofs PlainProofs WP RTBase RTStep RTPure RTDesc SpecRefs RTWalk RTCont RTOrder RTKinds.
Open Scope nat_scope.
Local Open Scope monad_scope.

Section inst.
  Variables (w : world) (k : hooks) (keys : bool) (cl : list (pystr * val)) (h : heap) (bs : nat) (po : popts) (uo : uopts).
  Notation cls := (w_cls w).
  Notation shape := (shape w k keys cl h).
  Notation reach := (reach w k keys cl h).
  Notation sub := (sub w k keys cl h).
  Notation supported := (supported w k keys cl h).
  Notation Inv := (Inv cl h bs).
  Notation front := (front w k keys cl h bs).
  Notation adv := (adv w k keys cl h bs).
  Notation head_ok := (head_ok h).
  Notation pdoc := (pdoc w po).
  Notation desc := (desc w k keys cl h po).
  Notation kname := (kname w k keys cl h po).
  Notation kapart := (kapart w k h).
  Notation apart := (apart w k h).
  Notation key_ok := (key_ok w keys h).
  Notation dict_ok := (dict_ok w k keys h).
  Notation item_doc := (item_doc w k keys cl h po).
  Notation delivers := (delivers w k keys cl h bs po uo).
  Notation PP := (PP w k keys cl h bs po uo).
  Notation vm s t := (vmatch h (u_heap t) bs (rel s t)).

  Hypothesis Ou : po_unpicklable po = true.
  Hypothesis Or : po_make_refs po = true.
  Hypothesis Od : po_max_depth po = None.
  Hypothesis Op : po_props po = false.
  Hypothesis Oro : po_readonly po = false.
  Hypothesis Os : po_sort po = false.
  Hypothesis Ok : po_keys po = keys.
  Hypothesis Uk : uo_keys uo = keys.
  Hypothesis Uv : uo_v1 uo = false.

  (** ** Composing progress around the creation of an instance *)
  Lemma adv_fresh (O : loc -> Prop) (J : nat -> Prop) s t s1 t1 s2 t2 :
    (forall x, O x -> length (u_heap t1) <= x) ->
    adv none none s t s1 t1 -> adv O J s1 t1 s2 t2 -> adv O J s t s2 t2.
  Proof.
    intros HO A B. pose proof (a_len _ _ _ _ _ _ _ _ _ _ _ _ A) as L. constructor.
    - apply B.
    - destruct (a_E _ _ _ _ _ _ _ _ _ _ _ _ A) as [x Hx]. destruct (a_E _ _ _ _ _ _ _ _ _ _ _ _ B) as [y Hy]. exists (x ++ y).
      rewrite Hy, Hx, app_assoc; auto.
    - intros i x Hx HJ. apply (a_D _ _ _ _ _ _ _ _ _ _ _ _ B); auto. apply (a_D _ _ _ _ _ _ _ _ _ _ _ _ A); auto. intros [].
    - rewrite (a_depth _ _ _ _ _ _ _ _ _ _ _ _ B). apply A.
    - pose proof (a_len _ _ _ _ _ _ _ _ _ _ _ _ B). lia.
    - intros x Hx Hn. rewrite (a_heap _ _ _ _ _ _ _ _ _ _ _ _ B); auto; [|lia]. apply A; auto.
    - intros x o Hl Hx. apply (a_leaf _ _ _ _ _ _ _ _ _ _ _ _ B); auto. apply (a_leaf _ _ _ _ _ _ _ _ _ _ _ _ A); auto.
    - rewrite (a_swaps _ _ _ _ _ _ _ _ _ _ _ _ B). apply A.
    - intros i l Hi Hl. destruct (Nat.lt_ge_cases i (length (p_objs s1))) as [L1|L1].
      + destruct (a_E _ _ _ _ _ _ _ _ _ _ _ _ B) as [y Hy]. rewrite Hy, nth_error_app1 in Hl by auto.
        destruct (a_new _ _ _ _ _ _ _ _ _ _ _ _ A i l Hi Hl) as (l' & D & M). exists l'.
        split; [eapply adv_Dloc; eauto|].
        eapply omatch_stable; [apply le_n | eapply adv_rel; eauto | | apply B | | exact M].
        * intros x o _ Hx. rewrite (a_heap _ _ _ _ _ _ _ _ _ _ _ _ B); auto; [eapply hget_lt; eauto|].
          intros C. apply HO in C. apply hget_lt in Hx. lia.
        * apply (omatch_dict_exists cl h bs s1 t1 l l'); [apply A | exists i; auto].
      + destruct (a_new _ _ _ _ _ _ _ _ _ _ _ _ B i l L1 Hl) as (l' & D & M). exists l'. split; auto.
        eapply omatch_stable; [exact L| | | | |exact M]; auto.
        eapply omatch_dict_exists; [apply B | exists i; eauto].
  Qed.
  (** The placeholder is replaced and new cells appear, then the contents are restored. *)
  Lemma adv_swapped (O : loc -> Prop) (J : nat -> Prop) s t t4 s5 t5 :
    (forall i x, nth_error (u_objs t) i = Some x -> (J i -> is_proxy x = false) -> nth_error (u_objs t4) i = Some x) ->
    length (u_heap t) <= length (u_heap t4) ->
    (forall x, x < length (u_heap t) -> hget (u_heap t4) x = hget (u_heap t) x) ->
    u_swaps t4 = u_swaps t ->
    adv O none s t4 s5 t5 -> adv O J s t s5 t5.
  Proof.
    intros HD HL HH HS A. constructor; try apply A.
    - intros i x Hx HJ. apply (a_D _ _ _ _ _ _ _ _ _ _ _ _ A); auto. intros [].
    - pose proof (a_len _ _ _ _ _ _ _ _ _ _ _ _ A). lia.
    - intros x Hx Hn. rewrite (a_heap _ _ _ _ _ _ _ _ _ _ _ _ A); auto. lia.
    - intros x o Hl Hx. apply (a_leaf _ _ _ _ _ _ _ _ _ _ _ _ A); auto. rewrite HH; auto. eapply hget_lt; eauto.
    - rewrite (a_swaps _ _ _ _ _ _ _ _ _ _ _ _ A). auto.
    - intros i l Hi Hl. destruct (a_new _ _ _ _ _ _ _ _ _ _ _ _ A i l Hi Hl) as (l' & D & M). exists l'. split; auto.
      eapply omatch_stable; [exact HL| | | | |exact M]; auto.
      eapply omatch_dict_exists; [apply A | exists i; eauto].
  Qed.
  (** Objects from which l cannot be reached are complete while l is in progress. *)
  Lemma finished (O : loc -> Prop) (J : nat -> Prop) s t l t1 s2 t2 x x' : Inv s t -> front s t (VLoc l) ->
    (forall i x, nth_error (u_objs t) i = Some (VLoc x) -> nth_error (u_objs t1) i = Some (VLoc x)) ->
    (forall x, x < length (u_heap t) -> hget (u_heap t1) x = hget (u_heap t) x) ->
    length (u_heap t) <= length (u_heap t1) ->
    adv O J (openE (VLoc l) s) t1 s2 t2 ->
    (forall x, O x -> length (u_heap t) <= x) ->
    ~ reach (VLoc x) (VLoc l) -> rel s2 t2 x x' -> omatch w k keys h (u_heap t2) 0 bs (rel s2 t2) x x'.
  Proof.
    intros I F HD HH HL A HO NR R. destruct (a_E _ _ _ _ _ _ _ _ _ _ _ _ A) as [E2 HE]. simpl in HE.
    pose proof R as (i & H1 & H2). rewrite HE, <- app_assoc in H1.
    destruct (Nat.lt_ge_cases i (length (p_objs s))) as [L|L].
    - rewrite nth_error_app1 in H1 by auto. destruct (F i x H1) as [(l' & D & M)|(RR & _)]; [|contradiction].
      assert (D2 : nth_error (u_objs t2) i = Some (VLoc l')) by (eapply adv_Dloc; eauto).
      assert (l' = x') by congruence. subst l'.
      assert (HX : forall y o, hget (u_heap t) y = Some o -> hget (u_heap t2) y = Some o).
      { intros y o Hy. pose proof (hget_lt _ _ _ Hy). rewrite (a_heap _ _ _ _ _ _ _ _ _ _ _ _ A); [rewrite HH; auto|lia|].
        intros C. apply HO in C. lia. }
      eapply omatch_stable; [apply le_n| | | | |exact M]; auto.
      + apply rel_incl; [exists (VLoc l :: E2); rewrite HE, <- app_assoc; reflexivity|]. intros; eapply adv_Dloc; eauto.
      + eapply omatch_dict_exists; [exact I | exists i; eauto].
    - destruct (Nat.eq_dec i (length (p_objs s))) as [->|N].
      + rewrite nth_error_app2, Nat.sub_diag in H1 by auto. simpl in H1. injection H1 as <-. exfalso. apply NR. constructor.
      + destruct (a_new _ _ _ _ _ _ _ _ _ _ _ _ A i x) as (l' & D & M).
        { simpl. rewrite app_length. simpl. lia. }
        { rewrite HE, <- app_assoc. auto. }
        assert (l' = x') by congruence. subst l'.
        eapply omatch_stable; [| | | | |exact M]; auto; [lia|].
        eapply omatch_dict_exists; [apply A | exact R].
  Qed.

  (** ** Constructor arguments *)
  Definition ctor_enc (rec : val -> MP json) (c : cinfo) (l : loc) (data1 : jobj) : MP jobj :=
    data2 <- (if c_newargs_ex c then
                args <- lift (k_newargs_ex k l) ;;
                js <- mapM rec args ;; ret (sset NEWARGSEX (JList js) data1)
              else ret data1) ;;
    data3 <- (if c_newargs c && negb (c_newargs_ex c) then
                a <- lift (k_newargs k l) ;; j <- rec a ;; ret (sset NEWARGS j data2)
              else ret data2) ;;
    (if c_initargs c then
       a <- lift (k_initargs k l) ;; j <- rec a ;; ret (sset INITARGS j data3)
     else ret data3).
  Definition ctor_tags : list pystr := [NEWARGSEX; NEWARGS; INITARGS].
  Definition get_ak (ob' : jobj) : MU (json * json) :=
    match sget NEWARGSEX ob' with
    | Some p => '(a, kw) <- lift (junpack2 p) ;; ret (a, kw)
    | None => a <- getargs w ob' ;; ret (a, JObj [])
    end.

  Lemma falsy_doc m j t v' t' : restore w uo m j t = (Ret v', t') -> jtruthy j = false ->
    atom v' = true \/ exists p, v' = VLoc p /\ (hget (u_heap t') p = Some (OList []) \/ hget (u_heap t') p = Some (ODict [])).
  Proof.
    destruct m as [|m]; [discriminate|]. intros R F. destruct j as [| | | | |l|o]; try (injection R as <- <-; left; reflexivity).
    - destruct l; [|discriminate]. right. exists (length (u_heap t)).
      change (restore w uo (S m) (JList []) t) with (restore_list (restore w uo m) (JList []) t) in R.
      unfold restore_list in R. rewrite (bind_eq _ _ t (VLoc (length (u_heap t))) (ualloc (OList []) t)) in R by reflexivity.
      assert (U : exists t1, umkref (VLoc (length (u_heap t))) (ualloc (OList []) t) = (Ret (VLoc (length (u_heap t))), t1) /\ u_heap t1 = u_heap t ++ [OList []]).
      { unfold umkref. destruct (idx_get _ _); eexists; split; reflexivity. }
      destruct U as (t1 & U & HU). rewrite (bind_eq _ _ _ _ _ U) in R. cbn in R. injection R as <- <-. split; auto. left.
      cbn. rewrite HU. apply hget_hset_same. rewrite app_length. simpl. lia.
    - destruct o; [|discriminate]. right. exists (length (u_heap t)).
      change (restore w uo (S m) (JObj []) t) with (restore_dict w uo (restore w uo m) [] t) in R.
      unfold restore_dict in R. rewrite (bind_eq _ _ t (VLoc (length (u_heap t))) (ualloc (ODict []) t)) in R by reflexivity.
      rewrite Uv in R.
      assert (U : exists t1, umkref (VLoc (length (u_heap t))) (ualloc (ODict []) t) = (Ret (VLoc (length (u_heap t))), t1) /\ u_heap t1 = u_heap t ++ [ODict []]).
      { unfold umkref. destruct (idx_get _ _); eexists; split; reflexivity. }
      destruct U as (t1 & U & HU).
      rewrite (bind_eq _ _ _ tt t1) in R by (rewrite (bind_eq _ _ _ _ _ U); reflexivity).
      rewrite (bind_eq _ _ _ tt t1) in R by (destruct (uo_keys uo); reflexivity). injection R as <- <-. split; auto. right.
      rewrite HU. apply hget_app_new.
  Qed.

  Lemma str_items_match h' b R d kw d' : str_items d = Some kw -> Forall2 (pmatch h h' b R) d d' ->
    exists kw', str_keyed d' = Some kw' /\ Forall2 (fun p p' => fst p' = fst p /\ vmatch h h' b R (snd p) (snd p')) kw kw'.
  Proof.
    revert kw d'. induction d as [|[q v] d IHd]; intros kw d' E F.
    - injection E as <-. inversion F; subst. exists []. split; [reflexivity|constructor].
    - inversion F as [|? [q' v'] ? d2 [X Y] F2]; subst. cbn [fst snd] in *. simpl in E. destruct q; try discriminate. inversion X; subst q'.
      destruct (str_items d) as [x|]; [|discriminate]. injection E as <-.
      destruct (IHd x d2 eq_refl F2) as (kw2 & E2 & G). exists ((s, v') :: kw2). split.
      + unfold str_keyed in *. simpl. rewrite E2. reflexivity.
      + constructor; auto.
  Qed.
  Lemma str_items_order d kw : str_items d = Some kw -> (forall n, In n (map fst kw) -> prefixb JSON_KEY n = false /\ is_reserved n = false) ->
    dict_order keys d = d.
  Proof.
    intros E N. assert (X : forall q, In q d -> is_str (fst q) = true /\ is_escaped keys (fst q) = false).
    { revert kw E N. induction d as [|[q v] d IHd]; intros kw E N q0 Hq; [destruct Hq|]. simpl in E.
      destruct q; try discriminate. destruct (str_items d) as [x|]; [|discriminate]. injection E as <-. destruct Hq as [<-|Hq].
      - split; [reflexivity|]. cbn [fst is_escaped]. unfold escaped. destruct (N s (or_introl eq_refl)) as [-> ->]. apply andb_false_r.
      - eapply IHd; eauto. intros; apply N; right; auto. }
    unfold dict_order, non_strings. clear E N. induction d as [|q d IHd]; simpl; auto. destruct (X q (or_introl eq_refl)) as [-> ->]. cbn [negb andb app].
    f_equal. apply IHd. intros; apply X; right; auto.
  Qed.
  Lemma str_items_keys d kw : str_items d = Some kw -> map fst d = map VStr (map fst kw).
  Proof.
    revert kw. induction d as [|[q v] d IHd]; intros kw E; simpl in E; [injection E as <-; reflexivity|].
    destruct q; try discriminate. destruct (str_items d); [|discriminate]. injection E as <-. simpl. f_equal. auto.
  Qed.

  Section level.
    Variables (n m : nat).
    Hypothesis IH : PP n m.
    Hypothesis Hnm : n <= m.
    Notation fl := (flatten w k po n).
    Notation rs := (restore w uo m).
    Notation Tags0 := [NEWARGSEX; NEWARGS; INITARGS].

    (** The documents of the arguments, and what the decoder makes of them. *)
    Lemma rt_tuple_arg a s t : supported (VTuple a) -> Inv s t -> front s t (VTuple a) ->
      wp (fl (VTuple a)) s (fun j s2 => jwf j = true /\ (desc (p_objs s2) (VTuple a) j /\ counted w keys h j s s2) /\ exists a' t2, restore_args w rs j t = (Ret (Ret a'), t2) /\
        adv none none s t s2 t2 /\ Forall2 (vm s2 t2) a a').
    Proof.
      intros S I F. eapply wp_mono; [apply (IH _ s t S I F)|]. intros j s2 _ (W & DE & v' & t2 & R & A & M). split; auto. split; auto.
      pose proof (falsy_doc _ _ _ _ _ R) as FD.
      inversion M as [? X|xs ys FF| | |]; subst; [discriminate|]. exists ys, t2. split; [|auto].
      unfold restore_args. destruct (jtruthy j) eqn:T.
      - rewrite (bind_eq _ _ _ _ _ R). reflexivity.
      - destruct (FD eq_refl) as [X|(p & X & _)]; discriminate.
    Qed.
    Lemma rt_kw_arg kd d kw s t : supported (VLoc kd) -> hget h kd = Some (ODict d) -> d <> [] -> str_items d = Some kw ->
      (forall n, In n (map fst kw) -> prefixb JSON_KEY n = false /\ is_reserved n = false) ->
      Inv s t -> front s t (VLoc kd) ->
      (forall s' t' y, adv none none s t s' t' -> rel s' t' kd y -> omatch w k keys h (u_heap t') 0 bs (rel s' t') kd y) ->
      wp (fl (VLoc kd)) s (fun j s2 => jwf j = true /\ counted w keys h j s s2 /\ exists kw' t2, restore_kwargs w rs j t = (Ret (Ret kw'), t2) /\
        adv none none s t s2 t2 /\ Forall2 (fun p p' => fst p' = fst p /\ vm s2 t2 (snd p) (snd p')) kw kw').
    Proof.
      intros S H ND SI NI I F FIN. eapply wp_mono; [apply (IH _ s t S I F)|]. intros j s2 _ (W & [_ WK] & v' & t2 & R & A & M). split; auto. split; auto.
      pose proof (falsy_doc _ _ _ _ _ R) as FD.
      pose proof (str_items_order _ _ SI NI) as SF. pose proof (fun h' b R d' => str_items_match h' b R _ _ d' SI) as SM.
      inversion M as [? X| | | |? y RL]; subst; try discriminate; try congruence.
      pose proof (FIN s2 t2 y A RL) as OM. inversion OM as [|d0 d' H1 _ H2 FF|]; subst; try congruence.
      assert (d0 = d) by congruence. subst d0. rewrite SF in FF.
      destruct (SM _ _ _ _ FF) as (kw' & E & G). exists kw', t2. split; [|auto].
      unfold restore_kwargs. destruct (jtruthy j) eqn:T.
      - rewrite (bind_eq _ _ _ _ _ R). unfold bind, gets, as_dict. rewrite H2, E. reflexivity.
      - destruct (FD eq_refl) as [X|(p & X & Q)]; [discriminate|]. injection X as <-.
        destruct Q as [Q|Q]; rewrite Q in H2; [discriminate|]. injection H2 as <-. inversion FF; subst. contradiction.
    Qed.

    (** [sq]: the document will have a py/seq entry. *)
    Lemma rt_ctor ci l name cs args kw s1 t1 (sq : bool) :
      ctor k h (cls ci) l cs args kw -> Inv s1 t1 -> (forall x, In x cs -> supported x) ->
      (forall x s' t', In x cs -> adv none none s1 t1 s' t' -> front s' t' x) ->
      (forall kd s' t' y, In (VLoc kd) cs -> adv none none s1 t1 s' t' -> rel s' t' kd y ->
         omatch w k keys h (u_heap t') 0 bs (rel s' t') kd y) ->
      loadclass w cl (JStr name) = Ret (VType ci) -> (sq = true -> cs = [] -> c_fields (cls ci) = None) ->
      wp (ctor_enc fl (cls ci) l [(OBJECT, JStr name)]) s1 (fun data s2 => exists cd, data = (OBJECT, JStr name) :: cd /\
        (forall x, In x (Json.keys cd) -> In x Tags0) /\ NoDup (Json.keys cd) /\ (forallb jwf (map snd cd) = true /\ (unhandled w h -> walkf keys (length (p_objs s1)) cd (length (p_objs s2)))) /\
        (forall a, c_newargs_ex (cls ci) = false -> c_newargs (cls ci) = true -> k_newargs k l = Ret (VTuple a) ->
           exists j, sget NEWARGS cd = Some j /\ desc (p_objs s2) (VTuple a) j) /\
        exists args' kw' t2, adv none none s1 t1 s2 t2 /\ Forall2 (vm s2 t2) args args' /\
          Forall2 (fun p p' => fst p' = fst p /\ vm s2 t2 (snd p) (snd p')) kw kw' /\
          forall ob, (forall x, In x Tags0 -> sget x ob = sget x cd) -> sget OBJECT ob = Some (JStr name) ->
            shas SEQ ob = sq ->
            exists aj kj ta tb, get_ak ob t1 = (Ret (aj, kj), ta) /\ restore_args w rs aj ta = (Ret (Ret args'), tb) /\
              restore_kwargs w rs kj tb = (Ret (Ret kw'), t2)).
    Proof.
      intros CT I S F FIN LC SQ. unfold ctor_enc. destruct CT as [E1 E2 E3|a E1 E2 E3 E4|a kd d kw E1 E2 E3 E4 E5 E6 E7|a E1 E2 E3 E4]; rewrite ?E1, ?E2, ?E3; cbn [andb negb].
      - (* none *)
        apply wp_bind, wp_ret, wp_bind, wp_ret, wp_ret. exists []. split; [reflexivity|].
        split; [intros x []|]. split; [constructor|]. split; [split; [reflexivity|intros _; apply walkf_nil]|]. split; [intros; congruence|].
        destruct (loadclass_run w cl t1 name _ (i_tab _ _ _ _ _ I) LC) as [lg EL].
        set (t2 := if sq then us_log lg t1 else t1).
        assert (A2 : adv none none s1 t1 s1 t2) by (unfold t2; destruct sq; [apply adv_log; auto | apply adv_refl; auto]).
        exists [], [], t2. split; auto. split; [constructor|]. split; [constructor|].
        intros ob HT HOb HS. exists (JList []), (JObj []), t2, t2. split; [|split; reflexivity].
        unfold get_ak. rewrite (HT NEWARGSEX) by (left; auto). cbn [sget]. 
        rewrite (bind_eq _ _ t1 (JList []) t2); [reflexivity|].
        unfold getargs. rewrite (HT NEWARGS), (HT INITARGS), HOb by (simpl; auto). cbn [sget].
        unfold shas in HS. destruct (sget SEQ ob); subst sq; [|reflexivity]. unfold t2.
        rewrite (bind_eq _ _ _ _ _ EL). rewrite SQ by auto. reflexivity.
      - (* newargs *)
        apply wp_bind, wp_ret, wp_bind, wp_bind. eapply wp_lift; [exact E4|]. apply wp_bind.
        eapply wp_mono.
        { apply (rt_tuple_arg a s1 t1); auto; [apply S; left; auto|]. apply F; [left; auto|apply adv_refl; auto]. }
        intros j s2 _ (W & [DE WK] & a' & t2 & R & A & M). apply wp_ret, wp_ret. exists [(NEWARGS, j)]. split; [reflexivity|].
        split; [intros x [<-|[]]; simpl; auto|]. split; [repeat constructor; intros []|]. split; [split; [simpl; rewrite W; reflexivity|intros NH; eapply walkf_value; [intros [C|[C|[C|[C|[]]]]]; discriminate|reflexivity|apply WK; auto|apply walkf_nil]]|].
        split; [intros a0 _ _ EN; exists j; split; [reflexivity|]; assert (a0 = a) by congruence; subst; auto|].
        exists a', [], t2. split; auto. split; auto. split; [constructor|].
        intros ob HT HOb HS. exists j, (JObj []), t1, t2. split; [|split; [exact R|reflexivity]].
        unfold get_ak. rewrite (HT NEWARGSEX) by (left; auto). change (sget NEWARGSEX [(NEWARGS, j)]) with (@None json).
        cbv iota. rewrite (bind_eq _ _ t1 j t1); [reflexivity|]. unfold getargs. rewrite (HT NEWARGS) by (simpl; auto). reflexivity.
      - (* newargs_ex *)
        apply wp_bind, wp_bind. eapply wp_lift; [reflexivity|]. apply wp_bind. cbn [mapM]. apply wp_bind.
        eapply wp_mono.
        { apply (rt_tuple_arg a s1 t1); auto; [apply S; left; auto|]. apply F; [left; auto|apply adv_refl; auto]. }
        intros ja s2 _ (W & [_ WK] & a' & t2 & R & A & M). apply wp_bind, wp_bind.
        eapply wp_mono.
        { apply (rt_kw_arg kd d kw s2 t2); auto; [apply S; right; left; auto| apply A | |].
          - apply F; [right; left; auto|auto].
          - intros s' t' y A' RL. apply FIN; auto; [right; left; auto|]. eapply adv_trans; eauto. intros ? []. }
        intros jk s3 _ (W3 & WK3 & kw' & t3 & R3 & A3 & M3). apply wp_bind, wp_ret, wp_ret, wp_ret, wp_ret, wp_bind.
        apply (wp_eq _ (ret (sset NEWARGSEX (JList [ja; jk]) [(OBJECT, JStr name)]))); [destruct (c_newargs (cls ci)); reflexivity|].
        apply wp_ret, wp_ret. exists [(NEWARGSEX, JList [ja; jk])]. split; [reflexivity|].
        split; [intros x [<-|[]]; simpl; auto|]. split; [repeat constructor; intros []|]. split; [split; [cbn; rewrite W, W3; reflexivity|intros NH; eapply walkf_bare; [right; left; auto|eapply walks_cons; [apply WK; auto|eapply walks_cons; [apply WK3; auto|apply walks_nil]]|apply walkf_nil]]|]. split; [intros; congruence|].
        exists a', kw', t3. split; [eapply adv_trans; eauto; intros ? []|]. split; [eapply vmatches_adv; [exact A3|exact M]|]. split; [exact M3|].
        intros ob HT HOb HS. exists ja, jk, t1, t2. split; [|split; auto].
        unfold get_ak. rewrite (HT NEWARGSEX) by (left; auto). reflexivity.
      - (* initargs *)
        apply wp_bind, wp_ret, wp_bind, wp_ret, wp_bind. eapply wp_lift; [exact E4|]. apply wp_bind.
        eapply wp_mono.
        { apply (rt_tuple_arg a s1 t1); auto; [apply S; left; auto|]. apply F; [left; auto|apply adv_refl; auto]. }
        intros j s2 _ (W & [_ WK] & a' & t2 & R & A & M). apply wp_ret. exists [(INITARGS, j)]. split; [reflexivity|].
        split; [intros x [<-|[]]; simpl; auto|]. split; [repeat constructor; intros []|].
        split; [split; [simpl; rewrite W; reflexivity|intros NH; eapply walkf_value; [intros [C|[C|[C|[C|[]]]]]; discriminate|reflexivity|apply WK; auto|apply walkf_nil]]|]. split; [intros; congruence|].
        exists a', [], t2. split; auto. split; auto. split; [constructor|].
        intros ob HT HOb HS. exists j, (JObj []), t1, t2. split; [|split; [exact R|reflexivity]].
        unfold get_ak. rewrite (HT NEWARGSEX) by (left; auto). change (sget NEWARGSEX [(INITARGS, j)]) with (@None json).
        cbv iota. rewrite (bind_eq _ _ t1 j t1); [reflexivity|]. unfold getargs. rewrite (HT NEWARGS) by (simpl; auto).
        change (sget NEWARGS [(INITARGS, j)]) with (@None json). rewrite (HT INITARGS) by (simpl; auto). reflexivity.
    Qed.

    (** ** The decoder makes the instance *)
    Definition olist (fo : option val) : list val := match fo with Some f => [f] | None => [] end.
    Definition new_inst (ci : nat) (d : option loc) (fo : option val) (args : list val) (kw : list (pystr * val)) : inst :=
      mkInst ci d [] [] [] fo (CNew args kw) [] 0.
    Definition fac_ok (ci : nat) (fo : option val) : Prop :=
      match fo with
      | None => True
      | Some f => (exists c, f = VType c) /\ c_deffac (cls ci) = true /\ c_setattr (cls ci) (u "default_factory") = SAOk
      end.
    Definition cells (ci : nat) (fo : option val) args kw (b : nat) : list obj :=
      if c_dict (cls ci) then [ODict []; OInst (new_inst ci (Some b) fo args kw)] else [OInst (new_inst ci None fo args kw)].
    Definition cell (ci b : nat) : nat := if c_dict (cls ci) then S b else b.
    Definition dcell (ci b : nat) : option nat := if c_dict (cls ci) then Some b else None.

    Lemma cells_at ci fo args kw (h1 : heap) :
      hget (h1 ++ cells ci fo args kw (length h1)) (cell ci (length h1)) =
        Some (OInst (new_inst ci (dcell ci (length h1)) fo args kw)).
    Proof.
      unfold cells, cell, dcell. destruct (c_dict (cls ci)).
      - change [ODict []; OInst (new_inst ci (Some (length h1)) fo args kw)] with ([ODict []] ++ [OInst (new_inst ci (Some (length h1)) fo args kw)]).
        rewrite app_assoc. replace (S (length h1)) with (length (h1 ++ [ODict []])) by (rewrite app_length; simpl; lia).
        apply hget_app_new.
      - apply hget_app_new.
    Qed.
    Lemma cells_dict ci fo args kw (h1 : heap) : c_dict (cls ci) = true ->
      hget (h1 ++ cells ci fo args kw (length h1)) (length h1) = Some (ODict []).
    Proof.
      unfold cells. intros ->. unfold hget. rewrite nth_error_app2, Nat.sub_diag by auto. reflexivity.
    Qed.
    Lemma cells_old ci fo args kw (h1 : heap) x : x < length h1 -> hget (h1 ++ cells ci fo args kw (length h1)) x = hget h1 x.
    Proof. intros H. unfold hget. apply nth_error_app1; auto. Qed.

    Lemma hset_end (h1 : heap) o o' : hset (h1 ++ [o]) (length h1) o' = h1 ++ [o'].
    Proof. induction h1; simpl; congruence. Qed.
    Lemma new_attempt_run ci fo args kw t : fac_ok ci fo -> w_new w (u_heap t) ci (olist fo ++ args) kw = CInst ci ->
      new_attempt w ci fo (Ret args) (Ret kw) t =
        (Ret (VLoc (cell ci (length (u_heap t)))),
         us_log (u_log t ++ [EvNew ci (olist fo ++ args) kw]) (us_heap (u_heap t ++ cells ci fo (olist fo ++ args) kw (length (u_heap t))) t)).
    Proof.
      intros HF HN.
      assert (DN : forall a, w_new w (u_heap t) ci a kw = CInst ci -> do_new w ci a kw t =
        (Ret (VLoc (cell ci (length (u_heap t)))),
         us_log (u_log t ++ [EvNew ci a kw]) (us_heap (u_heap t ++ cells ci None a kw (length (u_heap t))) t))).
      { intros a Ha. unfold do_new. rewrite (bind_eq _ _ t tt (us_log (u_log t ++ [EvNew ci a kw]) t)) by reflexivity.
        rewrite (bind_eq _ _ _ (u_heap t) (us_log (u_log t ++ [EvNew ci a kw]) t)) by reflexivity. rewrite Ha. cbn [run_cres].
        unfold fresh_inst, cells, cell. destruct (c_dict (cls ci)).
        - set (t1 := us_log (u_log t ++ [EvNew ci a kw]) t).
          rewrite (bind_eq _ _ t1 (Some (length (u_heap t))) (us_heap (u_heap t ++ [ODict []]) t1)) by reflexivity.
          unfold alloc, halloc. cbn. rewrite app_length. simpl length. rewrite Nat.add_1_r.
          rewrite <- app_assoc. reflexivity.
        - reflexivity. }
      unfold new_attempt. rewrite (bind_eq _ _ t args t) by reflexivity. rewrite (bind_eq _ _ t kw t) by reflexivity.
      destruct fo as [f|].
      - destruct HF as ((c & ->) & HD & HS). rewrite (bind_eq _ _ t true t) by reflexivity.
        pose proof (DN _ HN) as E. set (lg := u_log t ++ _) in *. change (VType c :: args) with (olist (Some (VType c)) ++ args). rewrite (bind_eq _ _ _ _ _ E).
        set (x := cell ci (length (u_heap t))) in *. set (h2 := u_heap t ++ cells ci None (olist (Some (VType c)) ++ args) kw (length (u_heap t))) in *.
        assert (HX : hget h2 x = Some (OInst (new_inst ci (dcell ci (length (u_heap t))) None (olist (Some (VType c)) ++ args) kw))) by apply cells_at.
        rewrite (bind_eq _ _ _ tt (us_log lg (us_heap (u_heap t ++ cells ci (Some (VType c)) (olist (Some (VType c)) ++ args) kw (length (u_heap t))) t))); [reflexivity|].
        unfold set_attr. rewrite (bind_eq _ _ _ h2 (us_log lg (us_heap h2 t))) by reflexivity.
        assert (ES : inst_setattr (w_cls w) h2 x (u "default_factory") (VType c) =
                     Ret (u_heap t ++ cells ci (Some (VType c)) (olist (Some (VType c)) ++ args) kw (length (u_heap t)))).
        { unfold inst_setattr. rewrite HX. cbn [i_cls new_inst]. rewrite HS. unfold inst_store. cbn [i_cls new_inst]. rewrite HD.
          change (seqb (u "default_factory") (u "__dict__")) with false. change (seqb (u "default_factory") (u "default_factory")) with true.
          cbv iota. cbn [andb]. f_equal. cbn [i_dict i_slots i_items i_elems i_rec i_state i_pos new_inst].
          unfold h2, x, cells, cell, dcell. destruct (c_dict (cls ci)).
          - change [ODict []; OInst (new_inst ci (Some (length (u_heap t))) None (olist (Some (VType c)) ++ args) kw)] with ([ODict []] ++ [OInst (new_inst ci (Some (length (u_heap t))) None (olist (Some (VType c)) ++ args) kw)]).
            rewrite app_assoc. replace (S (length (u_heap t))) with (length (u_heap t ++ [ODict []])) by (rewrite app_length; simpl; lia).
            rewrite hset_end. rewrite <- app_assoc. reflexivity.
          - rewrite hset_end. reflexivity. }
        rewrite ES. reflexivity.
      - rewrite (bind_eq _ _ t false t) by reflexivity. exact (DN _ HN).
    Qed.

    Definition fin (inst2 : val) : MU val :=
      pf <- gets (fun s => match inst_factory w (u_heap s) inst2 with
                           | Some f => if is_proxy f then Some (proxy_get s f) else None
                           | None => None
                           end) ;;
      match pf with
      | Some v => set_attr w inst2 (u "default_factory") v ;;; ret inst2
      | None => ret inst2
      end.

    (** The decoder's state when the contents are about to be restored. *)
    Definition after_new (ci : nat) (fo : option val) args kw (n0 p : nat) (t2 : ust) : ust :=
      let x := VLoc (cell ci (length (u_heap t2))) in
      let t3 := us_log (u_log t2 ++ [EvNew ci (olist fo ++ args) kw])
                  (us_heap (u_heap t2 ++ cells ci fo (olist fo ++ args) kw (length (u_heap t2))) t2) in
      let t3' := us_prox (list_set (u_prox t3) p (Some x)) t3 in
      us_objs (list_set (u_objs t3') n0 x) (us_idx (idx_del (VProxy p) ((x, n0) :: idx_del x (u_idx t3'))) t3').

    Lemma new_inv ci l i fo args kw s2 t2 p n0 :
      Inv s2 t2 -> nth_error (p_objs s2) n0 = Some (VLoc l) -> nth_error (u_objs t2) n0 = Some (VProxy p) ->
      hget h l = Some (OInst i) -> i_cls i = ci -> Inv s2 (after_new ci fo args kw n0 p t2).
    Proof.
      intros I2 N1 N2 HL EC. set (t4 := after_new ci fo args kw n0 p t2).
      set (x := cell ci (length (u_heap t2))) in *. set (h3 := u_heap t2 ++ cells ci fo (olist fo ++ args) kw (length (u_heap t2))) in *.
      assert (X4 : hget h3 x = Some (OInst (new_inst ci (dcell ci (length (u_heap t2))) fo (olist fo ++ args) kw))) by apply cells_at.
      assert (EV : evolve (u_heap t2) h3).
      { intros y o Hy. exists o. split; [|apply okind_refl]. unfold h3. rewrite cells_old; auto. eapply hget_lt; eauto. }
      apply (inv_swap cl h bs s2 t2 n0 l p x t4 I2); auto.
      + intros C. apply (D_lt cl h bs s2 t2 x I2) in C. unfold x, cell in C. destruct (c_dict (cls ci)); lia.
      + simpl. rewrite list_set_length. auto.
      + unfold RTBase.head_ok. rewrite HL. change (u_heap t4) with h3. rewrite X4. cbn [i_cls new_inst]. split; auto.
        intros i' d Hi Hd. rewrite X4 in Hi. injection Hi as <-. cbn [i_dict new_inst] in Hd. unfold dcell in Hd.
        destruct (c_dict (cls ci)) eqn:ECD; [|discriminate]. injection Hd as <-. exists []. unfold h3. apply cells_dict; auto.
    Qed.

    Lemma new_run (ob ob' : jobj) name ci fo args kw aj kj t lg t1 t1f ta tb s2 t2 p n0 :
      restore w uo (S m) (JObj ob) t = restore_object w uo rs ob t ->
      sget OBJECT ob = Some (JStr name) ->
      u_loadclass w (JStr name) t = (Ret (VType ci), us_log lg t) ->
      reg_lookup (w_sub w) (w_reg w) ci name = None ->
      p = length (u_prox t) -> t1 = uref (VProxy p) (us_prox (u_prox t ++ [None]) (us_log lg t)) ->
      idx_get (VProxy p) (u_idx t) = None ->
      loadfactory rs ob t1 = (Ret (fo, ob'), t1f) -> fac_ok ci fo ->
      get_ak ob' t1f = (Ret (aj, kj), ta) -> restore_args w rs aj ta = (Ret (Ret args), tb) ->
      restore_kwargs w rs kj tb = (Ret (Ret kw), t2) ->
      w_new w (u_heap t2) ci (olist fo ++ args) kw = CInst ci -> c_kind (cls ci) <> KTuple ->
      Inv s2 t2 -> nth_error (u_objs t2) n0 = Some (VProxy p) ->
      restore w uo (S m) (JObj ob) t =
        (inst2 <- restore_object_instance_variables w uo rs ob' (VLoc (cell ci (length (u_heap t2)))) ;; fin inst2)
        (after_new ci fo args kw n0 p t2).
    Proof.
      intros ED EO EL ER EP ET1 EI EF HF EA EAR EKW EN NT I2 N2.
      pose proof (new_attempt_run ci fo args kw t2 HF EN) as E3. unfold after_new.
      set (x := cell ci (length (u_heap t2))) in *. set (h3 := u_heap t2 ++ cells ci fo (olist fo ++ args) kw (length (u_heap t2))) in *.
      set (t3 := us_log (u_log t2 ++ _) (us_heap h3 t2)) in *. cbv zeta. set (t3' := us_prox (list_set (u_prox t3) p (Some (VLoc x))) t3).
      set (t4 := us_objs (list_set (u_objs t3') n0 (VLoc x)) (us_idx (idx_del (VProxy p) ((VLoc x, n0) :: idx_del (VLoc x) (u_idx t3'))) t3')).
      assert (X4 : hget h3 x = Some (OInst (new_inst ci (dcell ci (length (u_heap t2))) fo (olist fo ++ args) kw))) by apply cells_at.
      rewrite ED. unfold restore_object, jfield. rewrite EO. rewrite (bind_eq _ _ _ _ _ EL). rewrite ER.
      unfold restore_object_instance.
      rewrite (bind_eq _ _ (us_log lg t) (VProxy p) (us_prox (u_prox t ++ [None]) (us_log lg t))) by (rewrite EP; reflexivity).
      rewrite (bind_eq _ _ (us_prox (u_prox t ++ [None]) (us_log lg t)) (VProxy p) t1).
      2: { rewrite ET1. unfold umkref. simpl u_idx. rewrite EI. reflexivity. }
      rewrite (bind_eq _ _ _ _ _ EF). cbv beta iota.
      rewrite (bind_eq _ _ _ _ _ EA). cbn [fst snd]. rewrite (bind_eq _ _ _ _ _ EAR), (bind_eq _ _ _ _ _ EKW).
      rewrite (bind_eq _ _ t2 (Some (VLoc x)) t3).
      2: { apply catch_ret. rewrite (bind_eq _ _ _ _ _ E3). reflexivity. }
      rewrite (bind_eq _ _ t3 (Some (VLoc x)) t3) by reflexivity.
      rewrite (bind_eq _ _ t3 tt t3') by reflexivity.
      rewrite (bind_eq _ _ t3' tt t4).
      2: { unfold swapref. assert (X : idx_get (VProxy p) (u_idx t3') = Some n0) by (apply (i_idx _ _ _ _ _ I2); auto). rewrite X. reflexivity. }
      rewrite (bind_eq _ _ t4 h3 t4) by reflexivity.
      assert (X : is_tuple w h3 (VLoc x) = false).
      { unfold is_tuple. rewrite X4. cbn [i_cls new_inst]. destruct (c_kind (cls ci)); congruence. }
      rewrite X. reflexivity.
    Qed.
  End level.
End inst.
