(** Encoding with include_properties=True when the members of the classes have scalar values. *)
From Verif Require Import PyStr Tags Json JsonText JsonTextProofs Base Heap Registry LoadClass Pickler PGen PStep SpecGraph SpecPlain SpecRefs SpecFail SpecHoles SpecLack SpecProps.
From Verif Require Import PlainEncode BalanceProofs RTBase RTKinds HolesProofs FillProofs LackProofs.
From Coq Require Import List Permutation Lia. Import ListNotations.
Open Scope nat_scope.
Local Open Scope monad_scope.

Section props.
  Variables (w w' : world) (k : hooks) (o : popts) (cl : list (pystr * val)) (h : heap) (ok : val -> Prop).
  Hypothesis Ou : po_unpicklable o = true.
  Hypothesis Om : po_make_refs o = true.
  Hypothesis Od : po_max_depth o = None.
  Hypothesis Op : po_props o = true.
  Hypothesis Or : po_readonly o = false.
  Hypothesis Os : po_sort o = false.
  Hypothesis Ok : po_keys o = false.
  Hypothesis Lk : lacking w w' cl h ok.
  Hypothesis Fd : forall l i, ok (VLoc l) -> hget h l = Some (OInst i) ->
    found w w' cl (i_cls i) /\ w_blank w' (i_cls i) = true /\ scalar_members k h l i.
  Notation fs := (po_fail_safe o).
  Notation wp := (with_props w' cl).
  Notation ep := (entry_props w' cl).
  Notation starts := (starts h).
  Notation ends := (ends h).

  Lemma jwf_sset a j ob : str_ok a = true -> jwf j = true -> jwf (JObj ob) = true -> jwf (JObj (sset a j ob)) = true.
  Proof.
    cbn [jwf]. rewrite !andb_true_iff, !nodupb_NoDup. intros A J (N & F). split; [apply (NoDup_sset a j ob N)|].
    rewrite forallb_forall in *. intros x I. revert x I. apply Forall_forall. apply sset_Forall; [apply Forall_forall; exact F|rewrite A, J; reflexivity|]. intros k2 v2 Hx Es. destruct (seqb_spec a k2) as [<-|]; [rewrite A, J; reflexivity|discriminate].
  Qed.
  Lemma properties_go l i : scalar_members k h l i ->
    exists pj, jwf (JObj pj) = true /\ forall rec s, p_heap s = h -> flatten_properties k rec l i [] [] s = (Ret [(PROPERTY, JObj pj)], s).
  Proof.
    intros M. unfold flatten_properties.
    assert (Ef : filter (fun a => negb (smem a [])) (k_props k l) = k_props k l).
    { induction (k_props k l) as [|a ps IHp]; [reflexivity|]. cbn [filter smem existsb negb]. f_equal. exact IHp. }
    rewrite Ef. clear Ef. unfold scalar_members in M. revert M. generalize (k_props k l). intros ps M.
    assert (X : forall acc, jwf (JObj acc) = true -> exists pj, jwf (JObj pj) = true /\ forall (rec : val -> MP json) s, p_heap s = h ->
      foldM (fun (acc : jobj) a =>
                 v <- p_getattr k l i a ;;
                 h <- gets p_heap ;;
                 match prim_json v with
                 | Some j => ret (sset a j acc)
                 | None =>
                     match v with
                     | VBytes _ | VTuple _ => raise EUnmodelled
                     | VLoc p => match hget h p with
                                 | Some (OList _) | Some (ODict _) | Some (OSet _) => raise EUnmodelled
                                 | _ => j <- rec v ;; ret (sset a j acc)
                                 end
                     | _ => j <- rec v ;; ret (sset a j acc)
                     end
                 end) ps acc s = (Ret pj, s)).
    { induction ps as [|a ps IH]; intros acc J; [exists acc; auto|].
      destruct (M a (or_introl eq_refl)) as (A & v & j & Mv & Sj & Jj).
      assert (Pj : prim_json v = Some j) by (destruct Sj; reflexivity).
      destruct (IH (fun b I => M b (or_intror I)) (sset a j acc)) as (pj & Jp & R); [apply jwf_sset; auto|].
      exists pj. split; auto. intros rec s E. cbn [foldM].
      assert (Ga : p_getattr k l i a s = (Ret v, s)).
      { unfold p_getattr, bind, gets. rewrite E. unfold member_value in Mv. destruct (inst_attr h i a); [subst v; reflexivity|]. unfold lift. rewrite Mv. reflexivity. }
      rewrite (bind_eq _ _ s (sset a j acc) s); [apply R; auto|].
      rewrite (bind_eq _ _ _ _ _ Ga). rewrite (bind_eq _ _ _ _ _ (eq_refl : gets p_heap s = (Ret _, s))). rewrite Pj. reflexivity. }
    destruct (X [] eq_refl) as (pj & J & R). exists pj. split; auto. intros rec s E. rewrite (bind_eq _ _ _ _ _ (R rec s E)). reflexivity.
  Qed.

  Definition gop (tab : list loc) (v : val) (j : json) (tab' : list loc) : Prop := NoDup tab -> ok v ->
    exists j2, wp j j2 /\ (jwf j = true -> jwf j2 = true) /\
    exists N, forall n s, N <= n -> starts tab s -> exists s', flatten w k o n v s = (Ret j2, s') /\ ends tab' s s'.
  Definition gop_list (tab : list loc) (vs : list val) (js : list json) (tab' : list loc) : Prop := NoDup tab -> Forall ok vs ->
    exists js2, Forall2 wp js js2 /\ (forallb jwf js = true -> forallb jwf js2 = true) /\
    exists N, forall n s, N <= n -> starts tab s -> (0 <= p_depth s)%Z ->
      exists s', mapM (flatten w k o n) vs s = (Ret js2, s') /\ ends tab' s s'.
  Definition gop_fields (tab : list loc) (d : list (val * val)) (ob : jobj) (tab' : list loc) : Prop := NoDup tab -> (forall q, In q d -> ok (snd q)) ->
    exists ob2, map fst ob2 = map fst ob /\ Forall2 ep ob ob2 /\ (forallb jwf (map snd ob) = true -> forallb jwf (map snd ob2) = true) /\
    exists N, forall n s acc, N <= n -> starts tab s -> (0 <= p_depth s)%Z -> (forall a, In a (map fst ob) -> ~ In a (map fst acc)) ->
      exists s', flatten_items w k o (flatten w k o n) d [] acc s = (Ret (acc ++ ob2), s') /\ ends tab' s s'.

  Ltac sk s := repeat (rewrite (bind_eq _ _ _ _ _ (eq_refl : ret _ s = (Ret _, s))); cbv beta).
  Lemma plain_inst_gop n rec l i dl d ob s s1 pj : plain_class w (i_cls i) -> hget (p_heap s) l = Some (OInst i) -> i_dict i = Some dl ->
    hget (p_heap s) dl = Some (ODict d) -> flatten_properties k rec l i [] [] s = (Ret [(PROPERTY, JObj pj)], s) ->
    flatten_items w k o rec d [] [(PROPERTY, JObj pj); (OBJECT, JStr (importable_name (w_cls w (i_cls i))))] s = (Ret ob, s1) ->
    flatten_obj_instance w k o n rec l s = (Ret (JObj ob), s1).
  Proof.
    intros [A1 A2 A3 A4 A5 A6 A7 A8 A9] G Gd Gh P H.
    unfold flatten_obj_instance. rewrite (bind_eq _ _ _ _ _ (get_obj_eq l (OInst i) s G)). cbv beta iota zeta.
    rewrite A2, Op, Ou. rewrite (bind_eq _ _ _ _ _ P).
    match goal with |- bind ?m _ _ = _ => assert (R : m s = (Ret None, s)) by (unfold reduce_of; rewrite A3; reflexivity);
      rewrite (bind_eq _ _ _ _ _ R); clear R end.
    unfold flatten_inst_rest. cbv zeta. rewrite A4, A5, A6, A7, A8, Ou. cbn [andb negb]. sk s.
    rewrite (bind_eq _ _ _ _ _ (eq_refl : gets p_heap s = (Ret _, s))). cbv beta. sk s.
    rewrite (bind_eq _ _ s false s); [|reflexivity]. cbn [andb]. rewrite A1, Gd. unfold flatten_plain_dict. rewrite bind_assoc.
    rewrite (bind_eq _ _ _ _ _ (get_obj_eq dl (ODict d) s Gh)). cbv beta iota.
    change (sset OBJECT (JStr (importable_name (w_cls w (i_cls i)))) [(PROPERTY, JObj pj)]) with [(PROPERTY, JObj pj); (OBJECT, JStr (importable_name (w_cls w (i_cls i))))].
    rewrite (bind_eq _ _ _ _ _ H). reflexivity.
  Qed.
  Lemma wire_list a : smem a wire_names = false -> smem a list_tags = false.
  Proof.
    intros H. destruct (smem a list_tags) eqn:E; auto. exfalso. apply smem_In in E. unfold list_tags in E. cbn [In] in E.
    repeat (destruct E as [<-|E]; [discriminate H|]). destruct E.
  Qed.
  (** names of fields are no tags *)
  Lemma field_names d (ob : jobj) : lack_fields w h ok d -> map fst d = map VStr (map fst ob) -> forall t, is_reserved t = true \/ t = B64 \/ t = B85 -> sget t ob = None.
  Proof.
    intros F Dm t T. apply sget_notin. intros I. pose proof (lack_names w h ok d ob F Dm t I) as Nm. apply name_parts in Nm as (_ & B1 & B2 & B3).
    destruct T as [T|[->| ->]]; [congruence|discriminate B2|discriminate B3].
  Qed.
  Lemma jwf_fields (ob ob2 : jobj) : map fst ob2 = map fst ob -> (forallb jwf (map snd ob) = true -> forallb jwf (map snd ob2) = true) -> jwf (JObj ob) = true -> jwf (JObj ob2) = true.
  Proof.
    intros E H J. cbn [jwf] in J. apply andb_true_iff in J as (J1 & J2). apply nodupb_NoDup in J1. rewrite forallb_forall in J2.
    apply jwf_obj; [rewrite E; auto| |].
    - rewrite E. intros x I. apply in_map_iff in I as ([a j] & <- & I). specialize (J2 _ I). cbn in J2. apply andb_true_iff in J2. tauto.
    - apply H. apply forallb_forall. intros x I. apply in_map_iff in I as ([a j] & <- & I). specialize (J2 _ I). cbn in J2. apply andb_true_iff in J2. tauto.
  Qed.

  Theorem all_gop : (forall tab v j tab', written w k fs h tab v j tab' -> gop tab v j tab') /\
    (forall tab vs js tab', writtens w k fs h tab vs js tab' -> gop_list tab vs js tab') /\
    (forall tab d ob tab', fields_written w k fs h tab d ob tab' -> gop_fields tab d ob tab').
  Proof.
    assert (SN : forall tab (l : loc), ~ In l tab -> NoDup tab -> NoDup (tab ++ [l])).
    { intros tab l N ND. apply (Permutation.Permutation_NoDup (Permutation.Permutation_cons_append tab l)). constructor; auto. }
    assert (LV : forall l ob s, hget (p_heap s) l = Some ob -> (forall b, ob <> OByteArray b) -> layered s (VLoc l)).
    { intros l ob s G NB. split; [reflexivity|]. split; [discriminate|]. intros l0 b0 [= <-]. rewrite G. intros [= E]. eapply NB; eauto. }
    destruct (written_nodup w k o h) as (ND1 & ND2 & ND3).
    assert (PG : forall tab v j, prim_json v = Some j -> gop tab v j tab).
    { intros tab v j P ND V. exists j. split; [apply wp_same|]. split; auto. exact (prim_go w k o h Ou Om tab v j P). }
    apply (written_mutind w k fs h gop gop_list gop_fields).
    - intros. apply PG. reflexivity.
    - intros. apply PG. reflexivity.
    - intros. apply PG. reflexivity.
    - intros. apply PG. reflexivity.
    - intros. apply PG. reflexivity.
    - (* type *) intros tab c ND V. eexists. split; [apply wp_same|]. split; [intros J; exact J|]. exists 1. intros [|n] s L St; [lia|]. pose proof St as (A & B & C). exists (popped (deeper s)). split.
      + rewrite (lev w k o Ou Om Od n (VType c) s (deeper s) (Ret (Some (mktyperef w c)))); [reflexivity| |reflexivity].
        split; [reflexivity|]; split; discriminate.
      + apply popped_ends; auto.
    - (* tuple *) intros tab vs js tab' W IH ND V. pose proof (Lk _ V) as F. cbn in F. destruct (IH ND F) as (js2 & Wp & J & N & G).
      exists (JObj [(TUPLE, JList js2)]). split.
      { apply wp_obj; [split|constructor; [apply ep_list; auto|constructor]].
        - intros z Hz. discriminate Hz.
        - intros t I. cbn [In] in I. repeat (destruct I as [<-|I]; [reflexivity|]). destruct I. }
      split. { cbn [jwf map fst nodupb forallb] in *. rewrite !andb_true_iff. intros (_ & (_ & X) & _). rewrite (J X). auto. }
      exists (S N). intros [|n] s L St; [lia|].
      pose proof St as (A & B & C). destruct (G n (deeper s)) as (s1 & H1 & E1); [lia|apply starts_deeper; auto|cbn; lia|].
      exists (popped s1). split; [|apply ends_deeper; auto].
      rewrite (lev w k o Ou Om Od n (VTuple vs) s s1 (Ret (Some (JObj [(TUPLE, JList js2)])))); [reflexivity|split; [reflexivity|]; split; discriminate|].
      unfold get_flattener, list_recurse. rewrite bind_assoc, (bind_eq _ _ _ _ _ H1), Ou. reflexivity.
    - (* set *) intros tab l vs js tab' G W IH ND V. destruct (ok_loc w w' cl h ok Lk l _ V G) as (F & _). destruct (IH ND F) as (js2 & Wp & J & N & Go).
      exists (JObj [(SET_, JList js2)]). split.
      { apply wp_obj; [split|constructor; [apply ep_list; auto|constructor]].
        - intros z Hz. discriminate Hz.
        - intros t I. cbn [In] in I. repeat (destruct I as [<-|I]; [reflexivity|]). destruct I. }
      split. { cbn [jwf map fst nodupb forallb] in *. rewrite !andb_true_iff. intros (_ & (_ & X) & _). rewrite (J X). auto. }
      exists (S N). intros [|n] s L St; [lia|].
      pose proof St as (A & B & C). destruct (Go n (deeper s)) as (s1 & H1 & E1); [lia|apply starts_deeper; auto|cbn; lia|].
      rewrite <- A in G. exists (popped s1). split; [|apply ends_deeper; auto].
      rewrite (lev w k o Ou Om Od n (VLoc l) s s1 (Ret (Some (JObj [(SET_, JList js2)])))); [reflexivity|eapply LV; eauto; discriminate|].
      unfold get_flattener. rewrite (bind_eq _ _ _ _ _ (get_obj_eq l _ (deeper s) G)). cbv beta iota.
      unfold list_recurse. rewrite bind_assoc, (bind_eq _ _ _ _ _ H1), Ou. reflexivity.
    - (* reference *) intros tab l i ob G N1 N2 N3 I ND V. eexists. split; [apply wp_same|]. split; [intros J; exact J|]. exists 1. intros [|n] s L St; [lia|]. pose proof St as (A & B & C). rewrite <- A in G.
      assert (X : index_of (VLoc l) (p_objs (deeper s)) = Some i) by (cbn; rewrite C; apply index_of_map; auto).
      assert (MK : mkref o (VLoc l) (deeper s) = (Ret false, deeper s)).
      { unfold mkref, bind, log_ref. rewrite X, Ou, Om. reflexivity. }
      assert (GR : getref (VLoc l) (deeper s) = (Ret (JObj [(ID, JInt (Z.of_nat i))]), deeper s)).
      { unfold getref, bind, gets, ret. rewrite X. reflexivity. }
      exists (popped (deeper s)). split; [|apply popped_ends; auto].
      rewrite (lev w k o Ou Om Od n (VLoc l) s (deeper s) (Ret (Some (JObj [(ID, JInt (Z.of_nat i))])))); [reflexivity|eapply LV; eauto|].
      unfold get_flattener. rewrite (bind_eq _ _ _ _ _ (get_obj_eq l _ (deeper s) G)). cbv beta iota.
      destruct ob as [xs|xs|d|bs|i0|xs]; [|destruct (N1 xs); reflexivity| |destruct (N2 bs); reflexivity| |destruct (N3 xs); reflexivity].
      + rewrite (bind_eq _ _ _ _ _ MK). cbv beta iota. rewrite (bind_eq _ _ _ _ _ GR). reflexivity.
      + rewrite (bind_eq _ _ _ _ _ MK). cbv beta iota. rewrite (bind_eq _ _ _ _ _ GR). reflexivity.
      + unfold ref_obj_instance. rewrite Ou, bind_assoc, (bind_eq _ _ _ _ _ MK). cbv beta iota. rewrite (bind_eq _ _ _ _ _ GR). reflexivity.
    - (* list *) intros tab l vs js tab' NI G W IH ND V. pose proof (ok_loc w w' cl h ok Lk l _ V G) as F. cbn in F. destruct (IH (SN _ _ NI ND) F) as (js2 & Wp & J & N & Go).
      exists (JList js2). split; [apply wp_list; auto|]. split; [exact J|]. exists (S N). intros [|n] s L St; [lia|].
      pose proof St as (A & B & C). destruct (Go n (PStep.numbered (VLoc l) (deeper s))) as (s1 & H1 & E1); [lia|apply starts_numbered; auto|cbn; lia|].
      rewrite <- A in G. pose proof (not_numbered h _ _ _ St NI) as NN. exists (popped s1). split; [|eapply ends_numbered; eauto].
      rewrite (lev w k o Ou Om Od n (VLoc l) s s1 (Ret (Some (JList js2)))); [reflexivity|eapply LV; eauto; discriminate|].
      eapply get_flattener_list; eauto.
    - (* dict *) intros tab l d ob tab' NI G W IH ND V. pose proof (ok_loc w w' cl h ok Lk l _ V G) as F. cbn in F.
      destruct (fields_dom w k fs h _ _ _ _ W) as (Dm & Nd).
      destruct (IH (SN _ _ NI ND) (fun q I => proj1 (proj2 F q I))) as (ob2 & En & Fe & J & N & Go).
      exists (JObj ob2). split.
      { apply wp_obj; auto. split.
        - intros z Hz. change (u "py/object") with OBJECT in Hz. rewrite (field_names d ob F Dm OBJECT) in Hz by (left; reflexivity). discriminate Hz.
        - intros t I. apply (field_names d ob F Dm). cbn [In] in I. repeat (destruct I as [<-|I]; [try (left; reflexivity); right; auto|]). destruct I. }
      split; [apply jwf_fields; auto|]. exists (S N). intros [|n] s L St; [lia|].
      pose proof St as (A & B & C). destruct (Go n (PStep.numbered (VLoc l) (deeper s)) []) as (s1 & H1 & E1); [lia|apply starts_numbered; auto|cbn; lia|auto|].
      rewrite <- A in G. pose proof (not_numbered h _ _ _ St NI) as NN. exists (popped s1). split; [|eapply ends_numbered; eauto].
      rewrite (lev w k o Ou Om Od n (VLoc l) s s1 (Ret (Some (JObj ob2)))); [reflexivity|eapply LV; eauto; discriminate|].
      eapply get_flattener_dict; eauto.
    - (* instance *) intros tab l i dl d ob tab' NI G PC Gi Gd W IH ND V.
      destruct (inst_parts w w' cl h ok Lk l i V G dl d Gi Gd) as (_ & Sn & F & _). destruct (Fd l i V G) as (Fo & Wb & Sm).
      destruct (fields_dom w k fs h _ _ _ _ W) as (Dm & Nd).
      destruct (IH (SN _ _ NI ND) (fun q I => proj1 (proj2 F q I))) as (ob2 & En & Fe & J & N & Go).
      destruct (properties_go l i Sm) as (pj & Jp & Pj).
      exists (JObj ((PROPERTY, JObj pj) :: (OBJECT, JStr (importable_name (w_cls w (i_cls i)))) :: ob2)). split.
      { apply wp_prop.
        - split.
          + intros z Hz. cbn [sget] in Hz. exists (cname w (i_cls i)), (i_cls i). split; [destruct (seqb_spec (u "py/object") (u "py/object")) as [_|X]; [injection Hz as <-; reflexivity|destruct X; reflexivity]|]. split; [apply (fd_load _ _ _ _ Fo)|]. split; auto. apply (fd_handler _ _ _ _ Fo).
          + intros t I. cbn [sget].
            assert (X : sget t ob = None).
            { apply (field_names d ob F Dm). cbn [In] in I. repeat (destruct I as [<-|I]; [try (left; reflexivity); right; auto|]). destruct I. }
            destruct (seqb_spec t (u "py/object")) as [->|]; auto. cbn [In] in I. repeat (destruct I as [I|I]; [discriminate I|]). destruct I.
        - left. discriminate.
        - constructor; auto. apply ep_other; [right; reflexivity|apply wp_same]. }
      split.
      { intros Jj. apply jwf_obj.
        - cbn [map fst]. rewrite En. constructor; [|constructor; auto].
          + intros [X|X]; [discriminate X|]. apply (lack_names w h ok d ob F Dm) in X. apply name_parts in X as (_ & X & _). discriminate X.
          + intros X. apply (lack_names w h ok d ob F Dm) in X. apply name_parts in X as (_ & X & _). discriminate X.
        - cbn [map fst]. rewrite En. intros x [<-|[<-|I]]; try reflexivity. apply (lack_names w h ok d ob F Dm) in I. apply name_parts in I. tauto.
        - cbn [map snd forallb]. rewrite Jp. change (jwf (JStr (importable_name (w_cls w (i_cls i))))) with (str_ok (cname w (i_cls i))). rewrite Sn. cbn [andb]. apply J.
          cbn [jwf] in Jj. apply andb_true_iff in Jj as (_ & Jj). cbn [forallb] in Jj. apply andb_true_iff in Jj as (_ & Jj).
          rewrite forallb_forall in *. intros x I. apply in_map_iff in I as ([a z] & <- & I). specialize (Jj _ I). cbn in Jj. apply andb_true_iff in Jj. tauto. }
      exists (S N). intros [|n] s L St; [lia|]. pose proof St as (A & B & C).
      destruct (Go n (PStep.numbered (VLoc l) (deeper s)) [(PROPERTY, JObj pj); (OBJECT, JStr (importable_name (w_cls w (i_cls i))))]) as (s1 & H1 & E1); [lia|apply starts_numbered; auto|cbn; lia| |].
      { intros a I X. apply (lack_names w h ok d ob F Dm) in I. apply name_parts in I as (_ & I & _). cbn [map fst In] in X.
        destruct X as [<-|[<-|[]]]; discriminate I. }
      rewrite <- A in G, Gd. pose proof (not_numbered h _ _ _ St NI) as NN. exists (popped s1). split; [|eapply ends_numbered; eauto].
      cbn [app] in H1.
      rewrite (lev w k o Ou Om Od n (VLoc l) s s1 (Ret (Some (JObj ((PROPERTY, JObj pj) :: (OBJECT, JStr (importable_name (w_cls w (i_cls i)))) :: ob2))))); [reflexivity|eapply LV; eauto; discriminate|].
      exact (by_instance w k o Ou n l i s _ _ NN G (plain_inst_gop n (flatten w k o n) l i dl d _ (PStep.numbered (VLoc l) (deeper s)) s1 pj PC G Gi Gd (Pj _ (PStep.numbered (VLoc l) (deeper s)) A) H1)).
    - (* hole *) intros tab l j NI Ho ND V. destruct (hole_inst w k fs h l j Ho) as (i & G & NP). destruct (ok_loc w w' cl h ok Lk l _ V G) as (P & _). contradiction.
    - intros tab ND _. exists []. split; [constructor|]. split; auto. exists 0. intros n s _ (A & B & C) D. exists s. split; [reflexivity|]. split; auto.
    - intros tab v j tab1 vs js tab2 W1 IH1 W2 IH2 ND V. inversion V as [|? ? V1 V2]; subst.
      destruct (IH1 ND V1) as (j2 & Wp1 & J1 & N1 & G1). destruct (IH2 (ND1 _ _ _ _ W1 ND) V2) as (js2 & Wp2 & J2 & N2 & G2).
      exists (j2 :: js2). split; [constructor; auto|]. split; [cbn [forallb]; rewrite !andb_true_iff; intros (X & Y); auto|].
      exists (Nat.max N1 N2). intros n s L St D. destruct (G1 n s) as (s1 & H1 & E1); [lia|auto|].
      destruct (starts_ends o h _ _ _ _ St D E1) as (St1 & D1). destruct (G2 n s1) as (s2 & H2 & E2); [lia|auto|auto|].
      exists s2. split; [|eapply ends_trans; eauto]. cbn [mapM]. rewrite (bind_eq _ _ _ _ _ H1), (bind_eq _ _ _ _ _ H2). reflexivity.
    - intros tab ND _. exists []. split; [reflexivity|]. split; [constructor|]. split; auto.
      exists 0. intros n s acc _ (A & B & C) D _. exists s. rewrite app_nil_r. unfold flatten_items. rewrite Ok. split; [reflexivity|]. split; auto.
    - intros tab a v j tab1 d ob tab2 Wn Na Nf Ni W1 IH1 W2 IH2 ND V.
      destruct (IH1 ND (V _ (or_introl eq_refl))) as (j2 & Wp1 & J1 & N1 & G1).
      destruct (IH2 (ND1 _ _ _ _ W1 ND) (fun q I => V q (or_intror I))) as (ob2 & En & Fe & J2 & N2 & G2).
      exists ((a, j2) :: ob2). split; [cbn; congruence|]. split; [constructor; auto; apply ep_other; [left; apply wire_list|]; auto|].
      split; [cbn [map snd forallb]; rewrite !andb_true_iff; intros (X & Y); auto|].
      exists (Nat.max N1 N2). intros n s acc L St D Ac. destruct (G1 n s) as (s1 & H1 & E1); [lia|auto|].
      destruct (starts_ends o h _ _ _ _ St D E1) as (St1 & D1).
      assert (NK : ~ In a (map fst acc)) by (apply Ac; left; reflexivity).
      destruct (G2 n s1 (acc ++ [(a, j2)])) as (s2 & H2 & E2); [lia|auto|auto| |].
      { intros b I. rewrite map_app, in_app_iff. intros [X|[X|[]]]; [exact (Ac b (or_intror I) X)|]. cbn in X. subst b. auto. }
      exists s2. split; [|eapply ends_trans; eauto]. unfold flatten_items in *. rewrite Ok in *. rewrite PlainEncode.items_nil in *.
      rewrite <- app_assoc in H2. cbn [app] in H2. cbn [foldM fst snd].
      rewrite (bind_eq _ _ _ (acc ++ [(a, j2)]) s1); [exact H2|]. unfold flatten_key_value_pair. unfold bind at 1, gets.
      assert (PK : is_picklable w (p_heap s) (VStr a) v = true).
      { unfold is_picklable. rewrite wire_reserved in Wn. rewrite Wn. cbn [negb andb]. apply orb_true_iff. right. unfold is_function.
        destruct v; auto; [destruct (Nf f); reflexivity|]. rewrite (proj1 St). destruct (hget h l) as [[]|] eqn:G; auto. rewrite (Ni l i eq_refl G). reflexivity. }
      rewrite PK. cbn [negb]. unfold readonly_skip. rewrite Or. rewrite (bind_eq _ _ s false s) by reflexivity. rewrite (bind_eq _ _ s a s) by reflexivity.
      rewrite (bind_eq _ _ _ _ _ H1). rewrite PlainEncode.sset_new by auto. reflexivity.
  Qed.
End props.
