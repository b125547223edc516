(** Round trip, part 5: references, tuples, sets, lists and the item loop of dicts. *)
From Verif Require Import PyStr Tags Json JsonText JsonTextProofs B64 B85 Base Heap Registry LoadClass Pickler Unpickler SpecGraph.
From Verif Require Import CodecProofs PlainProofs WP RTBase RTStep RTPure RTDesc SpecRefs RTWalk.
Open Scope nat_scope.
Local Open Scope monad_scope.

(** ** Distinct keys *)
Lemma kdistinct_split a x b : kdistinct (a ++ x :: b) = true ->
  existsb (key_eqb x) a = false /\ existsb (key_eqb x) b = false /\ kdistinct (a ++ b) = true.
Proof.
  induction a as [|y a IH]; simpl; intros H.
  - apply andb_true_iff in H as [H1 H2]. apply negb_true_iff in H1. auto.
  - apply andb_true_iff in H as [H1 H2]. apply negb_true_iff in H1. rewrite existsb_app in H1. simpl in H1.
    apply orb_false_iff in H1 as [H1 H3]. apply orb_false_iff in H3 as [H3 H4].
    destruct (IH H2) as (A & B & C). rewrite key_eqb_sym, H3, A, B, C. rewrite existsb_app, H1, H4. auto.
Qed.
Lemma existsb_key_Forall2 (P : val -> val -> Prop) x x' l l' : Forall2 P l l' ->
  (forall y y', In y l -> P y y' -> key_eqb x y = false -> key_eqb x' y' = false) ->
  existsb (key_eqb x) l = false -> existsb (key_eqb x') l' = false.
Proof.
  induction 1 as [|y y' l l' H F IH]; intros K E; simpl in *; auto.
  apply orb_false_iff in E as [E1 E2]. rewrite (K y y'); auto. simpl. apply IH; auto. intros; eapply K; eauto.
Qed.
Lemma dset_snoc q v d : existsb (key_eqb q) (map fst d) = false -> dset q v d = d ++ [(q, v)].
Proof.
  induction d as [|[q' v'] d IH]; simpl; intros H; auto. apply orb_false_iff in H as [H1 H2].
  rewrite H1, IH; auto.
Qed.
Lemma dget_snoc q q' v d : dget q (d ++ [(q', v)]) = match dget q d with Some x => Some x | None => if key_eqb q q' then Some v else None end.
Proof. induction d as [|[q2 v2] d IH]; simpl; auto. destruct (key_eqb q q2); auto. Qed.
Lemma dget_None q d : existsb (key_eqb q) (map fst d) = false <-> dget q d = None.
Proof.
  induction d as [|[q' v'] d IH]; simpl; [tauto|]. destruct (key_eqb q q'); simpl; auto.
  split; discriminate.
Qed.

Lemma foldM_app {S A B} (f : B -> A -> M S B) l1 l2 b s :
  foldM f (l1 ++ l2) b s = (b1 <- foldM f l1 b ;; foldM f l2 b1) s.
Proof.
  revert b s. induction l1 as [|x l1 IH]; intros b s; simpl.
  - reflexivity.
  - rewrite bind_assoc. apply bind_ext; auto.
Qed.
Lemma foldM_ext {S A B} (f g : B -> A -> M S B) l : (forall b x s, In x l -> f b x s = g b x s) ->
  forall b s, foldM f l b s = foldM g l b s.
Proof.
  induction l as [|x l IH]; intros H b s; simpl; auto.
  apply bind_ext; [apply H; left; auto|]. intros b1 s1 _. apply IH. intros; apply H; right; auto.
Qed.
Lemma foldM_skip {S A} (f : unit -> A -> M S unit) l : (forall x s, In x l -> f tt x s = (Ret tt, s)) ->
  forall s, foldM f l tt s = (Ret tt, s).
Proof.
  induction l as [|x l IH]; intros H s; simpl; auto.
  rewrite (bind_eq _ _ s tt s) by (apply H; left; auto). apply IH. intros; apply H; right; auto.
Qed.
Lemma foldM_skip_data {S A B} (f : B -> A -> M S B) l : (forall b x s, In x l -> f b x s = (Ret b, s)) ->
  forall b s, foldM f l b s = (Ret b, s).
Proof.
  induction l as [|x l IH]; intros H b s; simpl; auto.
  rewrite (bind_eq _ _ s b s) by (apply H; left; auto). apply IH. intros; apply H; right; auto.
Qed.
(** A fold that does nothing on some elements is a fold over the others. *)
Lemma foldM_filter {S A B} (f : B -> A -> M S B) (p : A -> bool) l :
  (forall b x s, In x l -> p x = false -> f b x s = (Ret b, s)) ->
  forall b s, foldM f l b s = foldM f (filter p l) b s.
Proof.
  induction l as [|x l IH]; intros H b s; simpl; auto. destruct (p x) eqn:P; simpl.
  - apply bind_ext; auto. intros. apply IH. intros; apply H; auto; right; auto.
  - rewrite (bind_eq _ _ s b s) by (apply H; auto; left; auto). apply IH. intros; apply H; auto; right; auto.
Qed.

Lemma name_ok_split keys a : name_ok keys a = true ->
  str_ok a = true /\ is_reserved a = false /\ seqb a B64 = false /\ seqb a B85 = false /\
  (keys = true -> prefixb JSON_KEY a = false).
Proof.
  unfold name_ok. rewrite !andb_true_iff. intros ((((A & B) & C) & D) & E).
  rewrite negb_true_iff in B, C, D. repeat split; auto. intros ->.
  change (negb (prefixb JSON_KEY a) = true) in E. apply negb_true_iff in E. exact E.
Qed.

Lemma wp_bind_inv {S A B} (m : M S A) (f : A -> M S B) s (Q : B -> S -> Prop) :
  wp (bind m f) s Q -> wp m s (fun a s1 => wp (f a) s1 Q).
Proof. unfold wp, bind. destruct (m s) as [[a|e|] s1]; auto. Qed.

Section cont.
  Variables (w : world) (k : hooks) (keys : bool) (cl : list (pystr * val)) (h : heap) (bs : nat) (po : popts) (uo : uopts).
  Notation cls := (w_cls w).
  Notation shape := (shape w k keys cl h).
  Notation reach := (reach w k keys cl h).
  Notation sub := (sub w k keys cl h).
  Notation supported := (supported w k keys cl h).
  Notation Inv := (Inv cl h bs).
  Notation front := (front w k keys cl h bs).
  Notation adv := (adv w k keys cl h bs).
  Notation head_ok := (head_ok h).
  Notation pdoc := (pdoc w po).
  Notation desc := (desc w k keys cl h po).
  Notation kname := (kname w k keys cl h po).
  Notation kapart := (kapart w k h).
  Notation key_ok := (key_ok w keys h).

  Hypothesis Ou : po_unpicklable po = true.
  Hypothesis Or : po_make_refs po = true.
  Hypothesis Od : po_max_depth po = None.
  Hypothesis Op : po_props po = false.
  Hypothesis Oro : po_readonly po = false.
  Hypothesis Os : po_sort po = false.
  Hypothesis Ok : po_keys po = keys.
  Hypothesis Uk : uo_keys uo = keys.
  Hypothesis Uv : uo_v1 uo = false.

  (** No instance is encoded by a handler: documents of handlers may hold lists that have no number. *)
  Definition unhandled : Prop := forall l i, hget h l = Some (OInst i) -> no_handler w (i_cls i).
  Definition counted (j : json) (s s' : pst) : Prop := unhandled -> walk keys (length (p_objs s)) j (length (p_objs s')).
  (** What a step has to deliver. *)
  Definition delivers (m : nat) (v : val) (s : pst) (t : ust) (j : json) (s' : pst) : Prop :=
    jwf j = true /\ (desc (p_objs s') v j /\ counted j s s') /\
    exists v' t', restore w uo m j t = (Ret v', t') /\ adv none none s t s' t' /\
                  vmatch h (u_heap t') bs (rel s' t') v v'.
  Definition PP (n m : nat) : Prop := forall v s t, supported v -> Inv s t -> front s t v ->
    wp (flatten w k po n v) s (fun j s' => delivers m v s t j s').

  (** ** Numbering *)
  Lemma mkref_cases v s :
    (exists i, index_of v (p_objs s) = Some i /\ mkref po v s = (Ret false, s)) \/
    (~ In v (p_objs s) /\ mkref po v s = (Ret true, openE v s)).
  Proof.
    unfold mkref, bind, log_ref, ret. rewrite Ou, Or. cbn [negb orb].
    destruct (index_of v (p_objs s)) as [i|] eqn:E; [left; eauto|]. right. split; auto. apply index_of_None; auto.
  Qed.
  Lemma restore_id_doc m t i x : nth_error (u_objs t) i = Some x ->
    restore w uo (S m) (JObj [(ID, JInt (Z.of_nat i))]) t = (Ret x, t).
  Proof.
    intros H. change (restore w uo (S m) (JObj [(ID, JInt (Z.of_nat i))]) t) with (restore_id [(ID, JInt (Z.of_nat i))] t).
    unfold restore_id, bind, gets. change (sget ID [(ID, JInt (Z.of_nat i))]) with (Some (JInt (Z.of_nat i))).
    unfold py_index. destruct (Z.leb_spec 0 (Z.of_nat i)); [|lia]. rewrite Nat2Z.id, H. reflexivity.
  Qed.
  Lemma front_ref s t l i : front s t (VLoc l) -> index_of (VLoc l) (p_objs s) = Some i ->
    exists l', nth_error (u_objs t) i = Some (VLoc l') /\ rel s t l l'.
  Proof.
    intros F E. apply index_of_Some in E. destruct (F i l E) as [(l' & D & _)|(_ & [(l' & D)|C])].
    - exists l'. split; auto. exists i; auto.
    - exists l'. split; auto. exists i; auto.
    - exfalso. apply C. constructor.
  Qed.
  Lemma deliver_ref m s t l i : Inv s t -> front s t (VLoc l) -> index_of (VLoc l) (p_objs s) = Some i ->
    wp (getref (VLoc l)) s (fun j s' => delivers (S m) (VLoc l) s t j s').
  Proof.
    intros I F E. unfold getref. apply wp_bind, wp_gets, wp_ret. rewrite E.
    destruct (front_ref s t l i F E) as (l' & D & R). split; [reflexivity|].
    split; [split; [apply de_ref, index_of_Some, E|]; intros _; apply walk_ref; apply index_of_Some in E; apply nth_error_Some; congruence|].
    exists (VLoc l'), t. split; [apply restore_id_doc; auto|]. split; [apply adv_refl; auto|]. apply vm_obj; auto.
  Qed.

  Lemma front_depth s t v d : front s t v -> front (set_depth d s) t v.
  Proof. intros F i l H. exact (F i l H). Qed.
  Lemma adv_set_depth s t s1 t1 : Inv s t -> adv none none (set_depth (p_depth s + 1)%Z s) t s1 t1 ->
    adv none none s t (set_depth (p_depth s) s1) t1.
  Proof.
    intros I [A B C D E F G H]. constructor; auto. apply inv_depth; auto. apply I.
  Qed.
  (** From the flattener to [_flatten]. *)
  Lemma deliver_push n m v s t : Inv s t -> front s t v -> prim_json v = None ->
    (forall b, v <> VBytes b) -> (forall l b, v = VLoc l -> hget h l <> Some (OByteArray b)) ->
    (forall s, Inv s t -> front s t v ->
       wp (get_flattener w k po n (flatten w k po n) v) s (fun r s1 => exists j, r = Some j /\ delivers m v s t j s1)) ->
    wp (flatten w k po (S n) v) s (fun j s' => delivers m v s t j s').
  Proof.
    intros I F P B A H. apply wp_flatten_push; auto.
    - apply I.
    - intros l b E. rewrite (i_heap _ _ _ _ _ I). auto.
    - eapply wp_mono; [apply H|].
      + apply inv_depth; auto. pose proof (i_depth _ _ _ _ _ I). lia.
      + apply front_depth; auto.
      + intros r s1 _ (j & -> & W & DE & v' & t' & R & AD & M). exists j. split; auto.
        split; [apply AD|]. split; auto. split; [exact DE|]. exists v', t'. split; auto. split; auto. apply adv_set_depth; auto.
  Qed.

  Lemma desc_adv O J s t s' t' v j : adv O J s t s' t' -> desc (p_objs s) v j -> desc (p_objs s') v j.
  Proof.
    intros A. apply desc_mono. intros i x Hx. destruct (a_E _ _ _ _ _ _ _ _ _ _ _ _ A) as [X E]. rewrite E. apply nth_error_app_l; auto.
  Qed.
  Lemma kname_adv O J s t s' t' q x : adv O J s t s' t' -> kname (p_objs s) q x -> kname (p_objs s') q x.
  Proof.
    intros A. apply kname_mono. intros i y Hy. destruct (a_E _ _ _ _ _ _ _ _ _ _ _ _ A) as [X E]. rewrite E. apply nth_error_app_l; auto.
  Qed.

  Section level.
    Variables (n m : nat).
    Hypothesis IH : PP n m.
    Notation fl := (flatten w k po n).
    Notation rs := (restore w uo m).

    (** ** Lists of values *)
    Lemma rt_mapM vs : forall s t, Inv s t -> (forall v, In v vs -> supported v) ->
      (forall v s1 t1, In v vs -> adv none none s t s1 t1 -> front s1 t1 v) ->
      wp (mapM fl vs) s (fun js s' => forallb jwf js = true /\ length js = length vs /\ Forall2 (desc (p_objs s')) vs js /\ (unhandled -> walks keys (length (p_objs s)) js (length (p_objs s'))) /\
        exists vs' t', mapM rs js t = (Ret vs', t') /\ adv none none s t s' t' /\
          Forall2 (vmatch h (u_heap t') bs (rel s' t')) vs vs').
    Proof.
      induction vs as [|v vs IHv]; intros s t I S F; cbn [mapM].
      - apply wp_ret. split; [reflexivity|]. split; [reflexivity|]. split; [constructor|]. split; [intros _; apply walks_nil|]. exists [], t. split; [reflexivity|].
        split; [apply adv_refl; auto | constructor].
      - apply wp_bind. eapply wp_mono.
        { apply (IH v s t); auto; [apply S; left; auto|]. apply F; [left; auto | apply adv_refl; auto]. }
        intros j s1 _ (W & [DE WK] & v' & t1 & R & A & M). apply wp_bind. eapply wp_mono.
        { apply (IHv s1 t1); [apply A | intros; apply S; right; auto|].
          intros x s2 t2 Hx A2. apply F; [right; auto|]. eapply adv_trans; eauto. intros ? []. }
        intros js s2 _ (W2 & L & DS & WS & vs' & t2 & R2 & A2 & M2). apply wp_ret. cbn [forallb length mapM]. rewrite W, W2, L.
        split; [reflexivity|]. split; [reflexivity|]. split; [constructor; auto; eapply desc_adv; eauto|].
        split; [intros NH; eapply walks_cons; [apply WK; auto|apply WS; auto]|]. exists (v' :: vs'), t2. split.
        { rewrite (bind_eq _ _ _ _ _ R), (bind_eq _ _ _ _ _ R2). reflexivity. }
        split; [eapply adv_trans; eauto; intros ? []|]. constructor.
        + eapply vmatch_adv; [exact A2 | exact M].
        + exact M2.
    Qed.

    (** Elements added to a set: the decoder's loop. *)
    Lemma rt_set vs : forall acc acc' s t, Inv s t -> (forall v, In v vs -> supported v) ->
      (forall v s1 t1, In v vs -> adv none none s t s1 t1 -> front s1 t1 v) ->
      forallb (hashable cls h) (acc ++ vs) = true -> kdistinct (acc ++ vs) = true ->
      Forall2 (vmatch h (u_heap t) bs (rel s t)) acc acc' ->
      wp (mapM fl vs) s (fun js s' => forallb jwf js = true /\ (unhandled -> walks keys (length (p_objs s)) js (length (p_objs s'))) /\
        exists vs' t', foldM (fun acc j => v <- rs j ;; h <- gets u_heap ;;
                                if hashable cls h v then ret (set_add v acc) else raise ETypeError) js acc' t
                       = (Ret (acc' ++ vs'), t') /\ adv none none s t s' t' /\
          Forall2 (vmatch h (u_heap t') bs (rel s' t')) (acc ++ vs) (acc' ++ vs')).
    Proof.
      induction vs as [|v vs IHv]; intros acc acc' s t I S F HH HD M0; cbn [mapM].
      - apply wp_ret. split; [reflexivity|]. split; [intros _; apply walks_nil|]. exists [], t. split; [rewrite app_nil_r; reflexivity|].
        split; [apply adv_refl; auto|]. rewrite !app_nil_r. auto.
      - apply wp_bind. eapply wp_mono.
        { apply (IH v s t); auto; [apply S; left; auto|]. apply F; [left; auto | apply adv_refl; auto]. }
        intros j s1 _ (W & [_ WK] & v' & t1 & R & A & M). apply wp_bind.
        assert (M1 : Forall2 (vmatch h (u_heap t1) bs (rel s1 t1)) acc acc').
        { eapply vmatches_adv; [exact A | exact M0]. }
        pose proof M as Mv.
        assert (HV : hashable cls h v = true).
        { rewrite forallb_forall in HH. apply HH. apply in_or_app. right. left. auto. }
        assert (NV : existsb (key_eqb v') acc' = false).
        { apply kdistinct_split in HD as (HD & _ & _). eapply existsb_key_Forall2; [exact M1| |exact HD].
          intros y y' Hy My. rewrite forallb_forall in HH. 
          apply (key_eqb_match w cl h bs s1 t1 bs); auto; [apply A|]. apply HH. apply in_or_app; auto. }
        eapply wp_mono.
        { apply (IHv (acc ++ [v]) (acc' ++ [v']) s1 t1).
          - apply A.
          - intros; apply S; right; auto.
          - intros x s2 t2 Hx A2. apply F; [right; auto|]. eapply adv_trans; eauto. intros ? [].
          - rewrite <- app_assoc. exact HH.
          - rewrite <- app_assoc. exact HD.
          - apply Forall2_app; auto. }
        intros js s2 _ (W2 & WS & vs' & t2 & R2 & A2 & M2). apply wp_ret. cbn [forallb foldM]. rewrite W, W2.
        split; [reflexivity|]. split; [intros NH; eapply walks_cons; [apply WK; auto|apply WS; auto]|]. exists (v' :: vs'), t2. split.
        { rewrite bind_assoc. rewrite (bind_eq _ _ _ _ _ R).
          rewrite bind_assoc. unfold bind at 1, gets. rewrite (hash_match w cl h bs s1 t1 bs v v'); auto; [|apply A].
          rewrite (bind_eq _ _ t1 (acc' ++ [v']) t1) by (unfold set_add; rewrite NV; reflexivity).
          etransitivity; [exact R2|]. rewrite <- app_assoc. reflexivity. }
        split; [eapply adv_trans; eauto; intros ? []|]. rewrite <- !app_assoc in M2. exact M2.
    Qed.

    (** ** Items of dicts, attributes of objects *)
    Lemma name_ok_key a : name_ok keys a = true -> skey_ok keys a = true /\ escaped keys a = false.
    Proof.
      intros N. destruct (name_ok_split _ _ N) as (A & B & C & D & E). unfold skey_ok, escaped. rewrite A, B, C, D. cbn [negb andb].
      rewrite orb_true_r. split; auto. destruct (Bool.bool_dec keys true) as [K|K]; [|apply not_true_is_false in K]; rewrite K; auto.
      rewrite E by auto. reflexivity.
    Qed.
    Lemma kname_nodup t objs (its : list (val * val)) (out : jobj) : u_classes t = cl -> (forall kv, In kv its -> key_ok (fst kv) = true) ->
      ForallOrdPairs kapart (map fst its) -> Forall2 (fun kv o => kname objs (fst kv) (fst o)) its out -> NoDup (map fst out).
    Proof.
      intros C K FO F. induction F as [|kv o its out H F IHF]; simpl in *; constructor.
      - inversion FO as [|? ? H1 H2]; subst. intros Ho. apply in_map_iff in Ho as (o2 & E & Ho).
        apply In_nth_error in Ho as [i Hi]. destruct (Forall2_nth_r _ _ _ _ _ F Hi) as (kv2 & Hk & N2).
        apply nth_error_In in Hk. rewrite Forall_forall in H1. specialize (H1 (fst kv2) (in_map fst _ _ Hk)).
        eapply (kname_neq w k keys cl h po uo objs t (fst kv) (fst kv2)); eauto.
      - apply IHF; auto. inversion FO; auto.
    Qed.
    Lemma kname_In objs (its : list (val * val)) (out : jobj) x : Forall2 (fun kv o => kname objs (fst kv) (fst o)) its out -> In x (map fst out) ->
      exists kv, In kv its /\ kname objs (fst kv) x.
    Proof.
      intros F Hx. apply in_map_iff in Hx as (o & <- & Ho). apply In_nth_error in Ho as [i Hi].
      destruct (Forall2_nth_r _ _ _ _ _ F Hi) as (kv & Hk & N). apply nth_error_In in Hk. eauto.
    Qed.

    (** One item, as the encoder sees it after the two passes are merged. *)
    Definition estep (dt : jobj) (kv : val * val) : MP jobj :=
      if keys then
        if is_str (fst kv) then flatten_string_key_value_pair w k po fl (fst kv) (snd kv) dt
        else flatten_non_string_key_value_pair w po fl (fst kv) (snd kv) dt
      else flatten_key_value_pair w k po fl (fst kv) (snd kv) dt.
    Lemma string_pass_skip q v dt s : keys = true -> is_str q = false ->
      flatten_string_key_value_pair w k po fl q v dt s = (Ret dt, s).
    Proof.
      intros E T. unfold flatten_string_key_value_pair, bind at 1, gets. rewrite Ok, E.
      destruct q; try discriminate; destruct (negb _); reflexivity.
    Qed.
    Lemma nonstring_pass_skip q v dt s : is_str q = true ->
      flatten_non_string_key_value_pair w po fl q v dt s = (Ret dt, s).
    Proof.
      intros T. unfold flatten_non_string_key_value_pair, bind at 1, gets. destruct q; try discriminate.
      destruct (negb _); reflexivity.
    Qed.
    Lemma flatten_items_merge d ex dt s : (keys = false -> forall kv, In kv d -> is_str (fst kv) = true) ->
      flatten_items w k po fl d ex dt s = foldM estep (strings_first (items ex d)) dt s.
    Proof.
      intros HK. unfold flatten_items. rewrite Ok. unfold strings_first. destruct (Bool.bool_dec keys true) as [E|E]; [|apply not_true_is_false in E]; rewrite E.
      - rewrite foldM_app. apply bind_ext.
        + rewrite (foldM_filter _ (fun kv => is_str (fst kv))).
          * apply foldM_ext. intros b x s0 Hx. apply filter_In in Hx as [_ Hx]. unfold estep. rewrite E, Hx. reflexivity.
          * intros b [q v] s0 _ Hq. apply string_pass_skip; auto.
        + intros b s1 _. rewrite (foldM_filter _ (fun kv => negb (is_str (fst kv)))).
          * apply foldM_ext. intros b0 x s0 Hx. apply filter_In in Hx as [_ Hx]. unfold estep. rewrite E. apply negb_true_iff in Hx. rewrite Hx. reflexivity.
          * intros b0 [q v] s0 _ Hq. apply nonstring_pass_skip. simpl in Hq. apply negb_false_iff in Hq. auto.
      - assert (X : forall kv, In kv (items ex d) -> is_str (fst kv) = true).
        { intros kv H. apply filter_In in H as [H _]. apply HK; auto. }
        assert (F1 : filter (fun kv => is_str (fst kv)) (items ex d) = items ex d).
        { revert X. generalize (items ex d). induction l as [|x l IHl]; intros X; simpl; auto.
          rewrite X by (left; auto). f_equal. apply IHl. intros; apply X; right; auto. }
        assert (F2 : filter (fun kv => negb (is_str (fst kv))) (items ex d) = []).
        { revert X. generalize (items ex d). induction l as [|x l IHl]; intros X; simpl; auto.
          rewrite X by (left; auto). apply IHl. intros; apply X; right; auto. }
        rewrite F1, F2, app_nil_r. apply foldM_ext. intros b x s0 _. unfold estep. rewrite E. reflexivity.
    Qed.

    Lemma supported_picklable s t q v : Inv s t -> supported v -> (forall a, q = VStr a -> is_reserved a = false) ->
      is_picklable w (p_heap s) q v = true.
    Proof.
      intros I S K. rewrite (i_heap _ _ _ _ _ I).
      assert (G : is_module_function w v || negb (is_function w h v) = true).
      { pose proof (supported_node _ _ _ _ _ _ S) as N. destruct v; auto; simpl in *.
        - destruct N as (-> & _). reflexivity.
        - destruct N as ((cs & N) & _). destruct N as [? ? E|? ? E|? ? E|? ? E|? ? ? ? ? ? E ? ? C|? ? ? ? ? ? E ? ? C|? ? ? ? ? E ? ? C|? ? ? ? ? ? E ? ? C|? ? ? ? ? ? E ? C|? ? ? ? ? ? ? E ? ? C|? ? ? ? ? ? ? ? E ? ? C|? ? ? ? ? E ? ? C|? ? ? ? ? E ? C|? ? ? ? ? ? ? ? ? ? E C];
            rewrite E; auto; first [destruct C as (_ & _ & _ & C & _); rewrite C; reflexivity|destruct C as (_ & _ & C & _); rewrite C; reflexivity|apply rd_isfun in C; rewrite C; reflexivity]. }
      unfold is_picklable. destruct q; auto. rewrite (K s0 eq_refl), G. reflexivity.
    Qed.

    (** The encoder's side of one item. *)
    Lemma wp_estep q v dt s t (Q : jobj -> pst -> Prop) : Inv s t -> supported v -> key_ok q = true ->
      (forall a, q = VStr a -> escaped keys a = false -> wp (fl v) s (fun j s1 => Q (sset a j dt) s1)) ->
      (plain_key keys q = false -> keys = true ->
         wp (fl q) s (fun jq s1 => wp (fl v) s1 (fun j s2 => Q (sset (JSON_KEY ++ dumps jq) j dt) s2))) ->
      wp (estep dt (q, v)) s Q.
    Proof.
      intros I Sv K H1 H2. unfold estep. cbn [fst snd].
      assert (ESC : plain_key keys q = false -> keys = true -> wp (ks <- escape_key w po fl q ;; j <- fl v ;; ret (sset ks j dt)) s Q).
      { intros P EK. apply wp_bind. unfold escape_key, pflatten. rewrite Os. apply wp_bind, wp_bind, wp_ret, wp_bind, wp_ret.
        eapply wp_mono; [apply H2; auto|]. intros jq s1 _ W. apply wp_ret. apply wp_bind.
        eapply wp_mono; [exact W|]. intros j s2 _ HQ. apply wp_ret. exact HQ. }
      destruct (is_str q) eqn:T.
      - destruct q as [| | | |a| | | | | | | | |]; try discriminate.
        destruct (escaped keys a) eqn:EA.
        + unfold escaped in EA. apply andb_true_iff in EA as [EK EA]. rewrite EK.
          unfold flatten_string_key_value_pair. apply wp_bind, wp_gets. rewrite EA, Ok, EK. cbn [andb]. apply ESC; auto.
          unfold plain_key. cbn [is_str is_escaped]. unfold escaped. rewrite EK, EA. reflexivity.
        + specialize (H1 a eq_refl EA).
          assert (NR : is_reserved a = false).
          { cbn [SpecGraph.key_ok] in K. unfold skey_ok in K. apply andb_true_iff in K as [_ K]. unfold escaped in EA.
            destruct (Bool.bool_dec keys true) as [E|E]; [|apply not_true_is_false in E]; rewrite E in *; cbn [andb orb] in *.
            - apply orb_false_iff in EA. tauto.
            - apply negb_true_iff in K. auto. }
          assert (PK : is_picklable w (p_heap s) (VStr a) v = true) by (eapply supported_picklable; eauto; intros b Eb; injection Eb as <-; auto).
          destruct (Bool.bool_dec keys true) as [E|E]; [|apply not_true_is_false in E]; rewrite E.
          * unfold flatten_string_key_value_pair. apply wp_bind, wp_gets.
            unfold escaped in EA. rewrite E in EA. cbn [andb] in EA. rewrite EA. cbn [andb]. rewrite PK. cbn [negb].
            apply wp_bind. eapply wp_mono; [exact H1|]. intros j s1 _ HQ. apply wp_ret. exact HQ.
          * unfold flatten_key_value_pair. apply wp_bind, wp_gets. rewrite PK. cbn [negb]. apply wp_bind.
            unfold readonly_skip. rewrite Oro. apply wp_ret. apply wp_bind. eapply wp_lift; [reflexivity|].
            apply wp_bind. eapply wp_mono; [exact H1|]. intros j s1 _ HQ. apply wp_ret. exact HQ.
      - assert (P : plain_key keys q = false) by (unfold plain_key; rewrite T; reflexivity).
        pose proof (unplain_keys w keys h q P K) as E. rewrite E. unfold flatten_non_string_key_value_pair. apply wp_bind, wp_gets.
        rewrite (supported_picklable s t q v) by (auto; intros; subst; discriminate). cbn [negb].
        apply (wp_eq _ (ks <- escape_key w po fl q ;; j <- fl v ;; ret (sset ks j dt))).
        { rewrite Ok, E. destruct q; try discriminate; reflexivity. }
        auto.
    Qed.

    (** The step with a check that always succeeds, to reason about reordered runs. *)
    Definition gstep (dt : jobj) (kv : val * val) : MP jobj :=
      fun s => if (0 <=? p_depth s)%Z then estep dt kv s else (Exc EUnmodelled, s).
    Lemma wp_gstep dt kv s Q : (0 <= p_depth s)%Z -> wp (estep dt kv) s Q -> wp (gstep dt kv) s Q.
    Proof. intros D H. apply Z.leb_le in D. unfold wp, gstep in *. rewrite D. exact H. Qed.
    Lemma gstep_wp dt kv s Q : wp (gstep dt kv) s Q -> (0 <= p_depth s)%Z /\ wp (estep dt kv) s Q.
    Proof. unfold wp, gstep. destruct (Z.leb_spec 0 (p_depth s)); [auto|intros []]. Qed.
    Lemma gfold_wp its : forall dt s Q, wp (foldM gstep its dt) s Q -> wp (foldM estep its dt) s Q.
    Proof.
      induction its as [|kv its IHi]; intros dt s Q H; [exact H|]. cbn [foldM] in *. apply wp_bind. apply wp_bind_inv in H.
      apply gstep_wp in H as [_ H]. eapply wp_mono; [exact H|]. auto.
    Qed.

    (** The loop over items: [dbody] is the decoder's loop body, [Jacc acc s t] says that the
        items acc have been stored. *)
    Definition item_doc (objs : list val) (kv : val * val) (o : pystr * json) : Prop :=
      kname objs (fst kv) (fst o) /\ desc objs (snd kv) (snd o).
    Section loop.
      Variables (O : loc -> Prop) (s0 : pst) (t0 : ust) (data0 : jobj) (all : list (val * val)).
      Variable dbody : unit -> pystr * json -> MU unit.
      Variable Jacc : list (val * val) -> pst -> ust -> Prop.
      Hypothesis HO0 : forall x, O x -> x < length (u_heap t0).
      Hypothesis Hall : forall kv, In kv all -> key_ok (fst kv) = true /\ supported (fst kv) /\ supported (snd kv).
      Hypothesis Hapart : ForallOrdPairs kapart (map fst all).
      Hypothesis Hfront : forall kv s1 t1, In kv all -> adv O none s0 t0 s1 t1 ->
        (plain_key keys (fst kv) = false -> front s1 t1 (fst kv)) /\ front s1 t1 (snd kv).
      Hypothesis Hres : forall x, In x (Json.keys data0) -> is_reserved x = true.
      Hypothesis Jstable : forall acc s1 t1 s2 t2, Jacc acc s1 t1 -> Inv s1 t1 -> adv none none s1 t1 s2 t2 ->
        length (u_heap t0) <= length (u_heap t1) -> Jacc acc s2 t2.
      Hypothesis Hstr : forall a v j s1 t1 v' t2 acc rest, all = acc ++ (VStr a, v) :: rest ->
        escaped keys a = false ->
        rs j t1 = (Ret v', t2) -> Inv s1 t2 -> adv O none s0 t0 s1 t2 -> Jacc acc s1 t2 ->
        vmatch h (u_heap t2) bs (rel s1 t2) v v' ->
        exists t3, dbody tt (a, j) t1 = (Ret tt, t3) /\ adv O none s1 t2 s1 t3 /\ Jacc (acc ++ [(VStr a, v)]) s1 t3.
      Hypothesis Hkey : forall q v jq j s1 t1 q' v' t1' t2 acc rest, all = acc ++ (q, v) :: rest ->
        plain_key keys q = false -> keys = true -> key_ok q = true ->
        rs jq t1 = (Ret q', t1') -> jwf jq = true ->
        rs j t1' = (Ret v', t2) -> Inv s1 t2 -> adv O none s0 t0 s1 t2 -> Jacc acc s1 t2 ->
        vmatch h (u_heap t2) bs (rel s1 t2) q q' -> vmatch h (u_heap t2) bs (rel s1 t2) v v' ->
        exists t3, dbody tt (JSON_KEY ++ dumps jq, j) t1 = (Ret tt, t3) /\ adv O none s1 t2 s1 t3 /\ Jacc (acc ++ [(q, v)]) s1 t3.

      Lemma item_docs_adv O' J' s t s' t' its out : adv O' J' s t s' t' -> Forall2 (item_doc (p_objs s)) its out -> Forall2 (item_doc (p_objs s')) its out.
      Proof. intros A. apply Forall2_impl. intros kv o [X Y]. split; [eapply kname_adv; eauto | eapply desc_adv; eauto]. Qed.

      Lemma rt_loop its : forall acc oacc s t, all = acc ++ its -> Forall2 (item_doc (p_objs s)) acc oacc ->
        Inv s t -> adv O none s0 t0 s t -> Jacc acc s t ->
        wp (foldM gstep its (data0 ++ oacc)) s (fun data' s2 =>
          exists out, data' = data0 ++ oacc ++ out /\ Forall2 (item_doc (p_objs s2)) (acc ++ its) (oacc ++ out) /\
            forallb jwf (map snd out) = true /\ (unhandled -> walkf keys (length (p_objs s)) out (length (p_objs s2))) /\
            exists t2, foldM dbody out tt t = (Ret tt, t2) /\ adv O none s0 t0 s2 t2 /\ Jacc all s2 t2).
      Proof.
        induction its as [|[q v] its IHi]; intros acc oacc s t EA EO I A J; cbn [foldM].
        - apply wp_ret. exists []. rewrite !app_nil_r. split; [reflexivity|]. split; [auto|]. split; [reflexivity|]. split; [intros _; apply walkf_nil|].
          exists t. split; [reflexivity|]. split; auto. rewrite EA, app_nil_r. auto.
        - assert (IN : In (q, v) all) by (rewrite EA; apply in_or_app; right; left; auto).
          destruct (Hall _ IN) as (K & Sq & Sv). cbn [fst snd] in *.
          assert (FRESH : forall x s1 t1, adv none none s t s1 t1 -> kname (p_objs s1) q x -> ~ In x (Json.keys (data0 ++ oacc))).
          { intros x s1 t1 A1 N. unfold Json.keys. rewrite map_app. intros C. apply in_app_or in C as [C|C].
            - apply Hres in C. apply kname_tags in N; auto. destruct N as [N _]. congruence.
            - destruct (kname_In (p_objs s1) acc oacc x) as ([q2 v2] & Hk & N2); auto.
              { eapply Forall2_impl; [|exact EO]. intros kv o [X _]. eapply kname_adv; eauto. }
              assert (IN2 : In (q2, v2) all) by (rewrite EA; apply in_or_app; auto).
              destruct (Hall _ IN2) as (K2 & _). cbn [fst] in *.
              assert (KA : kapart q2 q).
              { rewrite EA, map_app in Hapart. clear - Hapart Hk. induction acc as [|a acc IHa]; [destruct Hk|].
                cbn [map app] in Hapart. inversion Hapart as [|? ? H1 H2]; subst. destruct Hk as [->|Hk]; [|auto].
                rewrite Forall_forall in H1. apply H1. apply in_or_app. right. left. reflexivity. }
              eapply (kname_neq w k keys cl h po uo (p_objs s1) t q2 q x x); eauto. apply I. }
          (* after the key has been encoded *)
          assert (STEP : forall x s1 t1, adv none none s t s1 t1 -> kname (p_objs s1) q x ->
             (forall j s2 v' t2, jwf j = true -> rs j t1 = (Ret v', t2) -> Inv s2 t2 -> adv none none s1 t1 s2 t2 -> adv O none s0 t0 s2 t2 -> Jacc acc s2 t2 ->
                vmatch h (u_heap t2) bs (rel s2 t2) v v' ->
                exists t3, dbody tt (x, j) t = (Ret tt, t3) /\ adv O none s2 t2 s2 t3 /\ Jacc (acc ++ [(q, v)]) s2 t3) ->
             (forall j s2 out n2, unhandled -> walk keys (length (p_objs s1)) j (length (p_objs s2)) -> walkf keys (length (p_objs s2)) out n2 ->
                walkf keys (length (p_objs s)) ((x, j) :: out) n2) ->
             wp (fl v) s1 (fun j s2 => wp (foldM gstep its (sset x j (data0 ++ oacc))) s2 (fun data' s3 =>
               exists out, data' = data0 ++ oacc ++ out /\ Forall2 (item_doc (p_objs s3)) (acc ++ (q, v) :: its) (oacc ++ out) /\
               forallb jwf (map snd out) = true /\ (unhandled -> walkf keys (length (p_objs s)) out (length (p_objs s3))) /\
               exists t2, foldM dbody out tt t = (Ret tt, t2) /\ adv O none s0 t0 s3 t2 /\ Jacc all s3 t2))).
          { intros x s1 t1 AL N BODY WKB.
            assert (A1 : adv O none s0 t0 s1 t1) by (eapply adv_trans; [exact HO0 | exact A | apply adv_weaken; exact AL]).
            eapply wp_mono; [apply (IH v s1 t1); auto; [apply AL | eapply Hfront with (kv := (q, v)); eauto]|].
            intros j s2 _ (W & [DE WK] & v' & t2 & R & A2 & M).
            assert (J2 : Jacc acc s2 t2).
            { eapply Jstable; [|apply AL|exact A2|].
              - eapply Jstable; [exact J|exact I|exact AL|]. pose proof (a_len _ _ _ _ _ _ _ _ _ _ _ _ A). auto.
              - pose proof (a_len _ _ _ _ _ _ _ _ _ _ _ _ A1). auto. }
            assert (A12 : adv O none s0 t0 s2 t2) by (eapply adv_trans; [exact HO0 | exact A1 | apply adv_weaken; exact A2]).
            destruct (BODY j s2 v' t2 W R (a_inv _ _ _ _ _ _ _ _ _ _ _ _ A2) A2 A12 J2 M) as (t3 & B & A3 & J3).
            rewrite sset_app by (eapply FRESH; eauto). rewrite <- app_assoc.
            eapply wp_mono.
            { apply (IHi (acc ++ [(q, v)]) (oacc ++ [(x, j)]) s2 t3).
              - rewrite EA, <- app_assoc. reflexivity.
              - apply Forall2_app.
                + eapply item_docs_adv; [exact A2|]. eapply item_docs_adv; [exact AL|]. exact EO.
                + constructor; [|constructor]. split; [eapply kname_adv; [exact A2|exact N] | exact DE].
              - apply A3.
              - eapply adv_trans; [exact HO0 | exact A12 | exact A3].
              - exact J3. }
            intros data' s3 _ (out & E1 & E2 & E3 & WO & t4 & E4 & A4 & J4). exists ((x, j) :: out).
            split; [rewrite E1, <- app_assoc; reflexivity|]. split; [rewrite <- !app_assoc in E2; exact E2|].
            split; [simpl; rewrite W, E3; reflexivity|].
            split; [intros NH; apply (WKB j s2); auto|]. exists t4. split; auto. cbn [foldM].
            rewrite (bind_eq _ _ _ _ _ B). exact E4. }
          apply wp_bind. apply wp_gstep; [apply I|]. eapply wp_estep with (t := t); auto.
          + intros a Eq EE. subst q. apply (STEP a s t); [apply adv_refl; auto | | |].
            * unfold RTDesc.kname. unfold plain_key. cbn [is_str is_escaped]. rewrite EE. reflexivity.
            * intros j s2 v' t2 W R I2 A2 A02 J2 M. eapply Hstr; eauto.
            * intros j s2 out n2 _ WJ WO. eapply walkf_value; [| |exact WJ|exact WO].
              -- assert (NX : kname (p_objs s) (VStr a) a).
                 { unfold RTDesc.kname. unfold plain_key. cbn [is_str is_escaped]. rewrite EE. reflexivity. }
                 apply kname_tags in NX; auto. destruct NX as [NX _]. intros C.
                 assert (X : forallb is_reserved bare_tags = true) by reflexivity. rewrite forallb_forall in X. apply X in C. congruence.
              -- intros EK. apply (plain_not_json keys a EE EK).
          + intros P EK. eapply wp_mono; [apply (IH q s t); auto; apply (proj1 (Hfront (q, v) s t ltac:(rewrite EA; apply in_or_app; right; left; auto) A) P)|].
            intros jq s1 _ (Wq & [Dq WKq] & q' & t1 & Rq & A1 & Mq). apply (STEP _ s1 t1); auto.
            * unfold RTDesc.kname. rewrite P. exists jq. auto.
            * intros j s2 v' t2 W R I2 A2 A02 J2 M. eapply Hkey; eauto. eapply vmatch_adv; [exact A2 | exact Mq].
            * intros j s2 out n2 NH WJ WO. eapply walkf_key; eauto.
      Qed.

      Lemma rt_gitems (Hinv : Inv s0 t0) (J0 : Jacc [] s0 t0) :
        wp (foldM gstep all data0) s0 (fun data' s2 =>
          exists out, data' = data0 ++ out /\ Forall2 (item_doc (p_objs s2)) all out /\
            NoDup (map fst out) /\ (forallb jwf (map snd out) = true /\ (unhandled -> walkf keys (length (p_objs s0)) out (length (p_objs s2)))) /\
            exists t2, foldM dbody out tt t0 = (Ret tt, t2) /\ adv O none s0 t0 s2 t2 /\ Jacc all s2 t2).
      Proof.
        pose proof (rt_loop all [] [] s0 t0 eq_refl (Forall2_nil _) Hinv) as X. rewrite app_nil_r in X.
        eapply wp_mono; [apply X; auto; apply adv_refl; auto|].
        intros dt s2 _ (out & E & F & W & WO & t2 & R & A & J). cbn [app] in *. exists out. split; auto. split; auto.
        split; [|split; [auto|exists t2; auto]].
        apply (kname_nodup t0 (p_objs s2) all out); [apply Hinv | intros kv Hk; apply Hall; auto | exact Hapart |].
        eapply Forall2_impl; [|exact F]. intros kv o [Y _]. exact Y.
      Qed.
      Lemma rt_items (Hinv : Inv s0 t0) (J0 : Jacc [] s0 t0) :
        wp (foldM estep all data0) s0 (fun data' s2 =>
          exists out, data' = data0 ++ out /\ Forall2 (item_doc (p_objs s2)) all out /\
            NoDup (map fst out) /\ (forallb jwf (map snd out) = true /\ (unhandled -> walkf keys (length (p_objs s0)) out (length (p_objs s2)))) /\
            exists t2, foldM dbody out tt t0 = (Ret tt, t2) /\ adv O none s0 t0 s2 t2 /\ Jacc all s2 t2).
      Proof. apply gfold_wp. apply rt_gitems; auto. Qed.
    End loop.
  End level.
End cont.
