(** Round trip of iterators: the list of the items would be encoded to the same documents
    under the same numbers. *)
From Coq Require Import List.
From Verif Require Import PyStr Tags Json JsonText JsonTextProofs B64 B85 Base Heap Registry LoadClass Pickler Unpickler SpecGraph PGen PTerm PSame PDoc PStep SpecRun SpecIso SpecIter.
From Verif Require Import WP HeapProofs IterProofs PRel IsoProofs RTBase RTStep RTPure RTCont RTMain RTProps.
Import ListNotations.
Local Open Scope list_scope.
Open Scope nat_scope.
Local Open Scope monad_scope.

Section on.
  Variable U : loc -> Prop.
  Fixpoint viso_on v v' (H : viso (on U) v v') {struct H} : v = v'.
  Proof.
    destruct H as [v F|xs ys F|l l' C]; auto.
    - f_equal. revert xs ys F. fix go 3. intros xs ys F. destruct F as [|x y xs ys H F]; [reflexivity|]. rewrite (viso_on x y H), (go xs ys F). reflexivity.
    - destruct C as [-> _]. auto.
  Qed.
End on.
Lemma fin_keeps w k o h dm N : finite_graph w k o h dm N -> handlers_keep w.
Proof.
  intros FG hd ctx l ob. pose proof (fg_scripts _ _ _ _ _ _ FG hd ctx l ob) as X.
  induction (w_hflat w hd ctx l ob) as [r|e|b v kk IH]; simpl in *; auto. destruct X as (A & _ & B). split; auto.
Qed.

Section iter.
  Variables (w : world) (k : hooks) (po : popts) (uo : uopts) (classes : option carg) (h : heap) (dm N : nat).
  Variables (l : loc) (i : inst) (xs : list val) (U : loc -> Prop).
  Hypothesis OP : rt_options po uo.
  Hypothesis FG : finite_graph w k po h dm N.
  Hypothesis G : hget h l = Some (OInst i).
  Hypothesis BI : bare_iterator w (i_cls i).
  Hypothesis YS : yields k l (i_pos i) (po_max_iter po) xs.
  Hypothesis SC : self_contained w k h U.
  Hypothesis IN : Forall (inside U) xs.
  Hypothesis NU : ~ U l.
  Notation hB := (h ++ [OList xs]).
  Notation lB := (length h).
  Definition R0 : loc -> loc -> Prop := on U.
  Definition both (v v' : val) : Prop := v = VLoc l /\ v' = VLoc lB.
  Notation like := (like h hB R0 true).
  Notation SR := (SR w po (po_numeric po) k k h hB R0 true both).

  Lemma R0_there x y : R0 x y -> x = y /\ x < length h.
  Proof.
    intros C. destruct (sc_heap _ _ _ _ SC x y C) as [_ X]. destruct C as [-> _]. split; auto.
    destruct (hget h y) eqn:E; [|congruence]. eapply hget_lt; eauto.
  Qed.
  Lemma heap_B : heap_iso h hB R0.
  Proof.
    intros x y C. destruct (R0_there x y C) as [_ L]. destruct (sc_heap _ _ _ _ SC x y C) as [A B]. split; auto.
    destruct C as [-> _]. unfold hget in *. rewrite nth_error_app1 by lia. exact A.
  Qed.
  Lemma one : one_to_one R0.
  Proof. split; [intros ? ? ? [<- _] [<- _]|intros ? ? ? [-> _] [-> _]]; auto. Qed.
  Lemma AL : alike w po (po_numeric po) k k h hB R0 true.
  Proof.
    destruct OP as (O1 & O2 & O3 & _). apply iso_alike.
    - exact one.
    - exact heap_B.
    - intros _ q q' V _. apply viso_on in V. subst. auto.
    - exact (sc_hooks _ _ _ _ SC).
    - left. auto.
  Qed.
  Lemma both_apart v v' x x' : both v v' -> like x x' -> x <> v /\ x' <> v'.
  Proof.
    intros [-> ->] H. pose proof (hget_lt _ _ _ G) as L. destruct H as [u F|a b F|a b [C|(n & -> & ->)]|? ? ? ? E|? ? ? E]; try discriminate E.
    - destruct u; try discriminate; split; discriminate.
    - split; discriminate.
    - destruct (R0_there _ _ C) as [-> L2]. destruct C as [_ C]. split; intros E; injection E as ->; [auto|lia].
    - rewrite app_length. simpl. split; intros E; injection E as E; lia.
  Qed.
  Lemma items_like ys : Forall (inside U) ys -> Forall2 like ys ys.
  Proof. intros F. induction F as [|x r H F IH]; constructor; auto. apply viso_like. exact H. Qed.
  Lemma root_same : set_numeric (po_numeric po) (set_root (po_root po) po) = po.
  Proof. destruct po; reflexivity. Qed.
  Lemma step n x s s' : like x x -> SR s s' ->
    match flatten w k po n x s, flatten w k po n x s' with
    | (Ret a, s1), (Ret b, s1') => a = b /\ SR s1 s1'
    | (Exc e, s1), (Exc e', s1') => e = e' /\ SR s1 s1'
    | (OOF, _), (OOF, _) => True
    | _, _ => False
    end.
  Proof.
    destruct OP as (O1 & O2 & O3 & O4 & O5 & O6 & _). intros H SS.
    pose proof (r_flatten w po (po_numeric po) k k h hB R0 true (po_root po) AL ltac:(discriminate) O6 O5 both both_apart n x x H s s' SS) as X.
    rewrite root_same in X. exact X.
  Qed.
  Lemma SR_moved s s' p p' : SR s s' -> hget (p_heap s) l = Some (OInst (set_pos i p)) ->
    SR (set_heap (hset (p_heap s) l (OInst (set_pos i p'))) s) s'.
  Proof.
    intros [] GL. pose proof (hget_lt _ _ _ G) as LL. pose proof (hget_lt _ _ _ GL) as L2.
    assert (NE : forall x ob, x <> l -> hget (hset (p_heap s) l ob) x = hget (p_heap s) x) by (intros; apply hget_hset_other; auto).
    constructor; cbn [set_heap p_heap p_objs p_depth p_cache p_warned]; auto.
    - intros x ob E. destruct (Nat.eq_dec x l) as [->|NX].
      + right. rewrite G in E. injection E as <-. exists i, p'. split; auto. apply hget_hset_same. auto.
      + rewrite NE by auto. apply sr_keep; auto.
    - rewrite hset_length. auto.
    - rewrite hset_length. auto.
    - intros n. rewrite NE; [apply sr_new|lia].
    - intros a b i1 i2 C. rewrite NE; [apply sr_pos; auto|]. intros ->. apply NU. apply C.
  Qed.

  (** The iterator in one run, the list of its items in the other. *)
  Lemma loop n : forall fuel ys limit p s s', SR s s' -> Forall (inside U) ys -> yields k l p limit ys ->
    hget (p_heap s) l = Some (OInst (set_pos i p)) -> In (VLoc l) (p_objs s) -> (0 <= p_depth s)%Z ->
    match iter_loop k (flatten w k po n) fuel l limit s with
    | (Ret js, s1) => (exists s1', mapM (flatten w k po n) ys s' = (Ret js, s1')) /\
        hget (p_heap s1) l = Some (OInst (set_pos i (p + length ys)))
    | (Exc _, _) => exists e s1', mapM (flatten w k po n) ys s' = (Exc e, s1')
    | (OOF, _) => True
    end.
  Proof.
    induction fuel as [|fuel IH]; intros ys limit p s s' SS F [Y1 Y2] GL IO D.
    - cbn [iter_loop]. destruct limit as [[|q]|]; try exact Logic.I. destruct Y2 as [Y2 _]. destruct ys; [|exfalso; simpl in Y2; lia].
      cbn [length mapM]. rewrite Nat.add_0_r. split; [exists s'; reflexivity|exact GL].
    - assert (Q : limit = Some 0 \/ (limit <> Some 0 /\ iter_loop k (flatten w k po n) (S fuel) l limit s =
        (ob <- get_obj l ;;
              match ob with
              | OInst i =>
                  x <- lift (k_iter k l (i_pos i)) ;;
                  match x with
                  | None => ret []
                  | Some v =>
                      modify (fun s => set_heap (hset (p_heap s) l (OInst (set_pos i (S (i_pos i))))) s) ;;;
                      j <- flatten w k po n v ;;
                      js <- iter_loop k (flatten w k po n) fuel l (option_map pred limit) ;;
                      ret (j :: js)
                  end
              | _ => raise EUnmodelled
              end) s)).
      { destruct limit as [[|q]|]; [left; auto| |]; right; (split; [discriminate|reflexivity]). }
      destruct Q as [->|[NL ->]].
      { cbn [iter_loop]. destruct Y2 as [Y2 _]. destruct ys; [|exfalso; simpl in Y2; lia]. cbn [length mapM]. rewrite Nat.add_0_r. split; [exists s'; reflexivity|exact GL]. }
      assert (G0 : get_obj l s = (Ret (OInst (set_pos i p)), s)) by (unfold get_obj, bind, gets; rewrite GL; reflexivity).
      rewrite (bind_eq _ _ _ _ _ G0). cbn [set_pos i_pos]. destruct ys as [|y ys].
      + assert (K : k_iter k l p = Ret None).
        { unfold stops in Y2. simpl in Y2. rewrite Nat.add_0_r in Y2. destruct limit as [q|]; auto. destruct Y2 as [_ [<-|Y2]]; auto. congruence. }
        unfold lift, bind. rewrite K. cbn [length mapM]. rewrite Nat.add_0_r. split; [exists s'; reflexivity|exact GL].
      + pose proof (Y1 0 y eq_refl) as K. rewrite Nat.add_0_r in K.
        rewrite (bind_eq _ _ s (Some y) s) by (unfold lift; rewrite K; reflexivity). cbv beta iota.
        change (set_pos (set_pos i p) (S p)) with (set_pos i (S p)).
        set (s1 := set_heap (hset (p_heap s) l (OInst (set_pos i (S p)))) s).
        rewrite (bind_eq _ _ s tt s1) by reflexivity. cbv beta. pose proof (SR_moved s s' p (S p) SS GL) as S1. fold s1 in S1.
        inversion F as [|? ? Fy Fs]; subst. pose proof (step n y s1 s' (viso_like _ _ _ _ _ Fy) S1) as ST.
        assert (G1 : hget (p_heap s1) l = Some (OInst (set_pos i (S p)))) by (apply hget_hset_same; eapply hget_lt; eauto).
        destruct OP as (O1 & O2 & O3 & O4 & O5 & O6 & _).
        pose proof (flatten_ev w k po O5 O6 (fin_keeps _ _ _ _ _ _ FG) (eq l) n y s1) as Ev.
        assert (Lo : locked_ok w (mkEvp (fun _ => True) (eq l) (fun _ => True) (fun _ => True)) s1).
        { intros l1 <-. split; [exact IO|]. unfold is_enum. rewrite G1. split; [exact (bi_enum _ _ BI)|discriminate]. }
        specialize (Ev Lo D). cbn [mapM]. unfold bind at 1.
        destruct (flatten w k po n y s1) as [[j|e|] s2] eqn:E1; [| |exact Logic.I].
        * destruct (flatten w k po n y s') as [[j'|e'|] s2'] eqn:E2; try contradiction. destruct ST as [<- S2].
          destruct Ev as (_ & (z & Oz) & D2 & _ & Lk). assert (G2 := Lk l _ eq_refl G1). cbn [ev_lk] in G2.
          assert (YN : yields k l (S p) (option_map pred limit) ys).
          { split.
            - intros m x Hm. rewrite <- (Y1 (S m) x Hm). f_equal. lia.
            - unfold stops in *. cbn [length] in Y2. replace (p + S (length ys)) with (S p + length ys) in Y2 by lia.
              destruct limit as [q|]; cbn [option_map]; auto. destruct Y2 as [A [B|B]]; split; auto; lia. }
          specialize (IH ys (option_map pred limit) (S p) s2 s2' S2 Fs YN G2).
          assert (I2 : In (VLoc l) (p_objs s2)) by (rewrite Oz; apply in_or_app; left; exact IO).
          assert (D3 : (0 <= p_depth s2)%Z) by (change (p_depth s1) with (p_depth s) in D2; lia). specialize (IH I2 D3).
          unfold bind. rewrite E2. destruct (iter_loop k (flatten w k po n) fuel l (option_map pred limit) s2) as [[js|e|] s3]; auto.
          -- destruct IH as [(s3' & ->) G3]. unfold ret. split; [eexists; reflexivity|]. cbn [length]. replace (p + S (length ys)) with (S p + length ys) by lia. exact G3.
          -- destruct IH as (e1 & s3' & ->). eauto.
        * destruct (flatten w k po n y s') as [[j'|e'|] s2'] eqn:E2; try contradiction. unfold bind. rewrite E2. eauto.
  Qed.

  (** ** The whole encoding *)
  Notation name := (importable_name (w_cls w (i_cls i))).
  Notation fl := (flatten w k po).
  Lemma get_iter n s : get_flattener w k po n (fl n) (VLoc l) (start h s) =
    (js <- iter_loop k (fl n) n l (po_max_iter po) ;; ret (Some (JObj [(OBJECT, JStr name); (ITERATOR, JList js)]))) (numbered (VLoc l) (start h s)).
  Proof.
    destruct OP as (O1 & O2 & O3 & O4 & O5 & O6 & _). destruct BI as [B1 B2 B3 B4 B5 B6 B7 B8].
    cbn [get_flattener]. assert (G0 : forall t, p_heap t = h -> get_obj l t = (Ret (OInst i), t)).
    { intros t E. unfold get_obj, bind, gets. rewrite E, G. reflexivity. }
    rewrite (bind_eq _ _ _ _ _ (G0 (start h s) eq_refl)). cbv beta iota.
    assert (Z : ref_obj_instance w k po n (fl n) (VLoc l) (start h s) =
      (js <- iter_loop k (fl n) n l (po_max_iter po) ;; ret (JObj [(OBJECT, JStr name); (ITERATOR, JList js)])) (numbered (VLoc l) (start h s))).
    { unfold ref_obj_instance. rewrite O1. rewrite (bind_eq _ _ (start h s) true (numbered (VLoc l) (start h s))) by (unfold mkref, bind, log_ref, ret; rewrite O1, O2; reflexivity).
      cbv beta iota. unfold flatten_object, flatten_obj_instance.
      rewrite (bind_eq _ _ _ _ _ (G0 (numbered (VLoc l) (start h s)) eq_refl)). cbv beta iota zeta.
      rewrite B2, O4, O1. unfold bind at 1, ret at 1. unfold reduce_of. rewrite B3. unfold bind at 1, ret at 1. unfold bind at 1, ret at 1.
      cbv beta iota. unfold flatten_inst_rest. cbv zeta. rewrite B4, B5, B6, B7, B1, O1. cbn [andb negb].
      unfold bind at 1, ret at 1. unfold bind at 1, ret at 1. unfold bind at 1, ret at 1. unfold bind at 1, ret at 1.
      unfold bind at 1, gets.
      assert (Z : forall ex : list pystr, match ex with [] => ret VNone | _ :: _ => ret VNone end = ret (S := pst) VNone) by (intros []; auto).
      rewrite Z. unfold bind at 1, ret at 1. unfold truthy_p. unfold bind at 1, gets. cbn [truthy andb].
      reflexivity. }
    unfold bind at 1. rewrite Z. unfold bind. destruct (iter_loop k (fl n) n l (po_max_iter po) (numbered (VLoc l) (start h s))) as [[js|e|] s1]; reflexivity.
  Qed.
  Lemma get_list n : get_flattener w k po n (fl n) (VLoc lB) (start hB []) =
    (js <- mapM (fl n) xs ;; ret (Some (JList js))) (numbered (VLoc lB) (start hB [])).
  Proof.
    destruct OP as (O1 & O2 & _). cbn [get_flattener].
    rewrite (bind_eq _ _ (start hB []) (OList xs) (start hB [])) by (unfold get_obj, bind, gets; cbn [start p_heap]; rewrite hget_app_new; reflexivity).
    cbv beta iota. rewrite (bind_eq _ _ (start hB []) true (numbered (VLoc lB) (start hB []))) by (unfold mkref, bind, log_ref, ret; rewrite O1, O2; reflexivity).
    cbv beta iota. unfold list_recurse, bind. destruct (mapM (fl n) xs (numbered (VLoc lB) (start hB []))) as [[js|e|] s1]; reflexivity.
  Qed.
  Lemma SR_start : SR (numbered (VLoc l) (start h [])) (numbered (VLoc lB) (start hB [])).
  Proof.
    constructor; cbn [numbered start set_objs p_heap p_objs p_depth p_cache p_warned app]; auto; try lia.
    - intros a ob E. auto.
    - intros a ob E. auto.
    - intros m. unfold hget. rewrite !(proj2 (nth_error_None _ _)) by lia. auto.
    - intros a b i1 i2 C. destruct (R0_there _ _ C) as [<- L]. unfold hget. rewrite nth_error_app1 by lia. intros E1 E2 _. congruence.
    - constructor; auto. right. split; auto.
  Qed.
  Hypothesis SU : forall x, In x xs -> supported w k (po_keys po) (class_table w classes) hB x.
  Lemma list_supported : supported w k (po_keys po) (class_table w classes) hB (VLoc lB).
  Proof.
    assert (GB : hget hB lB = Some (OList xs)) by apply hget_app_new.
    assert (SH : forall cs, shape w k (po_keys po) (class_table w classes) hB lB cs -> cs = xs) by (intros cs SH; inversion SH; subst; congruence).
    intros x RE. inversion RE as [|? y ? S1 S2]; subst.
    - split; [exists xs; apply sh_list; exact GB|]. intros y E. inversion E; subst; congruence.
    - inversion S1 as [|? cs ? SS II]; subst. apply SH in SS. subst cs. eapply SU; eauto.
  Qed.
  Hypothesis NM : str_ok name = true.
  Notation t0 t := (mkUst (u_heap t) [] [] (u_prox t) [] (class_table w classes) (u_log t)).
  Definition delivered (n : nat) (js : list json) : Prop := forall m t, 2 * n + 1 <= m -> exists s1,
    delivers w k (po_keys po) (class_table w classes) hB (length (u_heap t)) po uo (S m) (VLoc lB) (start hB []) (t0 t) (JList js) s1.
  Lemma list_delivered n : match mapM (fl n) xs (numbered (VLoc lB) (start hB [])) with
    | (Ret js, _) => delivered n js
    | (Exc _, _) => False
    | (OOF, _) => True
    end.
  Proof.
    destruct OP as (O1 & O2 & O3 & O4 & O5 & O6 & O7 & O8).
    assert (X : forall m t, 2 * n + 1 <= m -> wp (get_flattener w k po n (fl n) (VLoc lB)) (start hB [])
      (fun r s1 => exists j, r = Some j /\ delivers w k (po_keys po) (class_table w classes) hB (length (u_heap t)) po uo (S m) (VLoc lB) (start hB []) (t0 t) j s1)).
    { intros m t L. apply (rt_flattener w k (po_keys po) (class_table w classes) hB (length (u_heap t)) po uo O1 O2 O3 O4 O5 O6 eq_refl O7 O8 n m); auto.
      - intros m0 L0. apply rt_all; auto.
      - exact list_supported.
      - constructor; simpl; auto; try lia; try constructor; try discriminate. destruct n0; discriminate.
      - apply front_start.
      - discriminate.
      - intros a b E. injection E as <-. rewrite hget_app_new. discriminate. }
    unfold wp in X. rewrite get_list in X. unfold bind, ret in X.
    destruct (mapM (fl n) xs (numbered (VLoc lB) (start hB []))) as [[js|e|] s1]; auto.
    - intros m t L. destruct (X m t L) as (j & E & D). injection E as <-. eauto.
    - exact (X (2 * n + 1) (new_unpickler []) (le_n _)).
  Qed.
  Lemma iter_encoded n : wp (flatten w k po (S n) (VLoc l)) (p_reset_st (new_pickler h)) (fun j s' => exists js,
    j = JObj [(OBJECT, JStr name); (ITERATOR, JList js)] /\ delivered n js /\
    hget (p_heap s') l = Some (OInst (set_pos i (i_pos i + length xs)))).
  Proof.
    destruct OP as (O1 & O2 & O3 & O4 & O5 & O6 & O7 & O8). rewrite (flatten_S w k po O1 O2).
    apply (wp_eq _ (push ;;; j <- flatten_obj w k po n (fl n) (VLoc l) ;; pop j)).
    { unfold flatten_impl, bind at 1, gets. cbn [prim_json p_reset_st new_pickler p_heap]. rewrite G. reflexivity. }
    apply wp_bind, wp_modify, wp_bind. apply (wp_flatten_obj w k po O2 O3).
    change (set_depth (p_depth (p_reset_st (new_pickler h)) + 1)%Z (p_reset_st (new_pickler h))) with (start h []).
    unfold wp. rewrite get_iter. unfold bind.
    pose proof (loop n n xs (po_max_iter po) (i_pos i) _ _ SR_start IN YS) as LP.
    assert (GP : hget (p_heap (numbered (VLoc l) (start h []))) l = Some (OInst (set_pos i (i_pos i)))) by (cbn; rewrite G; destruct i; reflexivity).
    specialize (LP GP). specialize (LP (or_introl eq_refl) (Z.le_refl 0)). pose proof (list_delivered n) as LD.
    destruct (iter_loop k (fl n) n l (po_max_iter po) (numbered (VLoc l) (start h []))) as [[js|e|] s1]; auto.
    - destruct LP as [(s1' & E) GL]. rewrite E in LD. unfold ret. eexists. split; [reflexivity|].
      unfold pop, bind, modify, ret. exists js. split; auto. split; auto.
      destruct (Z.eqb (p_depth (set_depth (p_depth s1 - 1)%Z s1)) (-1)); exact GL.
    - destruct LP as (e1 & s1' & E). rewrite E in LD. exact LD.
  Qed.
  Lemma iter_decoded n js : delivered n js -> let text := dumps (JObj [(OBJECT, JStr name); (ITERATOR, JList js)]) in
    forall m t, 2 * n + 2 <= m -> exists q h1 t' ys, decode w uo m classes text t = (Ret (VLoc (length h1)), t') /\
      u_heap t' = h1 ++ [OIter q] /\ hget h1 q = Some (OList ys) /\
      is_copy w k (po_keys po) hB h1 (length (u_heap t)) (VTuple xs) (VTuple ys) /\
      (forall x, x < length (u_heap t) -> hget (u_heap t') x = hget (u_heap t) x).
  Proof.
    intros DL text m t L. destruct m as [|m]; [lia|]. destruct (DL m t ltac:(lia)) as (s1 & W & _ & v' & t' & R & A & M).
    assert (JW : jwf (JObj [(OBJECT, JStr name); (ITERATOR, JList js)]) = true).
    { cbn [jwf forallb map fst snd] in *. rewrite NM, W. vm_compute. reflexivity. }
    assert (GB : hget hB lB = Some (OList xs)) by apply hget_app_new.
    pose proof (a_inv _ _ _ _ _ _ _ _ _ _ _ _ A) as I.
    assert (VM : exists q ys, v' = VLoc q /\ hget (u_heap t') q = Some (OList ys) /\ rel s1 t' lB q).
    { inversion M as [u E|? ? F|? ? ? ? E|? ? ? E|? q C]; subst; try discriminate; try congruence. exists q.
      pose proof (rel_head _ _ _ _ _ _ _ I C) as H. unfold head_ok in H. rewrite GB in H. destruct (hget (u_heap t') q) as [[]|]; try tauto. eauto. }
    destruct VM as (q & ys & -> & GQ & RQ).
    assert (SW : u_swaps t' = []) by (rewrite (a_swaps _ _ _ _ _ _ _ _ _ _ _ _ A); reflexivity).
    set (t2 := us_heap (u_heap t' ++ [OIter q]) t').
    assert (R2 : restore w uo (S m) (JObj [(OBJECT, JStr name); (ITERATOR, JList js)]) (t0 t) = (Ret (VLoc (length (u_heap t'))), t2)).
    { change (restore w uo (S m) (JList js) (t0 t)) with (restore_list (restore w uo m) (JList js) (t0 t)) in R.
      change (restore w uo (S m) (JObj [(OBJECT, JStr name); (ITERATOR, JList js)]) (t0 t))
        with (restore_iterator (restore w uo m) [(OBJECT, JStr name); (ITERATOR, JList js)] (t0 t)).
      unfold restore_iterator. change (jfield ITERATOR [(OBJECT, JStr name); (ITERATOR, JList js)]) with (JList js).
      unfold catch, bind. rewrite R. reflexivity. }
    exists q, (u_heap t'). eexists. exists ys. unfold text, decode. rewrite loads_dumps by exact JW.
    assert (UN : unpickle w uo (S m) true classes (JObj [(OBJECT, JStr name); (ITERATOR, JList js)]) t = (Ret (VLoc (length (u_heap t'))), us_swaps [] t2)).
    { unfold unpickle. rewrite (bind_eq _ _ t tt (mkUst (u_heap t) [] [] (u_prox t) [] [] (u_log t))) by reflexivity.
      rewrite (bind_eq _ _ _ tt (t0 t)) by (unfold class_table; destruct classes; reflexivity).
      rewrite (bind_eq _ _ _ _ _ R2). unfold swap_proxies. rewrite (bind_eq _ _ t2 tt (us_swaps [] t2)); [reflexivity|].
      rewrite (bind_eq _ _ t2 [] t2) by (rewrite <- SW; reflexivity). reflexivity. }
    rewrite (bind_eq _ _ _ _ _ UN). split; [reflexivity|]. split; [reflexivity|]. split; [exact GQ|].
    assert (OM : forall a b, rel s1 t' a b -> omatch w k (po_keys po) hB (u_heap t') (length (u_heap t)) (length (u_heap t)) (rel s1 t') a b).
    { intros a b (j & RE & RD). destruct (a_new _ _ _ _ _ _ _ _ _ _ _ _ A j a) as (l2 & D2 & OM); [simpl; lia|exact RE|].
      rewrite RD in D2. injection D2 as <-. exact OM. }
    split.
    - exists (rel s1 t'). split; [intros ? ? ?; eapply rel_fun; eauto|]. split; [intros ? ? ?; eapply rel_inj; eauto|]. split; [exact OM|].
      specialize (OM _ _ RQ). apply vm_tuple. destruct OM as [xs0 ys0 A1 A2 A3 A4|d d' A1|i1 i2 A1]; rewrite GB in A1; try discriminate A1.
      injection A1 as <-. rewrite GQ in A3. injection A3 as <-. exact A4.
    - intros x Hx. change (hget (u_heap t' ++ [OIter q]) x = hget (u_heap t) x). pose proof (a_len _ _ _ _ _ _ _ _ _ _ _ _ A) as LE. cbn [u_heap] in LE.
      rewrite hget_app_old by lia. apply (a_heap _ _ _ _ _ _ _ _ _ _ _ _ A); auto.
  Qed.

  Theorem iterator_roundtrip : exists text n0 m0,
    (forall n s, n0 <= n -> p_heap s = h -> exists s', encode w k po n (VLoc l) s = (Ret text, s') /\
       hget (p_heap s') l = Some (OInst (set_pos i (i_pos i + length xs)))) /\
    forall m t, m0 <= m -> exists q h1 t' ys, decode w uo m classes text t = (Ret (VLoc (length h1)), t') /\
      u_heap t' = h1 ++ [OIter q] /\ hget h1 q = Some (OList ys) /\
      is_copy w k (po_keys po) hB h1 (length (u_heap t)) (VTuple xs) (VTuple ys) /\
      (forall x, x < length (u_heap t) -> hget (u_heap t') x = hget (u_heap t) x).
  Proof.
    pose proof OP as (O1 & O2 & O3 & O4 & O5 & O6 & O7 & O8). set (d1 := Nat.max 1 dm).
    assert (GD : forall v, good h dm v -> good h d1 v) by (intros v [A B]; split; auto; lia).
    assert (F1 : finite_graph w k po h d1 N).
    { destruct FG. constructor; eauto.
      - intros a x E. eapply Forall_impl; [exact GD|]. eauto.
      - intros a x E. eapply Forall_impl; [exact GD|]. eauto.
      - intros hd ctx a ob. specialize (fg_scripts hd ctx a ob). induction (w_hflat w hd ctx a ob) as [r|e|b v kk IH]; simpl in *; auto.
        destruct fg_scripts as (A & B & C). auto. }
    assert (GL : good h d1 (VLoc l)).
    { split; [cbn [in_range]; apply Nat.ltb_lt; eapply hget_lt; eauto|exact (Nat.le_max_l 1 dm)]. }
    set (n0 := budget h d1 N).
    pose proof (encode_ends w k po h d1 N O5 O6 (or_introl (conj O1 O2)) F1 (Nat.le_max_l 1 dm) (S n0) (VLoc l) (new_pickler h) eq_refl GL (le_n _)) as E.
    pose proof (iter_encoded n0) as X. unfold wp in X.
    assert (EE : encode w k po (S n0) (VLoc l) (new_pickler h) = (j <- flatten w k po (S n0) (VLoc l) ;; ret (dumps j)) (p_reset_st (new_pickler h))).
    { unfold encode, pickle, pflatten. rewrite O6. reflexivity. }
    unfold bind in EE. destruct (flatten w k po (S n0) (VLoc l) (p_reset_st (new_pickler h))) as [[j|e|] s1]; [|contradiction|rewrite EE in E; destruct E; auto].
    destruct X as (js & -> & DL & G1). unfold ret in EE.
    eexists. exists (S n0), (2 * n0 + 2). split; [|exact (iter_decoded n0 js DL)].
    intros n s L Hs. pose proof (encode_state w k po (S n0) n (VLoc l) (new_pickler h) s L (eq_sym Hs)) as Y. rewrite EE in Y.
    destruct Y as (s2 & E2 & SM). exists s2. split; [exact E2|]. destruct SM as [SM _]. rewrite <- SM. exact G1.
  Qed.
End iter.
