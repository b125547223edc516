(** Two runs of the encoder, on graphs that look alike, go in lock step. *)
From Verif Require Import PyStr Tags Json JsonText B64 B85 Base Heap Registry Pickler SpecGraph SpecIso PGen.
Open Scope nat_scope.
Local Open Scope monad_scope.

Lemma Forall2_mono {A B} (P Q : A -> B -> Prop) l l' : (forall a b, P a b -> Q a b) -> Forall2 P l l' -> Forall2 Q l l'.
Proof. intros H F. induction F; constructor; auto. Qed.
Lemma Forall2_nil_iff {A B} (P : A -> B -> Prop) l l' : Forall2 P l l' -> (l = [] <-> l' = []).
Proof. intros F. destruct F; split; auto; discriminate. Qed.

Lemma Forall2_len {A B} (P : A -> B -> Prop) l l' : Forall2 P l l' -> length l = length l'.
Proof. intros F. induction F; cbn [length]; auto. Qed.
Lemma bool_cases (b : bool) : b = true \/ b = false.
Proof. destruct b; auto. Qed.
Ltac bcase b H := destruct (bool_cases b) as [H|H]; rewrite H.
Definition set_root (r : val) (o : popts) : popts :=
  {| po_unpicklable := po_unpicklable o; po_make_refs := po_make_refs o; po_keys := po_keys o; po_max_depth := po_max_depth o;
     po_warn := po_warn o; po_max_iter := po_max_iter o; po_b85 := po_b85 o; po_fail_safe := po_fail_safe o; po_props := po_props o;
     po_readonly := po_readonly o; po_root := r; po_sort := po_sort o; po_ctx := po_ctx o; po_numeric := po_numeric o |}.

Section rel.
  Variables (w : world) (o : popts) (nk : bool) (k k' : hooks) (h0 h0' : heap) (R0 : loc -> loc -> Prop) (exact : bool).
  Notation cls := (w_cls w).
  Notation corr := (corr h0 h0' R0).
  Notation like := (like h0 h0' R0 exact).
  Notation numb := (numb h0 h0' R0).
  Notation truth_like := (truth_like w h0 h0' R0 exact).
  Notation entry_like := (entry_like o nk k k' h0 h0' R0 exact).
  Notation dict_like := (dict_like o nk k k' h0 h0' R0 exact).
  Notation names_like := (names_like o nk k k' h0 h0' R0 exact).
  Notation fields_like := (fields_like w o nk k k' h0 h0' R0 exact).
  Notation inst_like := (inst_like w o nk k k' h0 h0' R0 exact).
  Notation obj_like := (obj_like w o nk k k' h0 h0' R0 exact).
  Notation by_user := (by_user w o k h0).
  Variable root' : val.                    (* the object given to the other call *)
  Notation o' := (set_numeric nk (set_root root' o)).
  Hypothesis AL : alike w o nk k k' h0 h0' R0 exact.
  Hypothesis EX : exact = false -> po_unpicklable o && po_make_refs o = true.
  Hypothesis Os : po_sort o = false.
  Hypothesis Or : po_readonly o = false.
  (** Pairs of numbered values that neither graph refers to. *)
  Variable extra : val -> val -> Prop.
  Hypothesis DA : forall v v' x x', extra v v' -> like x x' -> x <> v /\ x' <> v'.
  Definition entry (v v' : val) : Prop := numb v v' \/ extra v v'.

  (** ** Values *)
  Section like_ind.
    Variable P : val -> val -> Prop.
    Hypothesis H1 : forall v, flat v = true -> P v v.
    Hypothesis H2 : forall xs ys, Forall2 like xs ys -> Forall2 P xs ys -> P (VTuple xs) (VTuple ys).
    Hypothesis H3 : forall l l', corr l l' -> P (VLoc l) (VLoc l').
    Hypothesis H4 : forall l l' xs ys, exact = false -> hget h0 l = Some (OSet xs) -> hget h0' l' = Some (OSet ys) ->
      Forall2 like xs ys -> Forall2 P xs ys -> P (VLoc l) (VLoc l').
    Hypothesis H5 : forall l l' x, exact = false -> hget h0 l = Some (OByteArray x) -> hget h0' l' = Some (OByteArray x) -> P (VLoc l) (VLoc l').
    Fixpoint like_ind' v v' (H : like v v') {struct H} : P v v' :=
      let fix go xs ys (F : Forall2 like xs ys) {struct F} : Forall2 P xs ys :=
        match F in Forall2 _ a b return Forall2 P a b with
        | Forall2_nil _ => Forall2_nil P
        | Forall2_cons x y hxy r => Forall2_cons x y (like_ind' x y hxy) (go _ _ r)
        end in
      match H in SpecIso.like _ _ _ _ a b return P a b with
      | lk_flat _ _ _ _ v e => H1 v e
      | lk_tuple _ _ _ _ xs ys F => H2 xs ys F (go xs ys F)
      | lk_loc _ _ _ _ l l' r => H3 l l' r
      | lk_set _ _ _ _ l l' xs ys a1 a2 a3 F => H4 l l' xs ys a1 a2 a3 F (go xs ys F)
      | lk_bytearray _ _ _ _ l l' x a1 a2 a3 => H5 l l' x a1 a2 a3
      end.
  End like_ind.
  Lemma R0_lt l l' : R0 l l' -> l < length h0 /\ l' < length h0'.
  Proof. intros H. destruct (al_obj _ _ _ _ _ _ _ _ _ AL l l' H) as (ob & ob' & A & B & _). split; eapply hget_lt; eauto. Qed.
  Lemma corr_fun l x y : corr l x -> corr l y -> x = y.
  Proof.
    destruct (al_one _ _ _ _ _ _ _ _ _ AL) as [F _].
    intros [A|(n & A & A')] [B|(m & B & B')]; eauto; try (apply R0_lt in A; lia); try (apply R0_lt in B; lia); lia.
  Qed.
  Lemma corr_inj l x y : corr x l -> corr y l -> x = y.
  Proof.
    destruct (al_one _ _ _ _ _ _ _ _ _ AL) as [_ F].
    intros [A|(n & A & A')] [B|(m & B & B')]; eauto; try (apply R0_lt in A; lia); try (apply R0_lt in B; lia); lia.
  Qed.
  Lemma numb_like v v' : numb v v' -> like v v'.
  Proof.
    unfold SpecIso.numb, number. destruct v, v'; intros H; try (destruct H as [F E]; rewrite <- ?E in *; try discriminate; try (constructor; auto; fail)).
    - exact (lk_loc _ _ _ _ _ _ H).
  Qed.
  Lemma numb_eqb v v' x x' : numb v v' -> numb x x' -> val_eqb v x = val_eqb v' x'.
  Proof.
    intros H G.
    assert (E : v = x <-> v' = x').
    { unfold SpecIso.numb, number in *. destruct v, v'; try (destruct H as [F E]; try discriminate E; rewrite <- ?E in *);
        destruct x, x'; try (destruct G as [F2 E2]; try discriminate E2; rewrite <- ?E2 in *); try tauto; try (split; congruence).
      all: split; intros X; injection X as ->; f_equal; eauto using corr_fun, corr_inj. }
    destruct (val_eqb_spec v x), (val_eqb_spec v' x'); tauto.
  Qed.
  Lemma like_bij : (exact = false -> False) -> forall v v', like v v' -> forall x x', like x x' -> (v = x <-> v' = x').
  Proof.
    intros EE. refine (like_ind' (fun v v' => forall x x', like x x' -> (v = x <-> v' = x')) _ _ _ _ _).
    all: [> intros v F x0 x' G|intros xs ys F IH x0 x' G|intros l l' C x0 x' G|intros; exfalso; auto|intros; exfalso; auto].
    - destruct G as [u F2|xs ys F2|l l' C|? ? ? ? E|? ? ? E]; try (exfalso; auto; fail); try tauto; split; intros E; subst; discriminate.
    - destruct G as [u F2|xs2 ys2 F2|l l' C|? ? ? ? E|? ? ? E]; try (exfalso; auto; fail); try (split; intros E; subst; discriminate).
      assert (X : xs = xs2 <-> ys = ys2).
      { revert xs2 ys2 F2. induction F as [|a b xs ys Hab F IHF]; intros xs2 ys2 F2.
        - destruct F2; split; auto; discriminate.
        - inversion IH as [|? ? ? ? P1 P2]; subst. destruct F2 as [|c d xs2' ys2' Hcd F2']; [split; discriminate|].
          specialize (P1 _ _ Hcd). specialize (IHF P2 _ _ F2'). split; intros X; injection X as X1 X2; f_equal; tauto. }
      split; intros E; injection E as E; f_equal; tauto.
    - destruct G as [u F2|xs2 ys2 F2|m m' C2|? ? ? ? E|? ? ? E]; try (exfalso; auto; fail); try (split; intros E; subst; discriminate).
      split; intros E; injection E as ->; f_equal; eauto using corr_fun, corr_inj.
  Qed.
  Lemma like_eqb v v' x x' : (exact = false -> False) -> like v v' -> like x x' -> val_eqb v x = val_eqb v' x'.
  Proof.
    intros EE H G. pose proof (like_bij EE _ _ H _ _ G) as X. destruct (val_eqb_spec v x), (val_eqb_spec v' x'); tauto.
  Qed.
  Lemma index_rel (P : val -> val -> Prop) v v' l l' : (forall x x', P x x' -> val_eqb v x = val_eqb v' x') -> Forall2 P l l' ->
    index_of v l = index_of v' l'.
  Proof. intros H F. induction F as [|x x' l l' Hx F IH]; cbn [index_of]; auto. rewrite (H _ _ Hx), IH. auto. Qed.
  Lemma D_eqb v v' x x' : like v v' -> extra x x' -> val_eqb v x = val_eqb v' x'.
  Proof. intros H G. destruct (DA _ _ _ _ G H). destruct (val_eqb_spec v x), (val_eqb_spec v' x'); tauto. Qed.
  Lemma index_numb v v' l l' : numb v v' -> Forall2 entry l l' -> index_of v l = index_of v' l'.
  Proof. intros H. apply index_rel. intros x x' [E|E]; [apply numb_eqb; auto|apply D_eqb; auto; apply numb_like; auto]. Qed.
  Lemma index_like v v' l l' : (exact = false -> False) -> like v v' -> Forall2 entry l l' -> index_of v l = index_of v' l'.
  Proof. intros EE H. apply index_rel. intros x x' [E|E]; [apply like_eqb; auto; apply numb_like; auto|apply D_eqb; auto]. Qed.

  Lemma like_prim v v' : like v v' -> prim_json v = prim_json v'.
  Proof. intros H. destruct H; auto. Qed.
  Lemma is_str_like v v' : like v v' -> is_str v = is_str v'.
  Proof. intros H. destruct H; auto. Qed.
  Lemma like_loc l v' : like (VLoc l) v' -> exists l', v' = VLoc l' /\ (corr l l' \/ exact = false /\
    ((exists xs ys, hget h0 l = Some (OSet xs) /\ hget h0' l' = Some (OSet ys) /\ Forall2 like xs ys) \/
     (exists x, hget h0 l = Some (OByteArray x) /\ hget h0' l' = Some (OByteArray x)))).
  Proof.
    intros H. remember (VLoc l) as v eqn:E. destruct H as [u F|xs ys F|m m' C|m m' xs ys X G G' F|m m' x X G G']; subst; try discriminate;
      injection E as ->; exists m'; split; auto; right; split; eauto 10.
  Qed.

  (** ** States *)
  Definition keeps (h h2 : heap) : Prop := forall l ob, hget h l = Some ob ->
    hget h2 l = Some ob \/ exists i p, ob = OInst i /\ hget h2 l = Some (OInst (set_pos i p)).
  Record SR (s s' : pst) : Prop := {
    sr_keep : keeps h0 (p_heap s);
    sr_keep' : keeps h0' (p_heap s');
    sr_len : length (p_heap s) + length h0' = length (p_heap s') + length h0;
    sr_le : length h0 <= length (p_heap s);
    sr_new : forall n, match hget (p_heap s) (length h0 + n), hget (p_heap s') (length h0' + n) with
                       | None, None => True
                       | Some (ODict d), Some (ODict d') => dict_like d d'
                       | _, _ => False
                       end;
    sr_pos : forall l l' i i', R0 l l' -> hget (p_heap s) l = Some (OInst i) -> hget (p_heap s') l' = Some (OInst i') ->
       c_kind (cls (i_cls i)) = KIter -> i_pos i = i_pos i';
    sr_objs : Forall2 entry (p_objs s) (p_objs s');
    sr_depth : p_depth s = p_depth s';
    sr_cache : Forall2 (fun a b => like (fst a) (fst b) /\ snd a = snd b) (p_cache s) (p_cache s');
    sr_warned : Forall2 like (p_warned s) (p_warned s')
  }.

  (** Cells now. *)
  Lemma inst_like_pos l i i' p p' : inst_like l i i' -> inst_like l (set_pos i p) (set_pos i' p').
  Proof.
    intros [A B [C|C]]; constructor; auto. left. destruct C; [eapply bu_handler|eapply bu_reduce|eapply bu_state]; eauto.
  Qed.
  Definition unnumbered (ob : obj) : bool := match ob with OSet _ | OByteArray _ => true | _ => false end.
  Lemma keeps_get h h2 l ob : keeps h h2 -> hget h l = Some ob -> (forall i, ob <> OInst i) -> hget h2 l = Some ob.
  Proof. intros K G N. destruct (K l ob G) as [|(i & p & -> & _)]; auto. destruct (N i); auto. Qed.
  Lemma keeps_inst h h2 l i : keeps h h2 -> hget h l = Some (OInst i) -> exists p, hget h2 l = Some (OInst (set_pos i p)).
  Proof.
    intros K G. destruct (K l _ G) as [E|(j & p & E & G2)]; [exists (i_pos i); destruct i; exact E|]. injection E as <-. eauto.
  Qed.
  Lemma cell_now s s' l l' : SR s s' -> like (VLoc l) (VLoc l') ->
    (hget (p_heap s) l = None /\ hget (p_heap s') l' = None) \/
    exists ob ob', hget (p_heap s) l = Some ob /\ hget (p_heap s') l' = Some ob' /\ obj_like l ob ob' /\
      (corr l l' \/ exact = false /\ unnumbered ob = true).
  Proof.
    intros SS H. destruct (like_loc _ _ H) as (m' & EM & [C|(E & [(xs & ys & G & G' & F)|(x & G & G')])]); injection EM as <-.
    - destruct C as [C|(n & -> & ->)].
      + right. destruct (al_obj _ _ _ _ _ _ _ _ _ AL l l' C) as (ob & ob' & G & G' & L).
        destruct L as [xs ys F|xs ys F|d d' F|b|i i' F P|x x'].
        1-4,6: do 2 eexists; (split; [eapply keeps_get; [apply SS|exact G|discriminate]|]); (split; [eapply keeps_get; [apply SS|exact G'|discriminate]|]);
          (split; [constructor; auto|left; left; auto]).
        destruct (keeps_inst _ _ _ _ (sr_keep _ _ SS) G) as (p & G1). destruct (keeps_inst _ _ _ _ (sr_keep' _ _ SS) G') as (p' & G1').
        do 2 eexists. split; [exact G1|]. split; [exact G1'|]. split; [|left; left; auto]. constructor.
        * apply inst_like_pos; auto.
        * intros KI. exact (sr_pos _ _ SS l l' _ _ C G1 G1' KI).
      + pose proof (sr_new _ _ SS n) as X. destruct (hget (p_heap s) (length h0 + n)) as [[]|], (hget (p_heap s') (length h0' + n)) as [[]|]; try contradiction; auto.
        right. do 2 eexists. split; [reflexivity|]. split; [reflexivity|]. split; [constructor; auto|]. left. right. eauto.
    - right. exists (OSet xs), (OSet ys). split; [eapply keeps_get; [apply SS|exact G|discriminate]|].
      split; [eapply keeps_get; [apply SS|exact G'|discriminate]|]. split; [constructor; auto|right; auto].
    - right. exists (OByteArray x), (OByteArray x). split; [eapply keeps_get; [apply SS|exact G|discriminate]|].
      split; [eapply keeps_get; [apply SS|exact G'|discriminate]|]. split; [constructor; auto|right; auto].
  Qed.

  Lemma dict_like_nil d d' : dict_like d d' -> d = [] <-> d' = [].
  Proof.
    unfold SpecIso.dict_like. intros H. destruct (po_keys o); [|eapply Forall2_nil_iff; eauto].
    destruct H as [A B]. apply Forall2_nil_iff in A. apply Forall2_nil_iff in B. unfold strings, non_strings in *.
    split; intros ->; cbn [filter] in A, B.
    - destruct d' as [|[q v] d']; auto. cbn [filter fst] in A, B. destruct (is_str q); [destruct A as [A _]|destruct B as [B _]];
        [specialize (A eq_refl)|specialize (B eq_refl)]; discriminate.
    - destruct d as [|[q v] d]; auto. cbn [filter fst] in A, B. destruct (is_str q); [destruct A as [_ A]|destruct B as [_ B]];
        [specialize (A eq_refl)|specialize (B eq_refl)]; discriminate.
  Qed.
  Lemma truthy_now h h2 v : keeps h h2 -> (forall l, v = VLoc l -> hget h l <> None) -> truthy cls h2 v = truthy cls h v.
  Proof.
    intros K A. destruct v; auto. cbn [truthy]. destruct (hget h l) as [ob|] eqn:G; [|destruct (A l eq_refl G)].
    destruct (K l ob G) as [->|(i & p & -> & ->)]; auto.
  Qed.
  Lemma truthy_rel s s' v v' : SR s s' -> truth_like v v' -> truthy cls (p_heap s) v = truthy cls (p_heap s') v'.
  Proof.
    intros SS [L T]. assert (X : (forall l, v = VLoc l -> hget h0 l <> None) -> (forall l, v' = VLoc l -> hget h0' l <> None) ->
      truthy cls (p_heap s) v = truthy cls (p_heap s') v').
    { intros A B. rewrite (truthy_now _ _ _ (sr_keep _ _ SS) A), (truthy_now _ _ _ (sr_keep' _ _ SS) B). exact T. }
    destruct L as [u F|xs ys F|l l' C|l l' xs ys E G G' F|l l' x E G G']; 
      [apply X; intros ? EQ; rewrite EQ in F; discriminate|apply X; intros ? EQ; discriminate| |
       apply X; intros ? EQ; injection EQ as <-; congruence|apply X; intros ? EQ; injection EQ as <-; congruence].
    destruct C as [C|(n & -> & ->)].
    - destruct (al_obj _ _ _ _ _ _ _ _ _ AL l l' C) as (ob & ob' & G & G' & _). apply X; intros ? EQ; injection EQ as <-; congruence.
    - cbn [truthy]. pose proof (sr_new _ _ SS n) as Y.
      destruct (hget (p_heap s) (length h0 + n)) as [[]|], (hget (p_heap s') (length h0' + n)) as [[]|]; try contradiction; auto.
      apply dict_like_nil in Y. cbn [otruthy]. destruct d, d0; auto; [destruct Y as [Y _]|destruct Y as [_ Y]]; specialize (Y eq_refl); discriminate.
  Qed.

  (** ** Computations *)
  Definition rel2 {A B} (Q : A -> B -> Prop) (m : MP A) (m' : MP B) : Prop := forall s s', SR s s' ->
    match m s, m' s' with
    | (Ret a, s1), (Ret b, s1') => Q a b /\ SR s1 s1'
    | (Exc e, s1), (Exc e', s1') => e = e' /\ SR s1 s1'
    | (OOF, _), (OOF, _) => True
    | _, _ => False
    end.
  Lemma r_ret {A B} (Q : A -> B -> Prop) a b : Q a b -> rel2 Q (ret a) (ret b).
  Proof. intros H s s' SS. split; auto. Qed.
  Lemma r_raise {A B} (Q : A -> B -> Prop) e : rel2 Q (raise e) (raise e).
  Proof. intros s s' SS. split; auto. Qed.
  Lemma r_oof {A B} (Q : A -> B -> Prop) : rel2 Q oof oof.
  Proof. intros s s' SS. exact I. Qed.
  Lemma r_lift {A} (P : A -> A -> Prop) r r' : same_res P r r' -> rel2 P (lift r) (lift r').
  Proof. intros H s s' SS. unfold lift. destruct r, r'; simpl in H; try contradiction; auto. Qed.
  Lemma r_bind {A B A' B'} (P : A -> A' -> Prop) (Q : B -> B' -> Prop) m m' f f' :
    rel2 P m m' -> (forall a a', P a a' -> rel2 Q (f a) (f' a')) -> rel2 Q (bind m f) (bind m' f').
  Proof.
    intros H G s s' SS. specialize (H s s' SS). unfold bind. destruct (m s) as [[a|e|] s1], (m' s') as [[a'|e'|] s1']; try contradiction; auto.
    destruct H as [Pa SS1]. apply (G a a' Pa s1 s1' SS1).
  Qed.
  Lemma r_mono {A B} (P Q : A -> B -> Prop) m m' : rel2 P m m' -> (forall a b, P a b -> Q a b) -> rel2 Q m m'.
  Proof.
    intros H G s s' SS. specialize (H s s' SS). destruct (m s) as [[a|e|] s1], (m' s') as [[a'|e'|] s1']; try contradiction; auto.
    destruct H; split; auto.
  Qed.
  Lemma r_gets {A B} (Q : A -> B -> Prop) f g : (forall s s', SR s s' -> Q (f s) (g s')) -> rel2 Q (gets f) (gets g).
  Proof. intros H s s' SS. split; auto. Qed.
  Lemma r_bind_gets {A B A' B'} (f : pst -> A) (g : pst -> A') (F : A -> MP B) (G : A' -> MP B') Q :
    (forall s s', SR s s' -> match F (f s) s, G (g s') s' with
      | (Ret a, s1), (Ret b, s1') => Q a b /\ SR s1 s1'
      | (Exc e, s1), (Exc e', s1') => e = e' /\ SR s1 s1'
      | (OOF, _), (OOF, _) => True
      | _, _ => False
      end) -> rel2 Q (bind (gets f) F) (bind (gets g) G).
  Proof. intros H s s' SS. unfold bind, gets. apply H; auto. Qed.
  Lemma r_modify (f g : pst -> pst) : (forall s s', SR s s' -> SR (f s) (g s')) -> rel2 (fun _ _ => True) (modify f) (modify g).
  Proof. intros H s s' SS. split; auto. Qed.
  Lemma r_catch {A B} (Q : A -> B -> Prop) m m' p h h' : rel2 Q m m' -> (forall e, rel2 Q (h e) (h' e)) -> rel2 Q (catch m p h) (catch m' p h').
  Proof.
    intros H G s s' SS. specialize (H s s' SS). unfold catch. destruct (m s) as [[a|e|] s1], (m' s') as [[a'|e'|] s1']; try contradiction; auto.
    destruct H as [-> SS1]. destruct (p e'); [apply G; auto|split; auto].
  Qed.
  Lemma r_mapM {A A' B B'} (P : A -> A' -> Prop) (Q : B -> B' -> Prop) f f' l l' : Forall2 P l l' ->
    (forall x x', P x x' -> rel2 Q (f x) (f' x')) -> rel2 (Forall2 Q) (mapM f l) (mapM f' l').
  Proof.
    intros F H. induction F as [|x x' l l' Hx F IH]; cbn [mapM]; [apply r_ret; auto|].
    eapply r_bind; [apply H; eauto|]. intros b b' Hb. eapply r_bind; [exact IH|]. intros bs bs' Hbs. apply r_ret. auto.
  Qed.
  Lemma r_foldM {A A' B B'} (P : A -> A' -> Prop) (Q : B -> B' -> Prop) f f' l l' : Forall2 P l l' ->
    (forall b b' x x', Q b b' -> P x x' -> rel2 Q (f b x) (f' b' x')) -> forall b b', Q b b' -> rel2 Q (foldM f l b) (foldM f' l' b').
  Proof.
    intros F H. induction F as [|x x' l l' Hx F IH]; intros b b' Hb; cbn [foldM]; [apply r_ret; auto|].
    eapply r_bind; [apply H; eauto|]. intros c c' Hc. apply IH; auto.
  Qed.
  Lemma r_ext {A B} (Q : A -> B -> Prop) m1 m1' m2 m2' : (forall s, m1 s = m2 s) -> (forall s, m1' s = m2' s) -> rel2 Q m2 m2' -> rel2 Q m1 m1'.
  Proof. intros E E' H s s' SS. rewrite E, E'. apply H; auto. Qed.

  Ltac rt := cbn [set_root set_numeric po_unpicklable po_make_refs po_keys po_max_depth po_warn po_max_iter po_b85 po_fail_safe po_props po_readonly po_sort po_ctx].

  (** ** Small steps *)
  Lemma SR_objs s s' l l' : SR s s' -> Forall2 entry l l' -> SR (set_objs l s) (set_objs l' s').
  Proof. intros [] F. constructor; cbn [set_objs p_heap p_objs p_depth p_cache p_warned]; auto. Qed.
  Lemma SR_depth s s' d : SR s s' -> SR (set_depth d s) (set_depth d s').
  Proof. intros []. constructor; cbn [set_depth p_heap p_objs p_depth p_cache p_warned]; auto. Qed.
  Lemma SR_reset s s' : SR s s' -> SR (p_reset_st s) (p_reset_st s').
  Proof. intros []. constructor; cbn [p_reset_st p_heap p_objs p_depth p_cache p_warned]; auto. Qed.
  Lemma r_log v v' : numb v v' -> rel2 eq (log_ref v) (log_ref v').
  Proof.
    intros H s s' SS. unfold log_ref. rewrite (index_numb _ _ _ _ H (sr_objs _ _ SS)). destruct (index_of v' (p_objs s')); split; auto.
    apply SR_objs; auto. apply Forall2_app; [apply SS|constructor; auto]. left. exact H.
  Qed.
  Lemma r_mkref v v' : numb v v' -> rel2 eq (mkref o v) (mkref o' v').
  Proof. intros H. unfold mkref. rt. eapply r_bind; [apply r_log; auto|]. intros a a' ->. apply r_ret. auto. Qed.
  Lemma r_getref v v' : numb v v' -> rel2 eq (getref v) (getref v').
  Proof.
    intros H. unfold getref. eapply r_bind; [apply (r_gets (Forall2 entry)); intros s s' SS; apply SS|].
    intros l l' F. apply r_ret. rewrite (index_numb _ _ _ _ H F). auto.
  Qed.
  Lemma r_warn v v' : like v v' -> rel2 (fun _ _ => True) (pickle_warning o v) (pickle_warning o' v').
  Proof.
    intros H. unfold pickle_warning. rt. destruct (po_warn o); [|apply r_ret; auto]. apply r_modify. intros s s' [].
    constructor; cbn [add_warned p_heap p_objs p_depth p_cache p_warned]; auto. apply Forall2_app; auto.
  Qed.
  Lemma r_max : rel2 (fun b b' => b = b' /\ (po_max_depth o = None -> b = false)) (max_reached o) (max_reached o').
  Proof.
    unfold max_reached. rt. eapply r_bind; [apply (r_gets eq); intros s s' SS; apply SS|]. intros d d' ->. apply r_ret.
    split; auto. intros ->. auto.
  Qed.
  Definition stays (v : val) : Prop := forall l, v = VLoc l -> hget h0 l <> None.
  Lemma r_truthy' v v' : truth_like v v' -> rel2 (fun b b' => b = b' /\ (stays v -> b = truthy cls h0 v)) (truthy_p w v) (truthy_p w v').
  Proof.
    intros H. unfold truthy_p. apply r_gets. intros s s' SS. split; [apply truthy_rel; auto|].
    intros K. apply truthy_now; auto. apply SS.
  Qed.
  Lemma r_truthy v v' : truth_like v v' -> rel2 eq (truthy_p w v) (truthy_p w v').
  Proof. intros H. eapply r_mono; [apply r_truthy'; auto|]. intros a b [E _]. auto. Qed.
  Lemma r_get_obj l l' : like (VLoc l) (VLoc l') ->
    rel2 (fun ob ob' => obj_like l ob ob' /\ (corr l l' \/ exact = false /\ unnumbered ob = true)) (get_obj l) (get_obj l').
  Proof.
    intros H s s' SS. unfold get_obj, bind, gets. destruct (cell_now s s' l l' SS H) as [[-> ->]|(ob & ob' & -> & -> & X)];
      unfold raise, ret; auto.
  Qed.
  Lemma r_get_dict ex d d' : names_like ex d d' ->
    rel2 (fun ob ob' => exists its its', ob = ODict its /\ ob' = ODict its' /\ hget h0 d = Some ob /\ hget h0' d' = Some ob' /\
            dict_like (items ex its) (items ex its')) (get_obj d) (get_obj d').
  Proof.
    intros (its & its' & G & G' & L) s s' SS. unfold get_obj, bind, gets.
    rewrite (keeps_get _ _ _ _ (sr_keep _ _ SS) G), (keeps_get _ _ _ _ (sr_keep' _ _ SS) G'); try discriminate.
    unfold ret. split; auto. exists its, its'. auto.
  Qed.
  Lemma R0_now s s' l l' : SR s s' -> corr l l' -> forall i, hget (p_heap s) l = Some (OInst i) -> R0 l l'.
  Proof.
    intros SS [C|(n & -> & ->)] i G; auto. pose proof (sr_new _ _ SS n) as X. rewrite G in X. destruct (hget (p_heap s') (length h0' + n)) as [[]|]; contradiction.
  Qed.
  (** An instance as found in the heap, and as it is now. *)
  Definition insts (l l' : loc) (i i' : inst) : Prop :=
    R0 l l' /\ hget h0 l = Some (OInst i) /\ hget h0' l' = Some (OInst i') /\ inst_like l i i'.
  Lemma inst_now s s' l l' i i' : SR s s' -> insts l l' i i' -> exists p p',
    hget (p_heap s) l = Some (OInst (set_pos i p)) /\ hget (p_heap s') l' = Some (OInst (set_pos i' p')) /\
    (c_kind (cls (i_cls i)) = KIter -> p = p').
  Proof.
    intros SS (C & G & G' & L).
    destruct (keeps_inst _ _ _ _ (sr_keep _ _ SS) G) as (p & G1). destruct (keeps_inst _ _ _ _ (sr_keep' _ _ SS) G') as (p' & G1').
    exists p, p'. split; auto. split; auto. intros KI. exact (sr_pos _ _ SS l l' _ _ C G1 G1' KI).
  Qed.
  (** What kind of object a value is. *)
  Lemma is_function_rel s s' v v' : SR s s' -> like v v' -> is_function w (p_heap s) v = is_function w (p_heap s') v'.
  Proof.
    intros SS H. destruct v; try (destruct v'; inversion H; subst; auto; fail).
    destruct (like_loc _ _ H) as (l' & -> & _). cbn [is_function].
    destruct (cell_now s s' l l' SS H) as [[-> ->]|(ob & ob' & -> & -> & L & _)]; auto. destruct L; auto. destruct H0 as [E]. rewrite E. auto.
  Qed.
  Lemma is_enum_rel s s' v v' : SR s s' -> like v v' -> is_enum w (p_heap s) v = is_enum w (p_heap s') v'.
  Proof.
    intros SS H. destruct v; try (destruct v'; inversion H; subst; auto; fail).
    destruct (like_loc _ _ H) as (l' & -> & _). cbn [is_enum].
    destruct (cell_now s s' l l' SS H) as [[-> ->]|(ob & ob' & -> & -> & L & _)]; auto. destruct L; auto. destruct H0 as [E]. rewrite E. auto.
  Qed.
  Lemma number_numb v v' : number R0 v v' -> numb v v'.
  Proof. unfold SpecIso.numb, number. destruct v, v'; auto. intros H. left. auto. Qed.
  Lemma callable_rel s s' v v' : SR s s' -> like v v' -> callable w (p_heap s) v = callable w (p_heap s') v' /\
    (callable w (p_heap s) v = true -> number R0 v v').
  Proof.
    intros SS H. destruct v; try (destruct v'; inversion H; subst; try (split; [reflexivity|intros E; try discriminate E; split; auto]; fail); fail).
    destruct (like_loc _ _ H) as (l' & -> & _). cbn [callable].
    destruct (cell_now s s' l l' SS H) as [[-> ->]|(ob & ob' & G & G' & L & [X|[_ X]])]; [split; auto; discriminate| |].
    - rewrite G, G'. split; [destruct L as [| | | |i i' [E]|]; rewrite <- ?E; auto|].
      intros CA. destruct ob; try discriminate. eapply R0_now; eauto.
    - rewrite G, G'. destruct L; try discriminate; split; auto; discriminate.
  Qed.
  Lemma callable_now hh h2 v : keeps hh h2 -> (forall l ob, hget hh l = None -> hget h2 l = Some ob -> exists d, ob = ODict d) ->
    callable w h2 v = callable w hh v.
  Proof.
    intros K N. destruct v; auto. cbn [callable]. destruct (hget hh l) as [ob|] eqn:G.
    - destruct (K l ob G) as [->|(i & p & -> & ->)]; auto.
    - destruct (hget h2 l) as [ob|] eqn:G2; auto. destruct (N l ob G G2) as (d & ->). auto.
  Qed.
  Lemma new_dict s s' : SR s s' -> (forall l ob, hget h0 l = None -> hget (p_heap s) l = Some ob -> exists d, ob = ODict d) /\
    (forall l ob, hget h0' l = None -> hget (p_heap s') l = Some ob -> exists d, ob = ODict d).
  Proof.
    intros SS. split; intros l ob G G2; unfold hget in G; apply nth_error_None in G.
    - pose proof (sr_new _ _ SS (l - length h0)) as X. replace (length h0 + (l - length h0)) with l in X by (unfold loc in *; lia). rewrite G2 in X.
      destruct ob; destruct (hget (p_heap s') (length h0' + (l - length h0))) as [[]|]; try contradiction; eauto.
    - pose proof (sr_new _ _ SS (l - length h0')) as X. replace (length h0' + (l - length h0')) with l in X by (unfold loc in *; lia). rewrite G2 in X.
      destruct (hget (p_heap s) (length h0 + (l - length h0'))) as [[]|]; try contradiction; destruct ob; try contradiction; eauto.
  Qed.
  Lemma inst_attr_now hh h2 i a p : keeps hh h2 -> dict_there hh i -> inst_attr h2 (set_pos i p) a = inst_attr hh i a.
  Proof.
    intros K N. unfold inst_attr. cbn [set_pos i_slots i_dict]. destruct (sget a (i_slots i)); auto. unfold dict_there in N. destruct (i_dict i) as [d|]; auto.
    destruct (hget hh d) as [ob|] eqn:G; [|destruct (N d eq_refl G)]. destruct (K d ob G) as [->|(j & q & -> & ->)]; auto.
  Qed.

  Lemma is_picklable_rel s s' q q' v v' : SR s s' -> like q q' -> like v v' ->
    is_picklable w (p_heap s) q v = is_picklable w (p_heap s') q' v'.
  Proof.
    intros SS Q H.
    assert (M : is_module_function w v = is_module_function w v') by (destruct H; auto).
    pose proof (is_function_rel s s' v v' SS H) as F.
    destruct Q as [[] ?| | | |]; unfold is_picklable; rewrite ?M, ?F; auto.
  Qed.
  Lemma r_skip q v q' v' : rel2 (fun b b' => b = false /\ b' = false) (readonly_skip w k o q v) (readonly_skip w k' o' q' v').
  Proof. unfold readonly_skip. rt. rewrite Or. apply r_ret; auto. Qed.
  Lemma r_in_cycle v v' m mk : like v v' -> (mk = true \/ (exact = false -> False) \/ numb v v') ->
    rel2 (fun b b' => b = b' /\ (m = false -> mk = true -> b = false)) (in_cycle w v m mk) (in_cycle w v' m mk).
  Proof.
    intros H C s s' SS. unfold in_cycle, bind, get, ret. split; auto.
    rewrite (is_enum_rel s s' v v' SS H), (like_prim _ _ H). split; [|intros -> ->; auto].
    assert (X : mk = true \/ index_of v (p_objs s) = index_of v' (p_objs s')).
    { destruct C as [C|[C|C]]; auto; right; [apply index_like|apply index_numb]; auto; apply SS. }
    destruct X as [->| ->]; auto.
  Qed.
  Lemma r_getattr (P : val -> val -> Prop) l l' i i' p p' a : insts l l' i i' -> dict_there h0 i -> dict_there h0' i' -> opt P (inst_attr h0 i a) (inst_attr h0' i' a) ->
    (forall v v', like v v' -> P v v') -> rel2 P (p_getattr k l (set_pos i p) a) (p_getattr k' l' (set_pos i' p') a).
  Proof.
    intros (C & _ & _ & L) D D' X LP s s' SS. unfold p_getattr, bind, gets.
    rewrite (inst_attr_now _ _ i a p (sr_keep _ _ SS)), (inst_attr_now _ _ i' a p' (sr_keep' _ _ SS)); auto.
    destruct (inst_attr h0 i a), (inst_attr h0' i' a); try contradiction; [split; auto|].
    pose proof (ho_attr _ _ _ _ _ _ _ (al_hooks _ _ _ _ _ _ _ _ _ AL) l l' a C) as Y. unfold lift.
    destruct (k_attr k l a), (k_attr k' l' a); simpl in Y; try contradiction; auto.
  Qed.
  Lemma r_reduce_of l l' i i' p p' : insts l l' i i' ->
    rel2 (fun r r' => same_rv truth_like r r' /\ (forall s, r = RStr s -> c_reduce (cls (i_cls i)) = true /\ k_reduce k l = Ret (RStr s)) /\
            (forall x, c_reduce (cls (i_cls i)) = true -> k_reduce k l = Ret x -> r = x))
      (reduce_of w k l (set_pos i p)) (reduce_of w k' l' (set_pos i' p')).
  Proof.
    intros (C & G & _ & L). unfold reduce_of. cbn [set_pos i_cls]. rewrite <- (il_cls _ _ _ _ _ _ _ _ _ _ _ _ L).
    destruct (c_reduce (cls (i_cls i))) eqn:E; [|apply r_ret; split; [exact I|split; [discriminate|congruence]]].
    pose proof (ho_reduce _ _ _ _ _ _ _ (al_hooks _ _ _ _ _ _ _ _ _ AL) l l' (conj C (ex_intro _ i (conj G E)))) as Y.
    intros s s' SS. unfold catch, lift.
    destruct (k_reduce k l) as [r|e|], (k_reduce k' l') as [r'|e'|]; simpl in Y; try contradiction; auto.
    - split; auto. split; auto. split; [intros s0 ->; auto|]. intros x _ X. congruence.
    - subst e'. destruct (is_TypeError e); [|split; auto]. split; auto. split; [exact I|]. split; [discriminate|]. intros x _ X. discriminate.
  Qed.

  (** ** Dicts *)
  Lemma filter_rel {A B} (P : A -> B -> Prop) f g l l' : (forall a b, P a b -> f a = g b) -> Forall2 P l l' -> Forall2 P (filter f l) (filter g l').
  Proof. intros H F. induction F as [|a b l l' Hab F IH]; cbn [filter]; auto. rewrite <- (H _ _ Hab). destruct (f a); auto. Qed.
  Lemma filter_comm {A} (f g : A -> bool) l : filter f (filter g l) = filter g (filter f l).
  Proof.
    induction l as [|a l IH]; auto. cbn [filter]. destruct (g a) eqn:G, (f a) eqn:F; cbn [filter]; rewrite ?G, ?F, ?IH; auto.
  Qed.
  Lemma excluded_like ex q q' : like q q' -> excluded ex q = excluded ex q'.
  Proof. intros H. destruct H; auto. Qed.
  Lemma dict_like_items ex d d' : dict_like d d' -> dict_like (items ex d) (items ex d').
  Proof.
    assert (X : forall a b, entry_like a b -> negb (excluded ex (fst a)) = negb (excluded ex (fst b))).
    { intros a b (L & _). rewrite (excluded_like ex _ _ L). auto. }
    unfold SpecIso.dict_like, items, strings, non_strings. destruct (po_keys o); [|apply filter_rel; auto].
    intros [A B]. rewrite !(filter_comm _ (fun kv => negb (excluded ex (fst kv)))). split; apply filter_rel; auto.
  Qed.
  Lemma foldM_filter {A B} (p : A -> bool) (f : B -> A -> MP B) l : (forall b a s, p a = false -> f b a s = (Ret b, s)) ->
    forall b s, foldM f l b s = foldM f (filter p l) b s.
  Proof.
    intros H. induction l as [|a l IH]; intros b s; auto. cbn [filter foldM]. destruct (p a) eqn:E.
    - cbn [foldM]. unfold bind. destruct (f b a s) as [[]]; auto.
    - unfold bind. rewrite H; auto.
  Qed.

  (** ** The encoder *)
  Section step.
    Variables (rec rec' : val -> MP json) (fuel : nat).
    Hypothesis Hrec : forall v v', like v v' -> rel2 eq (rec v) (rec' v').

    Lemma r_rec_list l l' : Forall2 like l l' -> rel2 eq (mapM rec l) (mapM rec' l').
    Proof.
      intros F. eapply r_mono; [eapply r_mapM; [exact F|exact Hrec]|]. intros a b X. induction X; congruence.
    Qed.
    Lemma r_pflatten r v v' : like v v' -> rel2 eq (pflatten w o rec r v) (pflatten w o' rec' r v').
    Proof.
      intros H. unfold pflatten. rt. rewrite Os. eapply r_bind with (P := fun _ _ => True).
      - destruct r; [|apply r_ret; auto]. unfold p_reset. apply r_modify. apply SR_reset.
      - intros _ _ _. eapply r_bind with (P := fun _ _ => True); [apply r_ret; auto|]. intros _ _ _. apply Hrec; auto.
    Qed.
    Lemma r_escape v v' : like v v' -> rel2 eq (escape_key w o rec v) (escape_key w o' rec' v').
    Proof. intros H. unfold escape_key. eapply r_bind; [apply r_pflatten; auto|]. intros j j' ->. apply r_ret. auto. Qed.
    Lemma r_kv q q' v v' d : like q q' -> key_string k o q = key_string k' (set_numeric nk o) q' -> like v v' ->
      rel2 eq (flatten_key_value_pair w k o rec q v d) (flatten_key_value_pair w k' o' rec' q' v' d).
    Proof.
      intros Q E H. unfold flatten_key_value_pair. apply r_bind_gets. intros s s' SS. rewrite (is_picklable_rel s s' _ _ _ _ SS Q H).
      destruct (negb _); [split; auto|]. revert s s' SS. eapply r_bind; [apply r_skip|]. intros a a' [-> ->]. change (key_string k' o' q') with (key_string k' (set_numeric nk o) q'). rewrite E.
      eapply r_bind with (P := eq); [apply r_lift; destruct (key_string k' (set_numeric nk o) q'); simpl; auto|]. intros ks ks' ->.
      eapply r_bind; [apply Hrec; auto|]. intros j j' ->. apply r_ret; auto.
    Qed.
    Lemma r_skv q q' v v' d : po_keys o = true -> like q q' -> like v v' ->
      rel2 eq (flatten_string_key_value_pair w k o rec q v d) (flatten_string_key_value_pair w k' o' rec' q' v' d).
    Proof.
      intros KE Q H. unfold flatten_string_key_value_pair. rt. rewrite KE. apply r_bind_gets. intros s s' SS.
      pose proof (is_picklable_rel s s' _ _ _ _ SS Q H) as P.
      assert (X : forall d, rel2 eq (ks <- escape_key w o rec q;; j <- rec v;; ret (sset ks j d)) (ks <- escape_key w o' rec' q';; j <- rec' v';; ret (sset ks j d))).
      { intros d0. eapply r_bind; [apply r_escape; auto|]. intros ks ks' ->. eapply r_bind; [apply Hrec; auto|]. intros j j' ->. apply r_ret; auto. }
      destruct Q as [q Q| | | |]; try (rewrite P; destruct (negb _); split; auto; fail).
      destruct q; try (rewrite P; destruct (negb _); split; auto; fail). rewrite andb_true_r.
      destruct (prefixb JSON_KEY s0 || is_reserved s0); [apply X; auto|]. rewrite P. destruct (negb _); [split; auto|]. clear P. revert s s' SS. eapply r_bind; [apply Hrec; auto|]. intros j j' ->. apply r_ret; auto.
    Qed.
    Lemma r_nskv q q' v v' d : po_keys o = true -> like q q' -> like v v' ->
      rel2 eq (flatten_non_string_key_value_pair w o rec q v d) (flatten_non_string_key_value_pair w o' rec' q' v' d).
    Proof.
      intros KE Q H. unfold flatten_non_string_key_value_pair. rt. rewrite KE. apply r_bind_gets. intros s s' SS.
      rewrite (is_picklable_rel s s' _ _ _ _ SS Q H). destruct (negb _); [split; auto|].
      assert (X : forall d, rel2 eq (ks <- escape_key w o rec q;; j <- rec v;; ret (sset ks j d)) (ks <- escape_key w o' rec' q';; j <- rec' v';; ret (sset ks j d))).
      { intros d0. eapply r_bind; [apply r_escape; auto|]. intros ks ks' ->. eapply r_bind; [apply Hrec; auto|]. intros j j' ->. apply r_ret; auto. }
      specialize (X d). destruct Q as [q Q| | | |]; try (apply X; auto; fail). destruct q; try (apply X; auto; fail). split; auto.
    Qed.
    Lemma r_items its its' ex d : dict_like (items ex its) (items ex its') ->
      rel2 eq (flatten_items w k o rec its ex d) (flatten_items w k' o' rec' its' ex d).
    Proof.
      unfold SpecIso.dict_like, flatten_items. rt. destruct (po_keys o) eqn:KE.
      - intros [A B]. eapply r_bind with (P := eq).
        + eapply r_ext; [intros s; apply foldM_filter with (p := fun kv => is_str (fst kv))|
                         intros s; apply foldM_filter with (p := fun kv => is_str (fst kv))|].
          * intros b [q v] s0 E. cbn [fst snd] in *. unfold flatten_string_key_value_pair, bind, gets. rewrite KE.
            destruct q; try discriminate; clear E; destruct (negb _); auto.
          * intros b [q v] s0 E. cbn [fst snd] in *. unfold flatten_string_key_value_pair, bind, gets. rt. rewrite KE.
            destruct q; try discriminate; clear E; destruct (negb _); auto.
          * eapply r_foldM; [exact A| |reflexivity]. intros b b' x x' -> (X1 & _ & X2). apply r_skv; auto.
        + intros d1 d1' ->. eapply r_ext; [intros s; apply foldM_filter with (p := fun kv => negb (is_str (fst kv)))|
                         intros s; apply foldM_filter with (p := fun kv => negb (is_str (fst kv)))|].
          * intros b [q v] s0 E. cbn [fst snd] in *. unfold flatten_non_string_key_value_pair, bind, gets.
            destruct q; try discriminate; clear E; destruct (negb _); auto.
          * intros b [q v] s0 E. cbn [fst snd] in *. unfold flatten_non_string_key_value_pair, bind, gets.
            destruct q; try discriminate; clear E; destruct (negb _); auto.
          * eapply r_foldM; [exact B| |reflexivity]. intros b b' x x' -> (X1 & _ & X2). apply r_nskv; auto.
      - intros A. eapply r_foldM; [exact A| |reflexivity]. intros b b' x x' -> (X1 & X2 & X3). apply r_kv; auto.
    Qed.
    Lemma r_plain_dict dl dl' ex d : names_like ex dl dl' ->
      rel2 eq (flatten_plain_dict w k o rec dl ex d) (flatten_plain_dict w k' o' rec' dl' ex d).
    Proof.
      intros H. unfold flatten_plain_dict. eapply r_bind; [apply r_get_dict; exact H|].
      intros ob ob' (its & its' & -> & -> & _ & _ & L). apply r_items; auto.
    Qed.
    (** a dict as it is now *)
    Lemma r_dict_now dl dl' : corr dl dl' ->
      rel2 eq (flatten_plain_dict w k o rec dl [] []) (flatten_plain_dict w k' o' rec' dl' [] []).
    Proof.
      intros H. unfold flatten_plain_dict. eapply r_bind; [apply r_get_obj; constructor; exact H|].
      intros ob ob' [L _]. destruct L; try apply r_raise. apply r_items. apply dict_like_items; auto.
    Qed.
    Lemma dict_like_one n v v' : like v v' -> dict_like [(VStr n, v)] [(VStr n, v')].
    Proof.
      intros H. assert (X : entry_like (VStr n, v) (VStr n, v')) by (split; [constructor; auto|split; auto]).
      unfold SpecIso.dict_like. destruct (po_keys o); repeat constructor; auto.
    Qed.
    Lemma r_clone x x' : like x x' -> rel2 eq (flatten_clone w k o rec x) (flatten_clone w k' o' rec' x').
    Proof.
      intros H. unfold flatten_clone. rt. cbv zeta. eapply r_bind; [apply r_items; apply dict_like_items; apply dict_like_one; auto|].
      intros d d' ->. apply r_ret; auto.
    Qed.
    Lemma r_factory l l' i i' p p' d : insts l l' i i' -> dict_there h0 i -> dict_there h0' i' ->
      (opt like (factory_of w h0 i) (factory_of w h0' i') \/ not_callable w h0 (factory_of w h0 i) /\ not_callable w h0' (factory_of w h0' i')) ->
      rel2 eq (flatten_factory w k o rec (set_pos i p) d) (flatten_factory w k' o' rec' (set_pos i' p') d).
    Proof.
      intros (C & _ & _ & L) T T' X. unfold flatten_factory. apply r_bind_gets. intros s s' SS.
      assert (E : factory_of w (p_heap s) (set_pos i p) = factory_of w h0 i).
      { unfold factory_of. rewrite (inst_attr_now _ _ i _ p (sr_keep _ _ SS)); auto. }
      assert (E' : factory_of w (p_heap s') (set_pos i' p') = factory_of w h0' i').
      { unfold factory_of. rewrite (inst_attr_now _ _ i' _ p' (sr_keep' _ _ SS)); auto. }
      rewrite E, E'. destruct X as [X|[X X']].
      - destruct (factory_of w h0 i) as [f|], (factory_of w h0' i') as [f'|]; simpl in X; try contradiction; [|split; auto].
        destruct (callable_rel s s' f f' SS X) as [CE CN]. rewrite <- CE. destruct (callable w (p_heap s) f); [|split; auto].
        specialize (CN eq_refl). revert s s' SS E E' CE. intros s s' SS _ _ _. revert s s' SS.
        eapply r_bind with (P := eq); [|intros a a' ->; apply r_ret; auto].
        assert (Y : rel2 eq (is_new <- mkref o f;; if is_new then x <- lift (k_call0 k f);; flatten_clone w k o rec x else getref f)
                           (is_new <- mkref o' f';; if is_new then x <- lift (k_call0 k' f');; flatten_clone w k' o' rec' x else getref f')).
        { eapply r_bind; [apply r_mkref; apply number_numb; auto|]. intros b b' ->. destruct b'; [|apply r_getref; apply number_numb; auto].
          eapply r_bind; [apply r_lift; apply (ho_call0 _ _ _ _ _ _ _ (al_hooks _ _ _ _ _ _ _ _ _ AL)); auto|]. intros x x' H. apply r_clone; auto. }
        destruct X as [f F| | | |]; auto. destruct f; auto. apply r_ret; auto.
      - destruct (new_dict s s' SS) as [N N'].
        destruct (factory_of w h0 i) as [f|], (factory_of w h0' i') as [f'|]; simpl in X, X';
          rewrite ?(callable_now _ _ f (sr_keep _ _ SS) N), ?(callable_now _ _ f' (sr_keep' _ _ SS) N'), ?X, ?X'; split; auto.
    Qed.
    Lemma r_dict_sub l l' i i' p p' d : insts l l' i i' -> c_kind (cls (i_cls i)) = KDict -> fields_like l i i' ->
      rel2 eq (flatten_dict_subclass w k o rec l (set_pos i p) d) (flatten_dict_subclass w k' o' rec' l' (set_pos i' p') d).
    Proof.
      intros II KD FL. unfold SpecIso.fields_like in FL. cbv zeta in FL. rewrite KD in FL. destruct FL as (LE & IT & FA & DD).
      pose proof II as (C & GI & _ & L). unfold flatten_dict_subclass. rt. cbn [set_pos i_cls i_items i_dict]. rewrite <- (il_cls _ _ _ _ _ _ _ _ _ _ _ _ L).
      eapply r_bind; [apply r_items; exact IT|]. intros d1 d1' ->. assert (TH : dict_there h0 i /\ dict_there h0' i').
      { split; intros y Ey; destruct (i_dict i) as [dl|], (i_dict i') as [dl'|]; simpl in DD; try contradiction; try discriminate;
          injection Ey as <-; destruct DD as (_ & its & its' & X1 & X2 & _); congruence. }
      eapply r_bind; [eapply (r_factory l l' i i' p p'); eauto; apply TH|]. intros d2 d2' ->.
      destruct (i_dict i) as [dl|], (i_dict i') as [dl'|]; simpl in DD; try contradiction; [|apply r_ret; auto].
      destruct DD as (NL & its & its' & G & G' & LA & CC). eapply r_bind; [apply r_get_dict; exact NL|].
      intros ob ob' (jts & jts' & -> & -> & G2 & G2' & _). rewrite G in G2. rewrite G' in G2'. injection G2 as <-. injection G2' as <-.
      assert (ED : differs_from_dict k l (i_items i) its = differs_from_dict k' l' (i_items i') its').
      { assert (AK : is_dict_sub (cls (i_cls i)) = true) by (unfold is_dict_sub; rewrite KD; reflexivity).
        pose proof (ho_eqdict _ _ _ _ _ _ _ (al_hooks _ _ _ _ _ _ _ _ _ AL) l l') as Y. specialize (Y (conj C (ex_intro _ i (conj GI AK)))). unfold differs_from_dict. rewrite Y.
        destruct (i_items i), (i_items i'); try discriminate; destruct its, its'; try discriminate; auto;
          cbn [length] in *; injection LE as LE; try injection LA as LA; rewrite ?LE, ?LA; auto. }
      rewrite <- ED. destruct (po_unpicklable o && differs_from_dict k l (i_items i) its) eqn:DI; [|apply r_ret; auto].
      destruct CC as [CC|[E1 E2]]; [|rewrite E1, E2, andb_comm in DI; discriminate].
      eapply r_bind; [apply r_mkref; exact CC|]. intros b b' ->. destruct b'.
      - eapply r_bind; [apply r_plain_dict; exact NL|]. intros x x' ->. apply r_ret; auto.
      - eapply r_bind; [apply r_getref; exact CC|]. intros x x' ->. apply r_ret; auto.
    Qed.
    Lemma r_seq i i' p p' d : opt (names_like []) (i_dict i) (i_dict i') -> Forall2 like (i_elems i) (i_elems i') ->
      rel2 eq (flatten_sequence_obj w k o rec (set_pos i p) d) (flatten_sequence_obj w k' o' rec' (set_pos i' p') d).
    Proof.
      intros D F. unfold flatten_sequence_obj. rt. cbn [set_pos i_dict i_elems]. eapply r_bind with (P := eq).
      - destruct (i_dict i), (i_dict i'); simpl in D; try contradiction; [apply r_plain_dict; auto|apply r_ret; auto].
      - intros d1 d1' ->. eapply r_bind; [apply r_rec_list; exact F|]. intros js js' ->. bcase (po_unpicklable o) PU; apply r_ret; auto.
    Qed.
    Definition attrs_like (i i' : inst) : Prop := dict_there h0 i /\ dict_there h0' i' /\ forall a, smem a (c_exclude (cls (i_cls i))) = false ->
      opt like (inst_attr h0 i (mangle (cls (i_cls i)) a)) (inst_attr h0' i' (mangle (cls (i_cls i)) a)).
    Lemma Forall2_refl {A} (P : A -> A -> Prop) l : (forall a, P a a) -> Forall2 P l l.
    Proof. intros H. induction l; auto. Qed.
    Lemma r_obj_attrs l l' i i' p p' at_ d : insts l l' i i' -> attrs_like i i' ->
      rel2 eq (flatten_obj_attrs w k o rec l (set_pos i p) at_ (c_exclude (cls (i_cls i))) d) (flatten_obj_attrs w k' o' rec' l' (set_pos i' p') at_ (c_exclude (cls (i_cls i))) d).
    Proof.
      intros II (T & T' & X). unfold flatten_obj_attrs. eapply r_foldM with (P := eq); [apply Forall2_refl; auto| |reflexivity].
      intros b b' a a' -> ->. destruct (smem a' (c_exclude (cls (i_cls i)))) eqn:SE; [apply r_ret; auto|]. apply r_catch; [|intros e; apply r_ret; auto].
      cbn [set_pos i_cls]. pose proof II as (_ & _ & _ & L). rewrite <- (il_cls _ _ _ _ _ _ _ _ _ _ _ _ L).
      eapply r_bind; [eapply (r_getattr like l l' i i'); eauto|]. intros v v' H.
      eapply r_bind; [apply r_kv; auto; constructor; auto|]. intros x x' ->. apply r_ret; auto.
    Qed.
    Lemma r_properties l l' i i' p p' d al : insts l l' i i' -> po_props o = true ->
      rel2 eq (flatten_properties k rec l (set_pos i p) d al) (flatten_properties k' rec' l' (set_pos i' p') d al).
    Proof.
      intros II PO. pose proof II as (C & _ & _ & L). unfold flatten_properties.
      rewrite (ho_props _ _ _ _ _ _ _ (al_hooks _ _ _ _ _ _ _ _ _ AL) l l' C).
      destruct (il_props _ _ _ _ _ _ _ _ _ _ _ _ L PO) as (T & T' & X0).
      eapply r_bind with (P := eq); [|intros a a' ->; apply r_ret; auto].
      eapply r_foldM with (P := eq); [apply Forall2_refl; auto| |reflexivity]. intros b b' a a' -> ->.
      eapply r_bind; [eapply (r_getattr like l l' i i'); eauto|]. intros v v' H. apply r_bind_gets. intros s s' SS.
      pose proof (like_prim _ _ H) as P. rewrite P. destruct (prim_json v'); [split; auto|].
      assert (X : rel2 eq (j <- rec v;; ret (sset a' j b')) (j <- rec' v';; ret (sset a' j b'))).
      { eapply r_bind; [apply Hrec; auto|]. intros j j' ->. apply r_ret; auto. }
      destruct v; try (destruct v'; inversion H; subst; try (apply X; auto; fail); split; auto; fail).
      destruct (like_loc _ _ H) as (m & -> & _).
      destruct (cell_now s s' l0 m SS H) as [[-> ->]|(ob & ob' & -> & -> & LL & _)]; [apply X; auto|].
      destruct LL; try (apply X; auto; fail); split; auto.
    Qed.
    Lemma r_slots l l' i i' p p' d : insts l l' i i' -> attrs_like i i' -> c_slots (cls (i_cls i)) <> None ->
      rel2 eq (flatten_newstyle_with_slots w k o rec l (set_pos i p) d) (flatten_newstyle_with_slots w k' o' rec' l' (set_pos i' p') d).
    Proof.
      intros II X SN. pose proof II as (C & GI & _ & L). unfold flatten_newstyle_with_slots. rt. cbv zeta. cbn [set_pos i_cls].
      rewrite <- (il_cls _ _ _ _ _ _ _ _ _ _ _ _ L).
      assert (AK : has_slots (cls (i_cls i)) = true) by (unfold has_slots; destruct (c_slots _); [reflexivity|destruct SN; auto]).
      rewrite (ho_dir _ _ _ _ _ _ _ (al_hooks _ _ _ _ _ _ _ _ _ AL) l l' (conj C (ex_intro _ i (conj GI AK)))).
      eapply r_bind with (P := eq); [destruct (po_props o) eqn:PO; [eapply r_properties; eauto|apply r_ret; auto]|].
      intros d1 d1' ->. eapply r_bind; [eapply r_obj_attrs; eauto|]. intros r r' ->. destruct (snd r'); [apply r_ret; auto|].
      eapply r_bind; [eapply r_obj_attrs; eauto|]. intros r2 r2' ->. apply r_ret; auto.
    Qed.
    Lemma r_script sc : forall sc', same_script like sc sc' -> rel2 eq (run_fscript w o rec sc) (run_fscript w o' rec' sc').
    Proof.
      induction sc as [r|e|r v kk IH]; intros [r'|e'|r2 v' kk'] H; simpl in H; try contradiction; cbn [run_fscript].
      - subst. apply r_ret; auto.
      - subst. apply r_raise.
      - destruct H as (<- & Hv & Hk). eapply r_bind; [apply r_pflatten; auto|]. intros j j' ->. apply IH. auto.
    Qed.
    Lemma r_handler hd l l' i i' c : insts l l' i i' -> reg_lookup (w_sub w) (w_reg w) (i_cls i) (importable_name (cls (i_cls i))) = Some hd -> rel2 eq (call_handler w o rec hd l c) (call_handler w o' rec' hd l' c).
    Proof.
      intros (C & G & _ & L) H. unfold call_handler. rt. cbv zeta.
      eapply r_bind; [apply r_script; apply (ho_script _ _ _ _ _ _ _ (al_hooks _ _ _ _ _ _ _ _ _ AL) hd _ l l' _ i C G H)|].
      intros r r' ->. destruct r'; [apply r_ret; auto|]. eapply r_bind; [apply r_warn; constructor; left; auto|]. intros _ _ _. apply r_ret; auto.
    Qed.
    Lemma truth_flat v : flat v = true -> truth_like v v.
    Proof. intros F. split; [constructor; auto|]. destruct v; auto; discriminate. Qed.
    Lemma repeat_like n : Forall2 truth_like (repeat VNone n) (repeat VNone n).
    Proof. induction n; cbn [repeat]; auto. constructor; auto. apply truth_flat; auto. Qed.
    Lemma pad6_like l l' : Forall2 truth_like l l' -> Forall2 truth_like (pad6 l) (pad6 l').
    Proof. intros F. unfold pad6. rewrite (Forall2_len _ _ _ F). apply Forall2_app; auto. apply repeat_like. Qed.
    Lemma nth_like l l' n : Forall2 truth_like l l' -> truth_like (nth n l VNone) (nth n l' VNone).
    Proof. intros F. revert n. induction F; intros [|n]; cbn [nth]; auto; apply truth_flat; auto. Qed.
    Lemma truths l l' : Forall2 truth_like l l' -> Forall2 like l l'.
    Proof. apply Forall2_mono. intros a b H. apply H. Qed.
    Lemma newobj_like f f' : like f f' -> like (if is_newobj_fun w f then VStr NEWOBJ else f) (if is_newobj_fun w f' then VStr NEWOBJ else f').
    Proof.
      intros H. assert (E : is_newobj_fun w f = is_newobj_fun w f') by (destruct H; auto). rewrite <- E.
      destruct (is_newobj_fun w f); auto. constructor. auto.
    Qed.
    Lemma pad6_third l f a st r : pad6 l = f :: a :: st :: r -> st = nth 2 l VNone.
    Proof. destruct l as [|x [|y [|z l]]]; unfold pad6; cbn; intros E; injection E; congruence. Qed.
    Lemma r_reduce_tuple i i' p p' rl rl' d : i_cls i = i_cls i' -> Forall2 truth_like rl rl' ->
      rel2 (fun r r' => r = r' /\ (stays (nth 2 rl VNone) -> (truthy cls h0 (nth 2 rl VNone) = false \/ c_getstate (cls (i_cls i)) = false \/
              c_setstate (cls (i_cls i)) = true \/ c_kind (cls (i_cls i)) = KDict) -> r <> None)) (flatten_reduce_tuple w rec (set_pos i p) rl d) (flatten_reduce_tuple w rec' (set_pos i' p') rl' d).
    Proof.
      intros E F. unfold flatten_reduce_tuple. cbv zeta. cbn [set_pos i_cls]. rewrite <- E.
      pose proof (pad6_third rl) as T3. revert T3.
      destruct (pad6_like _ _ F) as [|f f' ? ? Hf [|args args' ? ? Ha [|st st' ? ? Hs Hr]]]; intros T3; try apply r_raise.
      rewrite <- (T3 _ _ _ _ eq_refl).
      eapply r_bind; [apply r_truthy'; exact Hs|]. intros t t' [-> TT].
      destruct (t' && _ && _ && _) eqn:C.
      { apply r_ret. split; auto. intros K X. specialize (TT K). apply andb_prop in C. destruct C as [C C4]. apply andb_prop in C.
        destruct C as [C C3]. apply andb_prop in C. destruct C as [C1 C2]. destruct X as [X|[X|[X|X]]]; try congruence;
        rewrite X in *; discriminate. }
      eapply r_bind; [apply r_rec_list|].
      - constructor; [apply newobj_like; apply Hf|]. constructor; [apply Ha|]. constructor; [apply Hs|]. apply truths; auto.
      - intros js js' ->. apply r_ret; auto. split; auto. discriminate.
    Qed.
    Lemma r_reduce_str l l' s : asked w h0 R0 c_reduce l l' -> k_reduce k l = Ret (RStr s) -> rel2 eq (flatten_reduce_str w rec s) (flatten_reduce_str w rec' s).
    Proof.
      intros C E. unfold flatten_reduce_str. apply r_catch; [|intros; apply r_ret; auto].
      destruct (split_on 46%N s) as [|first rest]; [apply r_ret; auto|]. destruct (w_sysmod w first) as [m|]; [|apply r_raise].
      destruct rest as [|a rest]; [apply r_ret; auto|].
      eapply r_bind with (P := like).
      - apply r_lift. destruct (w_getattr w m a) as [x|e|] eqn:G; simpl; auto.
        exact (ho_global _ _ _ _ _ _ _ (al_hooks _ _ _ _ _ _ _ _ _ AL) l l' s m a x C E G).
      - intros v v' H. eapply r_bind; [apply Hrec; auto|]. intros j j' ->. apply r_ret; auto.
    Qed.
    Lemma SR_pos s s' l l' i i' p p' q : insts l l' i i' -> SR s s' -> hget (p_heap s) l = Some (OInst (set_pos i p)) ->
      hget (p_heap s') l' = Some (OInst (set_pos i' p')) ->
      SR (set_heap (hset (p_heap s) l (OInst (set_pos i q))) s) (set_heap (hset (p_heap s') l' (OInst (set_pos i' q))) s').
    Proof.
      intros (C & G & G' & L) SS N N'. pose proof (hget_lt _ _ _ N) as LT. pose proof (hget_lt _ _ _ N') as LT'. pose proof (R0_lt _ _ C) as [LT0 LT0'].
      destruct (al_one _ _ _ _ _ _ _ _ _ AL) as [O1 O2].
      destruct SS. constructor; cbn [set_heap p_heap p_objs p_depth p_cache p_warned]; auto.
      - intros x ob X. destruct (Nat.eq_dec l x) as [<-|NE].
        + right. exists i, q. split; [congruence|]. apply hget_hset_same; auto.
        + rewrite hget_hset_other by auto. apply sr_keep0; auto.
      - intros x ob X. destruct (Nat.eq_dec l' x) as [<-|NE].
        + right. exists i', q. split; [congruence|]. apply hget_hset_same; auto.
        + rewrite hget_hset_other by auto. apply sr_keep'0; auto.
      - rewrite !hset_length. auto.
      - rewrite hset_length. auto.
      - intros n. rewrite !hget_hset_other by (unfold loc in *; lia). apply sr_new0.
      - intros x x' j j' X GX GX' KI. destruct (Nat.eq_dec l x) as [<-|NE].
        + assert (x' = l') by eauto. subst x'. rewrite hget_hset_same in GX by auto. rewrite hget_hset_same in GX' by auto.
          injection GX as <-. injection GX' as <-. auto.
        + assert (l' <> x') by (intros <-; apply NE; eauto). rewrite hget_hset_other in GX by auto. rewrite hget_hset_other in GX' by auto. eauto.
    Qed.
    Lemma get_obj_at {A} s l ob (F : obj -> MP A) : hget (p_heap s) l = Some ob -> bind (get_obj l) F s = F ob s.
    Proof. intros G. unfold bind, get_obj, gets. unfold bind. rewrite G. auto. Qed.
    Lemma lift_at {A B} (a : A) (F : A -> MP B) s : bind (lift (Ret a)) F s = F a s.
    Proof. auto. Qed.
    Lemma lift_exc {A B} e (F : A -> MP B) s : bind (lift (Exc e)) F s = (Exc e, s).
    Proof. auto. Qed.
    Lemma lift_oof {A B} (F : A -> MP B) s : bind (lift OOF) F s = (OOF, s).
    Proof. auto. Qed.
    Lemma modify_at {B} f (F : unit -> MP B) s : bind (modify f) F s = F tt (f s).
    Proof. auto. Qed.
    Lemma r_iter l l' i i' : insts l l' i i' -> c_kind (cls (i_cls i)) = KIter -> forall n limit,
      rel2 eq (iter_loop k rec n l limit) (iter_loop k' rec' n l' limit).
    Proof.
      intros II KI. induction n as [|n IH]; intros limit; cbn [iter_loop].
      - destruct limit as [[|m]|]; [apply r_ret; auto|apply r_oof|apply r_oof].
      - assert (X : rel2 eq
          (ob <- get_obj l;; match ob with
           | OInst i => x <- lift (k_iter k l (i_pos i));;
               match x with None => ret [] | Some v =>
                 modify (fun s => set_heap (hset (p_heap s) l (OInst (set_pos i (S (i_pos i))))) s) ;;;
                 j <- rec v ;; js <- iter_loop k rec n l (option_map pred limit) ;; ret (j :: js) end
           | _ => raise EUnmodelled end)
          (ob <- get_obj l';; match ob with
           | OInst i => x <- lift (k_iter k' l' (i_pos i));;
               match x with None => ret [] | Some v =>
                 modify (fun s => set_heap (hset (p_heap s) l' (OInst (set_pos i (S (i_pos i))))) s) ;;;
                 j <- rec' v ;; js <- iter_loop k' rec' n l' (option_map pred limit) ;; ret (j :: js) end
           | _ => raise EUnmodelled end)); [|destruct limit as [[|m]|]; [apply r_ret; auto|exact X|exact X]].
        intros s s' SS. destruct (inst_now s s' l l' i i' SS II) as (p & p' & G & G' & EP). specialize (EP KI). subst p'.
        rewrite (get_obj_at _ _ _ _ G), (get_obj_at _ _ _ _ G'). cbn [set_pos i_pos].
        pose proof II as (C & GI & _ & L).
        assert (AK : is_iterator (cls (i_cls i)) = true) by (unfold is_iterator; rewrite KI; reflexivity).
        pose proof (ho_iter _ _ _ _ _ _ _ (al_hooks _ _ _ _ _ _ _ _ _ AL) l l' p) as Y. specialize (Y (conj C (ex_intro _ i (conj GI AK)))).
        destruct (k_iter k l p) as [x|e|], (k_iter k' l' p) as [x'|e'|]; simpl in Y; try contradiction; rewrite ?lift_at, ?lift_exc, ?lift_oof; auto.
        destruct x as [v|], x' as [v'|]; simpl in Y; try contradiction; [|split; auto].
        rewrite !modify_at. pose proof (SR_pos s s' l l' i i' p p (S p) II SS G G') as SS1. revert SS1.
        change (set_pos (set_pos i p) (S p)) with (set_pos i (S p)). change (set_pos (set_pos i' p) (S p)) with (set_pos i' (S p)).
        generalize (set_heap (hset (p_heap s) l (OInst (set_pos i (S p)))) s) as t,
                   (set_heap (hset (p_heap s') l' (OInst (set_pos i' (S p)))) s') as t'. clear s s' SS G G'.
        eapply r_bind; [apply Hrec; auto|]. intros j j' ->. eapply r_bind; [apply IH|]. intros js js' ->. apply r_ret; auto.
    Qed.
    Lemma SR_alloc s s' d d' : SR s s' -> dict_like d d' ->
      SR (set_heap (p_heap s ++ [ODict d]) s) (set_heap (p_heap s' ++ [ODict d']) s') /\ like (VLoc (length (p_heap s))) (VLoc (length (p_heap s'))).
    Proof.
      intros SS D. assert (LE : exists n, length (p_heap s) = length h0 + n /\ length (p_heap s') = length h0' + n).
      { exists (length (p_heap s) - length h0). pose proof (sr_len _ _ SS). pose proof (sr_le _ _ SS). split; lia. }
      destruct LE as (n & E & E'). split; [|constructor; right; eauto]. destruct SS.
      constructor; cbn [set_heap p_heap p_objs p_depth p_cache p_warned]; auto.
      - intros x ob X. rewrite hget_app_old; auto. apply hget_lt in X. lia.
      - intros x ob X. rewrite hget_app_old; auto. apply hget_lt in X. lia.
      - rewrite !app_length. cbn [length]. lia.
      - rewrite app_length. lia.
      - intros m. destruct (Nat.lt_trichotomy m n) as [LT|[->|GT]].
        + rewrite !hget_app_old by lia. apply sr_new0.
        + rewrite <- E, <- E', !hget_app_new. auto.
        + unfold hget. rewrite !(proj2 (nth_error_None _ _)); auto; rewrite app_length; cbn [length]; lia.
      - intros x x' i i' C X X'. pose proof (R0_lt _ _ C). rewrite hget_app_old in X by lia. rewrite hget_app_old in X' by lia. eauto.
    Qed.
    Lemma fresh_truth n : truth_like (VLoc (length h0 + n)) (VLoc (length h0' + n)).
    Proof.
      split; [constructor; right; eauto|]. cbn [truthy]. unfold hget. rewrite !(proj2 (nth_error_None _ _)) by lia. auto.
    Qed.
    (** [__getstate__] without the excluded names *)
    Definition copy_state (c : cinfo) (st0 : val) : MP val :=
      h <- gets p_heap ;;
      match c_exclude c, st0 with
      | _ :: _, VLoc sl =>
          match hget h sl with
          | Some (ODict its) => let (d', h') := halloc (ODict (items (c_exclude c) its)) h in modify (set_heap h') ;;; ret (VLoc d')
          | _ => ret st0
          end
      | _, _ => ret st0
      end.
    Lemma r_copy_state c st st' : truth_like st st' ->
      rel2 (fun x x' => truth_like x x' /\ ((forall l, st = VLoc l -> c_exclude c = []) -> x = st)) (copy_state c st) (copy_state c st').
    Proof.
      intros T. unfold copy_state. apply r_bind_gets. intros s s' SS.
      destruct (c_exclude c) as [|e ex]; [split; auto|]. pose proof (proj1 T) as LK.
      destruct st; try (destruct st'; inversion LK; subst; split; auto; fail).
      destruct (like_loc _ _ LK) as (l' & -> & _).
      destruct (cell_now s s' l l' SS LK) as [[-> ->]|(ob & ob' & -> & -> & LL & _)]; [split; auto|].
      destruct LL as [| |d d' D| | |]; try (split; auto; fail).
      cbn [halloc]. unfold bind, modify, ret.
      destruct (SR_alloc s s' _ _ SS (dict_like_items (e :: ex) _ _ D)) as [SS1 LN]. split; [|exact SS1].
      assert (LE : exists n, length (p_heap s) = length h0 + n /\ length (p_heap s') = length h0' + n).
      { exists (length (p_heap s) - length h0). pose proof (sr_len _ _ SS). pose proof (sr_le _ _ SS). split; lia. }
      destruct LE as (n & -> & ->). split; [apply fresh_truth|]. intros X. specialize (X l eq_refl). discriminate.
    Qed.
    Definition rest_of (k : hooks) (o : popts) (rec : val -> MP json) (l : loc) (i : inst) (data4 : jobj) : MP json :=
      let c := cls (i_cls i) in
          match c_kind c with
          | KDict => d <- flatten_dict_subclass w k o rec l i data4 ;; ret (JObj d)
          | KList | KSet | KTuple => flatten_sequence_obj w k o rec i data4
          | KIter => js <- iter_loop k rec fuel l (po_max_iter o) ;; ret (JObj (sset ITERATOR (JList js) data4))
          | _ =>
              match i_dict i with
              | Some d => dt <- flatten_plain_dict w k o rec d (c_exclude c) data4 ;; ret (JObj dt)
              | None =>
                  match c_slots c with
                  | Some _ => flatten_newstyle_with_slots w k o rec l i data4
                  | None =>
                      match data4 with
                      | _ :: _ => ret (JObj data4)
                      | [] =>
                          (if po_unpicklable o then pickle_warning o (VLoc l) ;;; ret JNull
                           else
                             r <- reduce_of w k l i ;;
                             match r with
                             | RTup rl =>
                                 let state := nth 2 rl VNone in
                                 let args := nth 1 rl VNone in
                                 ts <- truthy_p w state ;;
                                 if ts then rec state else
                                 ta <- truthy_p w args ;;
                                 if ta then rec args else
                                 pickle_warning o (VLoc l) ;;; ret JNull
                             | _ => pickle_warning o (VLoc l) ;;; ret JNull
                             end)
                      end
                  end
              end
          end.
    Lemma r_warned l l' : R0 l l' -> rel2 eq (pickle_warning o (VLoc l);;; ret JNull) (pickle_warning o' (VLoc l');;; ret JNull).
    Proof. intros C. eapply r_bind; [apply r_warn; constructor; left; auto|]. intros _ _ _. apply r_ret; auto. Qed.
    Lemma r_rest_of l l' i i' p p' d : insts l l' i i' -> fields_like l i i' ->
      rel2 eq (rest_of k o rec l (set_pos i p) d) (rest_of k' o' rec' l' (set_pos i' p') d).
    Proof.
      intros II FL. pose proof II as (C & _ & _ & L). pose proof FL as FL0. unfold SpecIso.fields_like in FL. cbv zeta in FL.
      unfold rest_of. rt. cbv zeta. cbn [set_pos i_cls i_dict]. rewrite <- (il_cls _ _ _ _ _ _ _ _ _ _ _ _ L).
      assert (O : opt (names_like (c_exclude (cls (i_cls i)))) (i_dict i) (i_dict i') /\
           (i_dict i = None -> c_slots (cls (i_cls i)) <> None -> forall a, smem a (c_exclude (cls (i_cls i))) = false ->
              opt like (inst_attr h0 i (mangle (cls (i_cls i)) a)) (inst_attr h0' i' (mangle (cls (i_cls i)) a))) ->
         rel2 eq
          (match i_dict i with
              | Some x => dt <- flatten_plain_dict w k o rec x (c_exclude (cls (i_cls i))) d ;; ret (JObj dt)
              | None =>
                  match c_slots (cls (i_cls i)) with
                  | Some _ => flatten_newstyle_with_slots w k o rec l (set_pos i p) d
                  | None =>
                      match d with
                      | _ :: _ => ret (JObj d)
                      | [] =>
                          (if po_unpicklable o then pickle_warning o (VLoc l) ;;; ret JNull
                           else
                             r <- reduce_of w k l (set_pos i p) ;;
                             match r with
                             | RTup rl =>
                                 ts <- truthy_p w (nth 2 rl VNone) ;;
                                 if ts then rec (nth 2 rl VNone) else
                                 ta <- truthy_p w (nth 1 rl VNone) ;;
                                 if ta then rec (nth 1 rl VNone) else
                                 pickle_warning o (VLoc l) ;;; ret JNull
                             | _ => pickle_warning o (VLoc l) ;;; ret JNull
                             end)
                      end
                  end
              end)
          (match i_dict i' with
              | Some x => dt <- flatten_plain_dict w k' o' rec' x (c_exclude (cls (i_cls i))) d ;; ret (JObj dt)
              | None =>
                  match c_slots (cls (i_cls i)) with
                  | Some _ => flatten_newstyle_with_slots w k' o' rec' l' (set_pos i' p') d
                  | None =>
                      match d with
                      | _ :: _ => ret (JObj d)
                      | [] =>
                          (if po_unpicklable o then pickle_warning o' (VLoc l') ;;; ret JNull
                           else
                             r <- reduce_of w k' l' (set_pos i' p') ;;
                             match r with
                             | RTup rl =>
                                 ts <- truthy_p w (nth 2 rl VNone) ;;
                                 if ts then rec' (nth 2 rl VNone) else
                                 ta <- truthy_p w (nth 1 rl VNone) ;;
                                 if ta then rec' (nth 1 rl VNone) else
                                 pickle_warning o' (VLoc l') ;;; ret JNull
                             | _ => pickle_warning o' (VLoc l') ;;; ret JNull
                             end)
                      end
                  end
              end)).
      { intros [D A]. destruct (i_dict i) as [x|] eqn:ED, (i_dict i') as [x'|] eqn:ED'; simpl in D; try contradiction.
        - eapply r_bind; [apply r_plain_dict; exact D|]. intros y y' ->. apply r_ret; auto.
        - destruct (c_slots (cls (i_cls i))) as [sl|] eqn:SL.
          { eapply r_slots; eauto; [|rewrite SL; discriminate]. split; [intros y Ey; congruence|]. split; [intros y Ey; congruence|].
            intros a Ea. apply A; auto. discriminate. }
          destruct d; [|apply r_ret; auto]. bcase (po_unpicklable o) PU; [apply r_warned; auto|].
          eapply r_bind; [eapply (r_reduce_of l l' i i' p p'); eauto|]. intros r r' (SR0 & _ & _).
          destruct r, r'; simpl in SR0; try contradiction; try (apply r_warned; auto).
          eapply r_bind; [apply r_truthy; apply nth_like; exact SR0|]. intros t t' ->.
          destruct t'; [apply Hrec; apply nth_like; auto|].
          eapply r_bind; [apply r_truthy; apply nth_like; exact SR0|]. intros t t' ->.
          destruct t'; [apply Hrec; apply nth_like; auto|]. apply r_warned; auto. }
      destruct (c_kind (cls (i_cls i))) eqn:KD; try (apply O; exact FL); try (eapply r_seq; apply FL).
      - eapply r_bind; [eapply r_dict_sub; eauto|]. intros x x' ->. apply r_ret; auto.
      - eapply r_bind; [eapply r_iter; eauto|]. intros x x' ->. apply r_ret; auto.
    Qed.
    Definition by_state (l : loc) (i : inst) : Prop := exists st, c_getstate (cls (i_cls i)) = true /\ k_getstate k l = Ret st /\
      truthy cls h0 st = true /\ forall x, st = VLoc x -> c_exclude (cls (i_cls i)) = [] /\ hget h0 x <> None.
    Lemma r_rest l l' i i' p p' cn d : insts l l' i i' -> by_state l i \/ fields_like l i i' ->
      rel2 eq (flatten_inst_rest w k o fuel rec l (set_pos i p) cn d) (flatten_inst_rest w k' o' fuel rec' l' (set_pos i' p') cn d).
    Proof.
      intros II FL. pose proof II as (C & GI & _ & L). pose proof (al_hooks _ _ _ _ _ _ _ _ _ AL) as HO.
      unfold flatten_inst_rest. rt. cbv zeta. cbn [set_pos i_cls]. rewrite <- (il_cls _ _ _ _ _ _ _ _ _ _ _ _ L).
      set (c := cls (i_cls i)) in *.
      eapply r_bind with (P := eq).
      { destruct (c_newargs_ex c) eqn:FL0; [|apply r_ret; auto]. eapply r_bind; [apply r_lift; apply (ho_newargs_ex _ _ _ _ _ _ _ HO); split; eauto|].
        intros a a' F. eapply r_bind; [apply r_rec_list; exact F|]. intros js js' ->. apply r_ret; auto. }
      intros d2 d2' ->. eapply r_bind with (P := eq).
      { destruct (c_newargs c && negb (c_newargs_ex c)) eqn:FL0; [|apply r_ret; auto]. apply andb_prop in FL0. destruct FL0 as [FL0 _].
        eapply r_bind; [apply r_lift; apply (ho_newargs _ _ _ _ _ _ _ HO); split; eauto|].
        intros a a' F. eapply r_bind; [apply Hrec; exact F|]. intros js js' ->. apply r_ret; auto. }
      intros d3 d3' ->. eapply r_bind with (P := eq).
      { destruct (c_initargs c) eqn:FL0; [|apply r_ret; auto].
        eapply r_bind; [apply r_lift; apply (ho_initargs _ _ _ _ _ _ _ HO); split; eauto|].
        intros a a' F. eapply r_bind; [apply Hrec; exact F|]. intros js js' ->. apply r_ret; auto. }
      intros d4 d4' ->. eapply r_bind with (P := fun g g' => opt truth_like g g' /\ (forall st, c_getstate c = true -> k_getstate k l = Ret st -> g = Some st)).
      { destruct (c_getstate c) eqn:GS; [|apply r_ret; split; [apply truth_flat; auto|discriminate]].
        intros s s' SS. pose proof (ho_getstate _ _ _ _ _ _ _ HO l l' (conj C (ex_intro _ i (conj GI GS)))) as Y. unfold catch, bind, lift.
        destruct (k_getstate k l) as [x|e|], (k_getstate k' l') as [x'|e'|]; simpl in Y; try contradiction; auto.
        - split; auto. split; [exact Y|]. intros st _ E. congruence.
        - subst e'. destruct (is_TypeError e); [|auto]. split; auto. split; [exact I|]. discriminate. }
      intros [st0|] [st0'|] [G GE]; simpl in G; try contradiction; [|apply r_warned; auto].
      eapply r_ext; [intros s; refine (_ : _ = bind (copy_state c st0) _ s); reflexivity|
                     intros s; refine (_ : _ = bind (copy_state c st0') _ s); reflexivity|].
      eapply r_bind; [apply r_copy_state; exact G|]. intros st st' [T TE].
      eapply r_bind; [apply r_truthy'; exact T|]. intros t t' [-> TT].
      destruct (t' && c_getstate c) eqn:TG.
      - eapply r_bind; [apply Hrec; apply T|]. intros j j' ->. bcase (po_unpicklable o) PU; apply r_ret; auto.
      - destruct FL as [(x & A1 & A2 & A3 & A4)|FL].
        + exfalso. fold c in A1, A4. specialize (GE x A1 A2). injection GE as ->. rewrite A1, andb_true_r in TG. subst t'.
          assert (st = x) by (apply TE; intros y Ey; apply (A4 y Ey)). subst st. rewrite <- TT in A3; [discriminate|].
          intros y Ey. apply (A4 y Ey).
        + eapply r_ext; [| |eapply (r_rest_of l l' i i' p p'); eauto]; intros s; [reflexivity|].
          unfold rest_of. cbn [set_pos i_cls]. rewrite <- (il_cls _ _ _ _ _ _ _ _ _ _ _ _ L). reflexivity.
    Qed.
    Lemma r_instance l l' : corr l l' ->
      rel2 eq (flatten_obj_instance w k o fuel rec l) (flatten_obj_instance w k' o' fuel rec' l').
    Proof.
      intros [C|C].
      2:{ unfold flatten_obj_instance. intros s s' SS. destruct C as (n & -> & ->). pose proof (sr_new _ _ SS n) as X. unfold get_obj, bind, gets.
          destruct (hget (p_heap s) (length h0 + n)) as [[]|], (hget (p_heap s') (length h0' + n)) as [[]|]; try contradiction; simpl; auto. }
      destruct (al_obj _ _ _ _ _ _ _ _ _ AL l l' C) as (ob & ob' & G & G' & L).
      intros s s' SS.
      destruct L as [| | | |i i' L P|];
        try (unfold flatten_obj_instance; erewrite (get_obj_at s), (get_obj_at s');
             [|eapply keeps_get; [apply SS|exact G'|discriminate]|eapply keeps_get; [apply SS|exact G|discriminate]]; simpl; auto; fail).
      assert (II : insts l l' i i') by (split; [|split; [|split]]; auto).
      destruct (inst_now s s' l l' i i' SS II) as (p & p' & N & N' & _).
      unfold flatten_obj_instance. rewrite (get_obj_at _ _ _ _ N), (get_obj_at _ _ _ _ N'). rt. cbv zeta. cbn [set_pos i_cls].
      rewrite <- (il_cls _ _ _ _ _ _ _ _ _ _ _ _ L). clear N N'. revert s s' SS.
      destruct (reg_lookup (w_sub w) (w_reg w) (i_cls i) (importable_name (cls (i_cls i)))) as [hd|] eqn:RL; [eapply r_handler; eauto|].
      eapply r_bind with (P := eq); [destruct (po_props o) eqn:PO; [eapply r_properties; eauto|apply r_ret; auto]|]. intros d d' ->.
      assert (FL : (exists rl, po_unpicklable o = true /\ c_reduce (cls (i_cls i)) = true /\ k_reduce k l = Ret (RTup rl) /\ rl <> [] /\
          stays (nth 2 rl VNone) /\ (truthy cls h0 (nth 2 rl VNone) = false \/ c_getstate (cls (i_cls i)) = false \/
              c_setstate (cls (i_cls i)) = true \/ c_kind (cls (i_cls i)) = KDict)) \/ (by_state l i \/ fields_like l i i')).
      { destruct (il_fields _ _ _ _ _ _ _ _ _ _ _ _ L) as [[hd X|rl X1 X2 X3 X4 X5 X6|st X1 X2 X3 X4]|X]; [congruence| | |auto].
        - left. exists rl. auto 10.
        - right. left. exists st. auto. }
      eapply r_bind with (P := fun e e' => e = e' /\ (e = None -> by_state l i \/ fields_like l i i')).
      - bcase (po_unpicklable o) PU.
        + eapply r_bind; [eapply (r_reduce_of l l' i i' p p'); eauto|]. intros r r' (X1 & X2 & X3).
          destruct r as [|s|rl], r' as [|s2|rl2]; simpl in X1; try contradiction.
          * apply r_ret. split; auto. intros _. destruct FL as [(rl & _ & Y1 & Y2 & _)|FL]; auto. specialize (X3 _ Y1 Y2). discriminate.
          * subst s2. assert (Z : by_state l i \/ fields_like l i i').
            { destruct FL as [(rl & _ & Y1 & Y2 & _)|FL]; auto. specialize (X3 _ Y1 Y2). discriminate. }
            destruct s; [apply r_ret; auto|]. destruct (X2 _ eq_refl) as [Y1 Y2]. eapply r_mono; [eapply (r_reduce_str l l'); eauto; split; eauto|]. intros a b ->. auto.
          * destruct X1 as [|x x' rl rl2 Hx Hr].
            -- apply r_ret. split; auto. intros _. destruct FL as [(rl & _ & Y1 & Y2 & Y3 & _)|FL]; auto. specialize (X3 _ Y1 Y2).
               injection X3 as <-. destruct Y3; auto.
            -- eapply r_mono; [apply r_reduce_tuple; [apply L|constructor; eauto]|]. cbv beta. intros a b [-> Y]. split; auto. intros ->.
               destruct FL as [(ql & _ & Y1 & Y2 & Y3 & Y4 & Y5)|FL]; auto. specialize (X3 _ Y1 Y2). injection X3 as <-.
               destruct (Y Y4 Y5); auto.
        + apply r_ret. split; auto. intros _. destruct FL as [(rl & Y & _)|FL]; auto. congruence.
      - intros e e' [<- X]. destruct e as [j|]; [apply r_ret; auto|]. eapply r_rest; eauto.
    Qed.
    Lemma r_object v v' : numb v v' -> rel2 eq (flatten_object w k o fuel rec v) (flatten_object w k' o' fuel rec' v').
    Proof.
      unfold SpecIso.numb, number. destruct v, v'; intros H; try (destruct H as [F E]; try discriminate E; try apply r_raise).
      - injection E as <-. cbn [flatten_object]. unfold flatten_module. rt. bcase (po_unpicklable o) PU; [apply r_ret; auto|].
        rewrite (ho_modstr _ _ _ _ _ _ _ (al_hooks _ _ _ _ _ _ _ _ _ AL)).
        eapply r_bind with (P := eq); [apply r_lift; destruct (k_str k' (VMod m)); simpl; auto|]. intros a a' ->. apply r_ret; auto.
      - apply r_instance; auto.
    Qed.
    Lemma r_ref_obj v v' : numb v v' -> rel2 eq (ref_obj_instance w k o fuel rec v) (ref_obj_instance w k' o' fuel rec' v').
    Proof.
      intros H. unfold ref_obj_instance. rt. bcase (po_unpicklable o) PU.
      - eapply r_bind; [apply r_mkref; auto|]. intros b b' ->. destruct b'; [apply r_object; auto|apply r_getref; auto].
      - eapply r_bind; [apply r_max|]. intros b b' [-> _]. eapply r_bind; [apply r_in_cycle; [apply numb_like; auto|auto]|].
        intros c c' [-> _]. destruct c'; [apply r_ret; auto|]. eapply r_bind; [apply r_mkref; auto|]. intros _ _ _. apply r_object; auto.
    Qed.
    Lemma r_list l l' : Forall2 like l l' -> rel2 eq (list_recurse rec l) (list_recurse rec' l').
    Proof. intros F. unfold list_recurse. eapply r_bind; [apply r_rec_list; exact F|]. intros a a' ->. apply r_ret; auto. Qed.
    Lemma r_get_flattener v v' : like v v' -> rel2 eq (get_flattener w k o fuel rec v) (get_flattener w k' o' fuel rec' v').
    Proof.
      intros H.
      assert (W : forall v v', like v v' -> rel2 eq (pickle_warning o v;;; ret (None : option json)) (pickle_warning o' v';;; ret None)).
      { intros x x' X. eapply r_bind; [apply r_warn; auto|]. intros _ _ _. apply r_ret; auto. }
      destruct v; try (destruct v'; inversion H; subst; cbn [get_flattener]; try apply r_raise; try (apply r_ret; auto; fail); fail).
      - destruct v'; inversion H; subst; try discriminate. cbn [get_flattener]. rt. eapply r_bind; [apply r_list; auto|]. intros j j' ->. apply r_ret; auto.
      - destruct v'; inversion H; subst. cbn [get_flattener]. match goal with |- context [f_modfun ?x] => destruct (f_modfun x) end; [apply r_ret; auto|apply W; auto].
      - destruct v'; inversion H; subst. cbn [get_flattener]. eapply r_bind; [apply r_ref_obj; split; auto|]. intros j j' ->. apply r_ret; auto.
      - destruct (like_loc _ _ H) as (l' & -> & _). cbn [get_flattener]. eapply r_bind; [apply r_get_obj; exact H|].
        intros ob ob' [LL CC]. destruct LL; try apply r_raise.
        + destruct CC as [CC|[_ CC]]; [|discriminate]. eapply r_bind; [apply r_mkref; exact CC|]. intros b b' ->. destruct b'.
          * eapply r_bind; [apply r_list; eauto|]. intros j j' ->. apply r_ret; auto.
          * eapply r_bind; [apply r_getref; exact CC|]. intros j j' ->. apply r_ret; auto.
        + rt. eapply r_bind; [apply r_list; eauto|]. intros j j' ->. apply r_ret; auto.
        + destruct CC as [CC|[_ CC]]; [|discriminate]. eapply r_bind; [apply r_mkref; exact CC|]. intros b b' ->. destruct b'.
          * eapply r_bind; [apply r_dict_now; exact CC|]. intros j j' ->. apply r_ret; auto.
          * eapply r_bind; [apply r_getref; exact CC|]. intros j j' ->. apply r_ret; auto.
        + destruct CC as [CC|[_ CC]]; [|discriminate]. eapply r_bind; [apply r_ref_obj; exact CC|]. intros j j' ->. apply r_ret; auto.
    Qed.
    Lemma exact_or : po_make_refs o = true \/ (exact = false -> False).
    Proof. destruct (bool_cases (po_make_refs o)) as [E|E]; auto. right. intros X. apply EX in X. rewrite E, andb_false_r in X. discriminate. Qed.
    Lemma r_flatten_obj v v' : like v v' -> rel2 eq (flatten_obj w k o fuel rec v) (flatten_obj w k' o' fuel rec' v').
    Proof.
      intros H. unfold flatten_obj. rt. eapply r_bind; [apply r_max|]. intros m m' [<- MF]. apply r_catch.
      - eapply r_bind; [apply r_in_cycle; [exact H|destruct exact_or; auto]|]. intros c c' [<- CF]. destruct c.
        + assert (E : py_repr k v = py_repr k' v').
          { destruct (al_repr _ _ _ _ _ _ _ _ _ AL) as [[A B]|A]; auto. specialize (CF (MF A) B). discriminate. }
          rewrite E. eapply r_bind with (P := eq); [apply r_lift; destruct (py_repr k' v'); simpl; auto|]. intros x x' ->. apply r_ret; auto.
        + eapply r_bind; [apply r_get_flattener; auto|]. intros r r' ->. destruct r'; [apply r_ret; auto|].
          eapply r_bind; [apply r_warn; auto|]. intros _ _ _. apply r_ret; auto.
      - intros e. destruct (po_fail_safe o) as [f|]; [|apply r_raise]. apply r_lift. destruct (f e); simpl; auto.
    Qed.
    Lemma r_push : rel2 (fun _ _ => True) push push.
    Proof. unfold push. apply r_modify. intros s s' SS. rewrite (sr_depth _ _ SS). apply SR_depth; auto. Qed.
    Lemma r_pop {A} (a : A) : rel2 eq (pop a) (pop a).
    Proof.
      unfold pop. eapply r_bind; [apply r_modify|intros _ _ _; apply r_ret; auto]. intros s s' SS. cbv zeta. cbn [set_depth p_depth].
      rewrite (sr_depth _ _ SS). destruct (_ =? _)%Z; [apply SR_reset|]; apply SR_depth; auto.
    Qed.
    Lemma r_impl v v' : like v v' -> rel2 eq (flatten_impl w k o fuel rec v) (flatten_impl w k' o' fuel rec' v').
    Proof.
      intros H. unfold flatten_impl. apply r_bind_gets. intros s s' SS.
      assert (X : rel2 eq (push;;; j <- flatten_obj w k o fuel rec v;; pop j) (push;;; j <- flatten_obj w k' o' fuel rec' v';; pop j)).
      { eapply r_bind; [apply r_push|]. intros _ _ _. eapply r_bind; [apply r_flatten_obj; auto|]. intros j j' ->. apply r_pop. }
      pose proof (like_prim _ _ H) as P.
      destruct v; try (destruct v'; inversion H; subst; cbn [prim_json]; try (apply X; auto; fail); split; auto; fail).
      destruct (like_loc _ _ H) as (l' & -> & _). cbn [prim_json].
      destruct (cell_now s s' l l' SS H) as [[-> ->]|(ob & ob' & -> & -> & LL & _)]; [apply X; auto|].
      destruct LL; try (apply X; auto; fail). split; auto.
    Qed.
    Lemma r_step v v' : like v v' -> rel2 eq (flatten_step w k o fuel rec v) (flatten_step w k' o' fuel rec' v').
    Proof.
      intros H. unfold flatten_step. rt. bcase (po_unpicklable o && po_make_refs o) UM; [apply r_impl; auto|].
      assert (EE : exact = false -> False) by (intros X; apply EX in X; congruence).
      assert (CG : forall c c', Forall2 (fun a b => like (fst a) (fst b) /\ snd a = snd b) c c' -> cache_get v c = cache_get v' c').
      { intros c c' F. induction F as [|[x j] [x' j'] c c' [A B] F IH]; auto. cbn [fst snd cache_get] in *.
        rewrite (like_eqb v v' x x' EE H A), B, IH. auto. }
      eapply r_bind; [apply r_gets; intros s s' SS; exact (sr_cache _ _ SS)|]. intros c c' F. cbv beta in F. rewrite (CG _ _ F).
      destruct (cache_get v' c'); [apply r_ret; auto|]. eapply r_bind; [apply r_impl; auto|]. intros j j' ->.
      eapply r_bind; [apply r_modify|intros _ _ _; apply r_ret; auto]. intros s s' []. constructor;
        cbn [set_cache p_heap p_objs p_depth p_cache p_warned]; auto.
    Qed.
  End step.
  Lemma r_flatten n : forall v v', like v v' -> rel2 eq (flatten w k o n v) (flatten w k' o' n v').
  Proof. induction n as [|n IH]; intros v v' H; [apply r_oof|]. cbn [flatten]. apply r_step; auto. Qed.
  Lemma SR_init : SR (new_pickler h0) (new_pickler h0').
  Proof.
    constructor; cbn [new_pickler p_heap p_objs p_depth p_cache p_warned]; auto; try lia.
    - intros l ob G. auto.
    - intros l ob G. auto.
    - intros n. unfold hget. rewrite !(proj2 (nth_error_None _ _)) by lia. auto.
    - intros l l' i i' C G G' KI. destruct (al_obj _ _ _ _ _ _ _ _ _ AL l l' C) as (ob & ob' & X & X' & L).
      rewrite G in X. rewrite G' in X'. injection X as <-. injection X' as <-. inversion L; subst. auto.
  Qed.
  Lemma encode_alike n v v' : like v v' ->
    fst (encode w k o n v (new_pickler h0)) = fst (encode w k' o' n v' (new_pickler h0')).
  Proof.
    intros H. pose proof (r_pflatten _ _ (r_flatten n) true v v' H _ _ SR_init) as X. unfold encode, pickle, bind.
    destruct (pflatten w o (flatten w k o n) true v (new_pickler h0)) as [[j|e|] s1],
      (pflatten w o' (flatten w k' o' n) true v' (new_pickler h0')) as [[j'|e'|] s1']; try contradiction; simpl; auto;
      destruct X as [-> _]; auto.
  Qed.
End rel.
