(** C47: tags for dtype names. *)
From Verif Require Import PyStr Json Base DtypeTags.
Open Scope nat_scope.

Section tags.
  Variables (isdigit : N -> bool) (lower : pystr -> pystr).
  (** What a name can be shortened to: a beginning of its letters, its first letter (or all
      letters) with its digits and brackets, or the special forms of datetime64 and
      timedelta64. *)
  Definition shortens (s t : pystr) : Prop :=
    let '(letters, numbers, brackets) := split_dtype isdigit s in
    (t <> [] /\ exists r, lower letters = t ++ r) \/
    (exists c r, lower letters = c :: r /\ t = c :: numbers ++ brackets) \/
    t = lower letters ++ numbers ++ brackets \/ t = u "d64" ++ brackets \/ t = u "t64" ++ brackets.

  Lemma first_unused_spec used letters t : forall f len, 1 <= len -> len + f <= S (length letters) ->
    first_unused used letters len f = Some t -> ~ In t used /\ t <> [] /\ exists r, letters = t ++ r.
  Proof.
    induction f as [|f IH]; intros len L1 L2 H; cbn [first_unused] in H; [discriminate|].
    destruct (smem (firstn len letters) used) eqn:M.
    - apply IH in H; auto; lia.
    - inversion H; subst t. split; [intros I; apply smem_In in I; congruence|]. split.
      + destruct len; [lia|]. destruct letters; [cbn in L2; lia|]. discriminate.
      + exists (skipn len letters). symmetry. apply firstn_skipn.
  Qed.
  Lemma tag_step_spec s st st' : tag_step isdigit lower s st = Ret st' ->
    exists t, t_result st' = sset s t (t_result st) /\ t_used st' = t :: t_used st /\
      ((shortens s t /\ ~ In t (t_used st)) \/ t = s).
  Proof.
    unfold tag_step, shortens. destruct (split_dtype isdigit s) as [[l0 n] b]. cbv zeta.
    assert (U : forall t, smem t (t_used st) = false -> ~ In t (t_used st)) by (intros t E I; apply smem_In in I; congruence).
    destruct (seqb (lower l0) (u "datetime") && seqb n (u "64") && nonempty b).
    { destruct (smem (u "d64" ++ b) (t_used st)) eqn:E; intros H; inversion H; subst st'; clear H; [exists s; auto|].
      exists (u "d64" ++ b). split; [reflexivity|]. split; [reflexivity|]. left. split; [right; right; right; left; reflexivity|auto]. }
    destruct (seqb (lower l0) (u "timedelta") && seqb n (u "64") && nonempty b).
    { destruct (smem (u "t64" ++ b) (t_used st)) eqn:E; intros H; inversion H; subst st'; clear H; [exists s; auto|].
      exists (u "t64" ++ b). split; [reflexivity|]. split; [reflexivity|]. left. split; [right; right; right; right; reflexivity|auto]. }
    destruct (smem (lower l0) (t_letters st)).
    - destruct (nonempty n || nonempty b).
      + destruct (lower l0) as [|c r] eqn:EL; [discriminate|]. destruct (smem (c :: n ++ b) (t_used st)) eqn:E1.
        * destruct (smem ((c :: r) ++ n ++ b) (t_used st)) eqn:E2; intros H; inversion H; subst st'; clear H; [exists s; auto|].
          eexists. split; [reflexivity|]. split; [reflexivity|]. left. split; [right; right; left; reflexivity|auto].
        * intros H; inversion H; subst st'; clear H. eexists. split; [reflexivity|]. split; [reflexivity|]. left. split; [right; left; eauto|auto].
      + destruct (first_unused _ _ _ _) as [t|] eqn:E; intros H; inversion H; subst st'; clear H; [|exists s; auto].
        apply first_unused_spec in E; [|lia|lia]. exists t. split; [reflexivity|]. split; [reflexivity|]. left. split; [left|]; apply E.
    - destruct (first_unused _ _ _ _) as [t|] eqn:E; intros H; inversion H; subst st'; clear H; [|exists s; auto].
      apply first_unused_spec in E; [|lia|lia]. exists t. split; [reflexivity|]. split; [reflexivity|]. left. split; [left|]; apply E.
  Qed.
  Record tinv (st : tstate) : Prop := {
    ti_used : forall s t, In (s, t) (t_result st) -> In t (t_used st);
    ti_form : forall s t, In (s, t) (t_result st) -> shortens s t \/ t = s;
    ti_uniq : forall s s' t, In (s, t) (t_result st) -> In (s', t) (t_result st) -> s <> s' -> t = s \/ t = s'
  }.
  Lemma tag_loop_spec l : forall st st', tag_loop isdigit lower l st = Ret st' -> tinv st -> NoDup (keys (t_result st) ++ l) ->
    tinv st' /\ keys (t_result st') = keys (t_result st) ++ l.
  Proof.
    induction l as [|s l IH]; intros st st' H T N; cbn [tag_loop] in H.
    - inversion H; subst. rewrite app_nil_r. auto.
    - destruct (tag_step isdigit lower s st) as [st1| |] eqn:E; try discriminate.
      apply tag_step_spec in E. destruct E as (t & Er & Eu & C).
      assert (Ns : ~ In s (keys (t_result st))). { intros I. apply NoDup_remove_2 in N. apply N. apply in_or_app; auto. }
      rewrite (sset_app _ _ _ Ns) in Er.
      destruct (IH st1 st' H) as [T' K].
      + destruct T as [T1 T2 T3]. constructor; rewrite Er.
        * intros a b I. rewrite Eu. apply in_app_or in I. destruct I as [I|[I|[]]]; [right; eauto|inversion I; left; auto].
        * intros a b I. apply in_app_or in I. destruct I as [I|[I|[]]]; [eauto|]. inversion I; subst. destruct C as [[C _]|C]; auto.
        * intros a b x Ia Ib Nab. apply in_app_or in Ia, Ib. destruct Ia as [Ia|[Ia|[]]], Ib as [Ib|[Ib|[]]].
          -- eauto.
          -- inversion Ib; subst. destruct C as [[_ C]|C]; auto. destruct C. eauto.
          -- inversion Ia; subst. destruct C as [[_ C]|C]; auto. destruct C. eauto.
          -- inversion Ia; inversion Ib; subst. congruence.
      + rewrite Er. unfold keys. rewrite map_app, <- app_assoc. exact N.
      + split; auto. rewrite K, Er. unfold keys. rewrite map_app, <- app_assoc. reflexivity.
  Qed.
  Lemma tinv0 : tinv (mkT [] [] []).
  Proof. constructor; intros s t; cbn; tauto. Qed.
  Lemma smallest_spec p l m : NoDup l -> smallest_unique isdigit lower p l = Ret m ->
    keys m = l /\ (forall s t, In (s, t) m -> exists x, t = p ++ u "/" ++ x /\ (shortens s x \/ x = s)) /\
    (forall s s' x, In (s, p ++ u "/" ++ x) m -> In (s', p ++ u "/" ++ x) m -> s <> s' -> x = s \/ x = s').
  Proof.
    intros N H. unfold smallest_unique in H. destruct (tag_loop _ _ _ _) as [st| |] eqn:E; try discriminate. inversion H; subst m. clear H.
    destruct (tag_loop_spec l _ _ E tinv0 N) as [[T1 T2 T3] K]. cbn [t_result keys map app] in K. split; [|split].
    - unfold keys. rewrite map_map. exact K.
    - intros s t I. apply in_map_iff in I. destruct I as ([a b] & X & I). cbn [fst snd] in X. inversion X; subst. exists b. split; auto.
    - assert (G : forall s x, In (s, p ++ u "/" ++ x) (map (fun kv => (fst kv, p ++ u "/" ++ snd kv)) (t_result st)) -> In (s, x) (t_result st)).
      { intros s x I. apply in_map_iff in I. destruct I as ([a b] & X & I). cbn [fst snd] in X. inversion X as [[X1 X2]]. subst a.
        apply app_inv_head in X2. inversion X2; subst. auto. }
      intros s s' x I I' D. apply (T3 s s' x); auto.
  Qed.

  (** If no name is a shortened form of another, tags determine names. *)
  Lemma smallest_injective p l m : NoDup l -> (forall s s', In s l -> In s' l -> s <> s' -> ~ shortens s s') ->
    smallest_unique isdigit lower p l = Ret m -> keys m = l /\ NoDup (map snd m).
  Proof.
    intros N Sh H. destruct (smallest_spec p l m N H) as (K & F & U). split; auto.
    assert (Nk : NoDup (keys m)) by (rewrite K; auto).
    assert (Inj : forall a b x y, In (a, x) m -> In (b, y) m -> x = y -> a = b).
    { intros a b x y Ia Ib <-. destruct (pystr_eq_dec a b) as [|D]; auto. exfalso.
      assert (La : In a l) by (rewrite <- K; apply (in_map fst) in Ia; auto). assert (Lb : In b l) by (rewrite <- K; apply (in_map fst) in Ib; auto).
      destruct (F a x Ia) as (t & -> & Fa). destruct (F b _ Ib) as (t' & E & Fb). apply app_inv_head in E. inversion E; subst t'. clear E.
      destruct (U a b t Ia Ib D) as [->| ->].
      - destruct Fb as [Fb|]; [|congruence]. exact (Sh b a Lb La (fun e => D (eq_sym e)) Fb).
      - destruct Fa as [Fa|]; [|congruence]. exact (Sh a b La Lb D Fa). }
    clear - Nk Inj. induction m as [|[a x] m IH]; cbn [map snd]; constructor.
    - intros I. apply in_map_iff in I. destruct I as ([b y] & E & I). cbn [snd] in E. subst y.
      inversion Nk; subst. apply H1. rewrite (Inj a b x x (or_introl eq_refl) (or_intror I) eq_refl). apply (in_map fst) in I. exact I.
    - apply IH; [inversion Nk; auto|]. intros b c y z Ib Ic. apply Inj; right; auto.
  Qed.
  Lemma reverse_spec (m : list (pystr * pystr)) : NoDup (map snd m) -> reverse_map m = map (fun kv => (snd kv, fst kv)) m.
  Proof.
    intros N. unfold reverse_map. rewrite <- (app_nil_l (map _ m)).
    assert (G : forall r : list (pystr * pystr), NoDup (map fst r ++ map snd m) -> fold_left (fun r kv => sset (snd kv) (fst kv) r) m r = r ++ map (fun kv => (snd kv, fst kv)) m).
    { clear N. induction m as [|[a x] m IH]; intros r N; cbn [fold_left map fst snd]; [rewrite app_nil_r; auto|].
      cbn [map snd] in N. rewrite sset_app by (intros I; apply NoDup_remove_2 in N; apply N; apply in_or_app; auto).
      rewrite IH; [rewrite <- app_assoc; reflexivity|]. rewrite map_app, <- app_assoc. exact N. }
    apply (G []). exact N.
  Qed.
  Lemma fold_sset_get (b : list (pystr * pystr)) : forall a k, NoDup (keys b) ->
    sget k (fold_left (fun m kv => sset (fst kv) (snd kv) m) b a) = match sget k b with Some v => Some v | None => sget k a end.
  Proof.
    induction b as [|[x v] b IH]; intros a k N; cbn [fold_left sget fst snd]; auto. inversion N; subst. rewrite IH; auto.
    destruct (seqb_spec k x) as [->|D].
    - assert (E : sget x b = None) by (apply sget_None; auto). rewrite E, sget_sset_same. auto.
    - destruct (sget k b); auto. apply sget_sset_other; auto.
  Qed.
  Lemma fold_sset_NoDup (b : list (pystr * pystr)) : forall a, NoDup (keys a) -> NoDup (keys (fold_left (fun m kv => sset (fst kv) (snd kv) m) b a)).
  Proof. induction b as [|[x v] b IH]; intros a N; cbn [fold_left]; auto. apply IH. apply NoDup_sset; auto. Qed.
  Lemma In_sget k v (m : list (pystr * pystr)) : NoDup (keys m) -> In (k, v) m -> sget k m = Some v.
  Proof.
    induction m as [|[a b] m IH]; intros N I; [destruct I|]. inversion N; subst. cbn [sget]. destruct I as [I|I].
    - inversion I; subst. rewrite seqb_refl. auto.
    - destruct (seqb_spec k a) as [->|]; auto. destruct H1. apply (in_map fst) in I. exact I.
  Qed.
  Lemma NoDup_snd (m : list (pystr * pystr)) : NoDup (keys m) -> (forall a b x, In (a, x) m -> In (b, x) m -> a = b) -> NoDup (map snd m).
  Proof.
    intros Nk Inj. induction m as [|[a x] m IH]; cbn [map snd]; constructor.
    - intros I. apply in_map_iff in I. destruct I as ([b y] & E & I). cbn [snd] in E. subst y.
      inversion Nk; subst. apply H1. rewrite (Inj a b x (or_introl eq_refl) (or_intror I)). apply (in_map fst) in I. exact I.
    - apply IH; [inversion Nk; auto|]. intros b c y Ib Ic. apply (Inj b c y); right; auto.
  Qed.
  Lemma type_map_injective np pd m : NoDup np -> NoDup pd ->
    (forall s s', In s np -> In s' np -> s <> s' -> ~ shortens s s') ->
    (forall s s', In s pd -> In s' pd -> s <> s' -> ~ shortens s s') ->
    type_map isdigit lower np pd = Ret m ->
    forall s t, sget s m = Some t -> sget t (reverse_map m) = Some s.
  Proof.
    intros N1 N2 S1 S2 H. unfold type_map in H.
    destruct (smallest_unique isdigit lower (u "np") np) as [a| |] eqn:A; try discriminate;
      destruct (smallest_unique isdigit lower (u "pd") pd) as [b| |] eqn:B; try discriminate. inversion H; subst m. clear H.
    destruct (smallest_injective _ _ _ N1 S1 A) as (Ka & Ia). destruct (smallest_injective _ _ _ N2 S2 B) as (Kb & Ib).
    destruct (smallest_spec _ _ _ N1 A) as (_ & Fa & _). destruct (smallest_spec _ _ _ N2 B) as (_ & Fb & _).
    assert (Na : NoDup (keys a)) by (rewrite Ka; auto). assert (Nb : NoDup (keys b)) by (rewrite Kb; auto).
    set (m := fold_left _ b a). assert (Nm : NoDup (keys m)) by (apply fold_sset_NoDup; auto).
    assert (Inj : forall x y t, In (x, t) m -> In (y, t) m -> x = y).
    { assert (W : forall x t, In (x, t) m -> In (x, t) a \/ In (x, t) b).
      { intros x t I. apply In_sget in I; auto. unfold m in I. rewrite fold_sset_get in I; auto.
        destruct (sget x b) eqn:E; [inversion I; subst; right|left]; apply sget_In; auto. }
      assert (G : forall c : list (pystr * pystr), NoDup (map snd c) -> forall x y t, In (x, t) c -> In (y, t) c -> x = y).
      { intros c Nc. induction c as [|[p q] c IH]; intros x y t I J; [destruct I|]. cbn [map snd] in Nc. inversion Nc; subst.
        destruct I as [I|I], J as [J|J].
        - congruence.
        - inversion I; subst. destruct H1. apply (in_map snd) in J. exact J.
        - inversion J; subst. destruct H1. apply (in_map snd) in I. exact I.
        - eauto. }
      intros x y t I J. apply W in I, J. destruct I as [I|I], J as [J|J]; eauto.
      - destruct (Fa _ _ I) as (p & E1 & _). destruct (Fb _ _ J) as (q & E2 & _). subst t. discriminate E2.
      - destruct (Fb _ _ I) as (p & E1 & _). destruct (Fa _ _ J) as (q & E2 & _). subst t. discriminate E2. }
    intros s t G. rewrite reverse_spec by (apply NoDup_snd; auto). apply In_sget.
    - unfold keys. rewrite map_map. cbn [fst]. apply NoDup_snd; auto.
    - apply in_map_iff. exists (s, t). split; auto. apply sget_In. exact G.
  Qed.
End tags.

(** C47.  Two names share a tag only if one of them is written out in full. *)
Theorem C47_collisions :
  forall isdigit lower p l m a b x, NoDup l -> smallest_unique isdigit lower p l = Ret m ->
  In (a, p ++ u "/" ++ x) m -> In (b, p ++ u "/" ++ x) m -> a <> b -> x = a \/ x = b.
Proof. intros isdigit lower p l m a b x N H. exact (proj2 (proj2 (smallest_spec isdigit lower p l m N H)) a b x). Qed.
Print Assumptions C47_collisions.
(** If no name is what another one can be shortened to, every name gets its own tag. *)
Theorem C47_distinct_tags :
  forall isdigit lower p l m, NoDup l -> (forall s s', In s l -> In s' l -> s <> s' -> ~ shortens isdigit lower s s') ->
  smallest_unique isdigit lower p l = Ret m -> keys m = l /\ NoDup (map snd m).
Proof. exact smallest_injective. Qed.
Print Assumptions C47_distinct_tags.
Theorem C47_reverse_map :
  forall isdigit lower np pd m, NoDup np -> NoDup pd ->
  (forall s s', In s np -> In s' np -> s <> s' -> ~ shortens isdigit lower s s') ->
  (forall s s', In s pd -> In s' pd -> s <> s' -> ~ shortens isdigit lower s s') ->
  type_map isdigit lower np pd = Ret m -> forall s t, sget s m = Some t -> sget t (reverse_map m) = Some s.
Proof. exact type_map_injective. Qed.
Print Assumptions C47_reverse_map.

(** ASCII versions of isdigit and lower. *)
Definition adigit (c : N) : bool := ((48 <=? c) && (c <=? 57))%N.
Definition alower (s : pystr) : pystr := map (fun c => if ((65 <=? c) && (c <=? 90))%N then (c + 32)%N else c) s.
(** A check of the hypothesis. *)
Definition shortens_b (s t : pystr) : bool :=
  let '(letters, numbers, brackets) := split_dtype adigit s in
  (nonempty t && prefixb t (alower letters)) ||
  (match alower letters with c :: _ => seqb t (c :: numbers ++ brackets) | [] => false end) ||
  seqb t (alower letters ++ numbers ++ brackets) || seqb t (u "d64" ++ brackets) || seqb t (u "t64" ++ brackets).
Lemma shortens_check s t : shortens_b s t = false -> ~ shortens adigit alower s t.
Proof.
  unfold shortens_b, shortens. destruct (split_dtype adigit s) as [[l n] b]. intros H.
  apply orb_false_iff in H. destruct H as [H H5]. apply orb_false_iff in H. destruct H as [H H4].
  apply orb_false_iff in H. destruct H as [H H3]. apply orb_false_iff in H. destruct H as [H1 H2].
  intros [(N & r & E)|[(c & r & E & ->)|[ ->|[->| ->]]]].
  - rewrite E, prefixb_app, andb_true_r in H1. destruct t; [congruence|discriminate].
  - rewrite E, seqb_refl in H2. discriminate.
  - rewrite seqb_refl in H3. discriminate.
  - rewrite seqb_refl in H4. discriminate.
  - rewrite seqb_refl in H5. discriminate.
Qed.
Definition unshortened (l : list pystr) : bool :=
  forallb (fun s => forallb (fun s' => seqb s s' || negb (shortens_b s s')) l) l.
Lemma unshortened_ok l : unshortened l = true -> forall s s', In s l -> In s' l -> s <> s' -> ~ shortens adigit alower s s'.
Proof.
  intros H s s' I I' N. unfold unshortened in H. rewrite forallb_forall in H. specialize (H s I). rewrite forallb_forall in H.
  specialize (H s' I'). apply orb_true_iff in H. destruct H as [H|H]; [apply seqb_eq in H; congruence|].
  apply shortens_check. apply negb_true_iff. exact H.
Qed.
Definition some_dtypes : list pystr :=
  map u ["bool"; "float16"; "float32"; "float64"; "int8"; "int16"; "uint8"; "complex64"; "object"; "str"; "bytes"; "void";
         "datetime64[Y]"; "datetime64[ns]"; "timedelta64[ns]"]%string.
Example C47_case :
  NoDup some_dtypes /\ (forall s s', In s some_dtypes -> In s' some_dtypes -> s <> s' -> ~ shortens adigit alower s s') /\
  match smallest_unique adigit alower (u "np") some_dtypes with
  | Ret m => map snd m = map u ["np/b"; "np/f"; "np/f32"; "np/f64"; "np/i"; "np/i16"; "np/u"; "np/c"; "np/o"; "np/s"; "np/by"; "np/v"; "np/d64[Y]"; "np/d64[ns]"; "np/t64[ns]"]%string
  | _ => False
  end.
Proof.
  split; [|split].
  - unfold some_dtypes. repeat constructor; cbn [map In]; intuition discriminate.
  - apply unshortened_ok. vm_compute. reflexivity.
  - vm_compute. reflexivity.
Qed.
(** In general tags are ambiguous: "a", "abc" and "ab" in this order. *)
Theorem C47_ambiguous_refuted :
  exists l m a b t, NoDup l /\ smallest_unique adigit alower (u "np") l = Ret m /\ a <> b /\ In (a, t) m /\ In (b, t) m.
Proof.
  exists [u "a"; u "abc"; u "ab"]. eexists. exists (u "abc"), (u "ab"), (u "np/ab").
  split; [repeat constructor; cbn [In]; intuition discriminate|]. split; [vm_compute; reflexivity|]. split; [discriminate|].
  split; vm_compute; auto.
Qed.
Print Assumptions C47_ambiguous_refuted.
