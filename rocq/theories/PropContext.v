(** C37: delivery of handler_context. *)
From Verif Require Import PyStr Tags Json JsonText Base Heap Registry LoadClass Pickler Unpickler Signature UGen RestoreProofs ContextProofs Samples.
Open Scope nat_scope.

(** Which parameter kinds can take a keyword. *)
Definition by_keyword (p : param) : Prop := pa_kind p = PosOrKw \/ pa_kind p = KwOnly \/ pa_kind p = VarKw.

Lemma find_name ps p : NoDup (map pa_name ps) -> In p ps -> pa_name p = HC -> find (fun q => seqb HC (pa_name q)) ps = Some p.
Proof.
  induction ps as [|q ps IH]; intros N I E; [destruct I|]. cbn [find]. inversion N; subst. destruct I as [->|I].
  - rewrite E, seqb_refl. reflexivity.
  - destruct (seqb_spec HC (pa_name q)) as [D|_]; [|auto]. destruct H1. rewrite <- D, <- E. apply in_map. exact I.
Qed.
(** C37.  The test accepts exactly signatures with a parameter handler_context that can be
    passed by keyword. *)
Theorem C37_test :
  forall ps, NoDup (map pa_name ps) ->
  (accepts (Some ps) = true <-> exists p, In p ps /\ pa_name p = HC /\ by_keyword p).
Proof.
  intros ps N. unfold accepts, by_keyword. split.
  - destruct (find _ ps) as [p|] eqn:F; [|discriminate]. intros H. exists p. apply find_some in F. destruct F as [I E].
    split; auto. split; [symmetry; apply seqb_eq; exact E|]. destruct (pa_kind p); auto; discriminate.
  - intros (p & I & E & K). rewrite (find_name ps p N I E). destruct K as [->|[->| ->]]; reflexivity.
Qed.
Print Assumptions C37_test.

(** In a signature nothing comes after the ** parameter. *)
Fixpoint catchall_last (ps : list param) : Prop :=
  match ps with [] => True | p :: r => (pa_kind p = VarKw -> r = []) /\ catchall_last r end.

Section delivery.
  Context {V : Type}.
  Lemma sget_one (c : V) k : k <> HC -> sget k [(HC, c)] = None.
  Proof. intros N. cbn [sget]. destruct (seqb_spec k HC); congruence. Qed.
  Lemma bind_none ps : forall (args : list V) c b, bind_args ps args [(HC, c)] = Some b ->
    In (HC, One c) b \/ exists n, In (n, Table [(HC, c)]) b.
  Proof.
    assert (Cons : forall (n : pystr) (x : bound V) (r : option (list (pystr * bound V))) b, option_map (cons (n, x)) r = Some b -> exists b', r = Some b' /\ b = (n, x) :: b').
    { intros n x [r|] b H; inversion H; eauto. }
    induction ps as [|p ps IH]; intros args c b H; cbn [bind_args] in H; [destruct args; discriminate|].
    assert (IH' : forall args b' n x, bind_args ps args [(HC, c)] = Some b' -> In (HC, One c) ((n, x) :: b') \/ exists n', In (n', Table [(HC, c)]) ((n, x) :: b')).
    { intros args' b' n x E. apply IH in E. destruct E as [E|[n' E]]; [left; right; auto|right; exists n'; right; auto]. }
    assert (FK : forall args, match from_kw p [(HC, c)] with Some (x, kw') => option_map (cons (pa_name p, x)) (bind_args ps args kw') | None => None end = Some b ->
                 In (HC, One c) b \/ exists n, In (n, Table [(HC, c)]) b).
    { intros args' E. unfold from_kw in E. destruct (sget (pa_name p) [(HC, c)]) as [v|] eqn:G.
      - apply Cons in E. destruct E as (b' & E & ->). cbn [sget] in G. destruct (seqb_spec (pa_name p) HC) as [D|]; [|discriminate].
        inversion G; subst v. rewrite D. left. left. reflexivity.
      - destruct (pa_default p); [|discriminate]. apply Cons in E. destruct E as (b' & E & ->). eauto. }
    destruct (pa_kind p).
    - destruct args; [destruct (pa_default p); [|discriminate]|]; apply Cons in H; destruct H as (b' & E & ->); eauto.
    - destruct args; [eauto|]. destruct (sget _ _); [discriminate|]. apply Cons in H; destruct H as (b' & E & ->); eauto.
    - apply Cons in H; destruct H as (b' & E & ->); eauto.
    - eauto.
    - apply Cons in H; destruct H as (b' & E & ->). right. exists (pa_name p). left. reflexivity.
  Qed.
  Lemma bind_names ps : forall (args : list V) kw b, bind_args ps args kw = Some b -> map fst b = map pa_name ps.
  Proof.
    assert (Cons : forall (n : pystr) (x : bound V) (r : option (list (pystr * bound V))) b, option_map (cons (n, x)) r = Some b -> exists b', r = Some b' /\ b = (n, x) :: b').
    { intros n x [r|] b H; inversion H; eauto. }
    induction ps as [|p ps IH]; intros args kw b H; cbn [bind_args] in H; [destruct args, kw; inversion H; auto|].
    assert (G : forall x args' kw', option_map (cons (pa_name p, x)) (bind_args ps args' kw') = Some b -> map fst b = map pa_name (p :: ps)).
    { intros x args' kw' E. apply Cons in E. destruct E as (b' & E & ->). apply IH in E. cbn [map fst]. rewrite E. reflexivity. }
    destruct (pa_kind p).
    - destruct args; [destruct (pa_default p); [|discriminate]|]; eauto.
    - destruct args; [|destruct (sget _ _); [discriminate|eauto]]. destruct (from_kw p kw) as [[x kw']|]; [eauto|discriminate].
    - eauto.
    - destruct (from_kw p kw) as [[x kw']|]; [eauto|discriminate].
    - eauto.
  Qed.
  Lemma bind_else ps : forall (args : list V) c b, (forall p, In p ps -> pa_name p = HC -> ~ (pa_kind p = PosOrKw \/ pa_kind p = KwOnly)) ->
    bind_args ps args [(HC, c)] = Some b -> exists n, In (n, Table [(HC, c)]) b.
  Proof.
    assert (Cons : forall (n : pystr) (x : bound V) (r : option (list (pystr * bound V))) b, option_map (cons (n, x)) r = Some b -> exists b', r = Some b' /\ b = (n, x) :: b').
    { intros n x [r|] b H; inversion H; eauto. }
    induction ps as [|p ps IH]; intros args c b A H; cbn [bind_args] in H; [destruct args; discriminate|].
    assert (Go : forall args x, option_map (cons (pa_name p, x)) (bind_args ps args [(HC, c)]) = Some b -> exists n, In (n, Table [(HC, c)]) b).
    { intros args' x E. apply Cons in E. destruct E as (b' & E & ->). apply IH in E; [|intros q I; apply A; right; auto].
      destruct E as [n E]. exists n. right. exact E. }
    assert (FK : forall args, (pa_kind p = PosOrKw \/ pa_kind p = KwOnly) ->
       match from_kw p [(HC, c)] with Some (x, kw') => option_map (cons (pa_name p, x)) (bind_args ps args kw') | None => None end = Some b ->
       exists n, In (n, Table [(HC, c)]) b).
    { intros args' K E. unfold from_kw in E. destruct (pystr_eq_dec (pa_name p) HC) as [D|D].
      - destruct (A p (or_introl eq_refl) D K).
      - rewrite sget_one in E by auto. destruct (pa_default p); [eauto|discriminate]. }
    destruct (pa_kind p) eqn:K.
    - destruct args; [destruct (pa_default p); [|discriminate]|]; eauto.
    - destruct args; [eauto|]. destruct (sget _ _); [discriminate|]. eauto.
    - eauto.
    - eauto.
    - apply Cons in H; destruct H as (b' & E & ->). exists (pa_name p). left. reflexivity.
  Qed.
  (** ** A call with no keyword: which kinds of parameter can be bound to what *)
  Lemma table_kind ps : forall (args : list V) kw b n m, NoDup (map pa_name ps) -> bind_args ps args kw = Some b -> In (n, Table m) b ->
    exists p, In p ps /\ pa_name p = n /\ pa_kind p = VarKw.
  Proof.
    assert (Cons : forall (n : pystr) (x : bound V) (r : option (list (pystr * bound V))) b, option_map (cons (n, x)) r = Some b -> exists b', r = Some b' /\ b = (n, x) :: b').
    { intros n x [r|] b H; inversion H; eauto. }
    induction ps as [|p ps IH]; intros args kw b n m N H I; cbn [bind_args] in H; [destruct args, kw; inversion H; subst; destruct I|].
    assert (G : forall x args' kw', (forall m', x <> Table m') -> option_map (cons (pa_name p, x)) (bind_args ps args' kw') = Some b ->
                exists p', In p' (p :: ps) /\ pa_name p' = n /\ pa_kind p' = VarKw).
    { intros x args' kw' Nt E. apply Cons in E. destruct E as (b' & E & ->). destruct I as [I|I]; [inversion I; subst; destruct (Nt m); auto|].
      inversion N; subst. destruct (IH _ _ _ _ _ H3 E I) as (q & Q1 & Q2 & Q3). exists q. repeat split; auto. right. auto. }
    assert (FK : forall args', match from_kw p kw with Some (x, kw') => option_map (cons (pa_name p, x)) (bind_args ps args' kw') | None => None end = Some b ->
                 exists p', In p' (p :: ps) /\ pa_name p' = n /\ pa_kind p' = VarKw).
    { intros args' E. unfold from_kw in E. destruct (sget _ _); [eapply G; [|exact E]; discriminate|].
      destruct (pa_default p); [|discriminate]. eapply G; [|exact E]; discriminate. }
    destruct (pa_kind p) eqn:K.
    - destruct args; [destruct (pa_default p); [|discriminate]|]; (eapply G; [|exact H]; discriminate).
    - destruct args; [eauto|]. destruct (sget _ _); [discriminate|]. eapply G; [|exact H]; discriminate.
    - eapply G; [|exact H]; discriminate.
    - eauto.
    - apply Cons in H. destruct H as (b' & E & ->). destruct I as [I|I].
      + inversion I; subst. exists p. repeat split; auto. left; auto.
      + inversion N; subst. destruct (IH _ _ _ _ _ H2 E I) as (q & Q1 & Q2 & Q3). exists q. repeat split; auto. right. auto.
  Qed.
  (** Adding the keyword to a call in which handler_context keeps its default. *)
  Lemma bind_default ps : forall (args : list V) b c, NoDup (map pa_name ps) -> bind_args ps args [] = Some b -> In (HC, Default) b ->
    (forall p, In p ps -> pa_name p = HC -> by_keyword p) -> catchall_last ps ->
    exists b', bind_args ps args [(HC, c)] = Some b' /\
      b' = map (fun nx => if seqb HC (fst nx) then (fst nx, One c) else nx) b.
  Proof.
    assert (Cons : forall (n : pystr) (x : bound V) (r : option (list (pystr * bound V))) b, option_map (cons (n, x)) r = Some b -> exists b', r = Some b' /\ b = (n, x) :: b').
    { intros n x [r|] b H; inversion H; eauto. }
    induction ps as [|p ps IH]; intros args b c N H I K L; cbn [bind_args] in H |- *; [destruct args; inversion H; subst; destruct I|].
    assert (Nps : NoDup (map pa_name ps)) by (inversion N; auto).
    assert (Kps : forall p, In p ps -> pa_name p = HC -> by_keyword p) by (intros; apply K; auto; right; auto).
    destruct L as [L0 L].
    assert (Rest : forall x args' b', pa_name p <> HC -> bind_args ps args' [] = Some b' -> b = (pa_name p, x) :: b' ->
              exists b2, option_map (cons (pa_name p, x)) (bind_args ps args' [(HC, c)]) = Some b2 /\
                b2 = map (fun nx => if seqb HC (fst nx) then (fst nx, One c) else nx) b).
    { intros x args' b' D E ->. destruct I as [I|I]; [inversion I; congruence|].
      destruct (IH args' b' c Nps E I Kps L) as (b2 & E2 & ->). rewrite E2. cbn [option_map map fst].
      destruct (seqb_spec HC (pa_name p)); [congruence|]. eauto. }
    assert (Same : forall args' b', pa_name p = HC -> bind_args ps args' [] = Some b' ->
              map (fun nx : pystr * bound V => if seqb HC (fst nx) then (fst nx, One c) else nx) b' = b').
    { intros args' b' D E. apply bind_names in E. rewrite <- (map_id b') at 2. apply map_ext_in. intros [n x] Ix. cbn [fst].
      destruct (seqb_spec HC n) as [<-|]; auto. exfalso. inversion N; subst. apply H2. rewrite D, <- E. apply (in_map fst) in Ix. exact Ix. }
    assert (FK : forall args', (pa_kind p = PosOrKw \/ pa_kind p = KwOnly) ->
       match from_kw p [] with Some (x, kw') => option_map (cons (pa_name p, x)) (bind_args ps args' kw') | None => None end = Some b ->
       exists b2, match from_kw p [(HC, c)] with Some (x, kw') => option_map (cons (pa_name p, x)) (bind_args ps args' kw') | None => None end = Some b2 /\
         b2 = map (fun nx => if seqb HC (fst nx) then (fst nx, One c) else nx) b).
    { intros args' _ E. unfold from_kw in *. cbn [sget] in E. destruct (pystr_eq_dec (pa_name p) HC) as [D|D].
      - rewrite D in *. cbn [sget sdel]. rewrite seqb_refl. destruct (pa_default p); [|discriminate].
        apply Cons in E. destruct E as (b' & E & ->). rewrite E. cbn [option_map map fst]. rewrite seqb_refl, (Same args' b'); eauto.
      - rewrite sget_one by auto. destruct (pa_default p); [|discriminate]. apply Cons in E. destruct E as (b' & E & Eb). eapply Rest; eauto. }
    destruct (pa_kind p) eqn:Kp.
    - assert (D : pa_name p <> HC). { intros D. destruct (K p (or_introl eq_refl) D) as [X|[X|X]]; congruence. }
      destruct args; [destruct (pa_default p); [|discriminate]|]; apply Cons in H; destruct H as (b' & E & Eb); eapply Rest; eauto.
    - destruct args as [|a args]; [apply FK; auto|]. cbn [sget] in H. apply Cons in H; destruct H as (b' & E & Eb).
      destruct (pystr_eq_dec (pa_name p) HC) as [D|D].
      + exfalso. subst b. destruct I as [I|I]; [inversion I|]. apply bind_names in E. inversion N; subst. apply H1. rewrite D, <- E.
        apply (in_map fst) in I. exact I.
      + rewrite sget_one by auto. eapply Rest; eauto.
    - assert (D : pa_name p <> HC). { intros D. destruct (K p (or_introl eq_refl) D) as [X|[X|X]]; congruence. }
      apply Cons in H; destruct H as (b' & E & Eb); eapply Rest; eauto.
    - apply FK; auto.
    - exfalso. apply Cons in H; destruct H as (b' & E & ->). destruct I as [I|I]; [discriminate|].
      rewrite (L0 eq_refl) in E. cbn [bind_args] in E. destruct args; inversion E; subst. destruct I.
  Qed.
  Lemma bind_takes ps : forall p (args : list V) c b, NoDup (map pa_name ps) -> catchall_last ps -> In p ps -> pa_name p = HC ->
    pa_kind p = PosOrKw \/ pa_kind p = KwOnly -> bind_args ps args [(HC, c)] = Some b -> In (HC, One c) b.
  Proof.
    assert (Cons : forall (n : pystr) (x : bound V) (r : option (list (pystr * bound V))) b, option_map (cons (n, x)) r = Some b -> exists b', r = Some b' /\ b = (n, x) :: b').
    { intros n x [r|] b H; inversion H; eauto. }
    induction ps as [|q ps IH]; intros p args c b N L I E K H; [destruct I|]. cbn [bind_args] in H. inversion N; subst. destruct L as [L0 L].
    destruct I as [->|I].
    - assert (FK : forall args', match from_kw p [(HC, c)] with Some (x, kw') => option_map (cons (pa_name p, x)) (bind_args ps args' kw') | None => None end = Some b -> In (HC, One c) b).
      { intros args' F. unfold from_kw in F. rewrite E in F. cbn [sget] in F. rewrite seqb_refl in F. apply Cons in F.
        destruct F as (b' & F & ->). left. auto. }
      destruct K as [K|K]; rewrite K in H; [|eauto]. destruct args; [eauto|]. rewrite E in H. cbn [sget] in H. rewrite seqb_refl in H. discriminate.
    - assert (D : pa_name q <> HC). { intros D. apply H2. rewrite D, <- E. apply in_map. exact I. }
      assert (Go : forall x args', option_map (cons (pa_name q, x)) (bind_args ps args' [(HC, c)]) = Some b -> In (HC, One c) b).
      { intros x args' F. apply Cons in F. destruct F as (b' & F & ->). right. eapply IH; eauto. }
      assert (FK : forall args', match from_kw q [(HC, c)] with Some (x, kw') => option_map (cons (pa_name q, x)) (bind_args ps args' kw') | None => None end = Some b -> In (HC, One c) b).
      { intros args' F. unfold from_kw in F. rewrite sget_one in F by auto. destruct (pa_default q); [eauto|discriminate]. }
      destruct (pa_kind q) eqn:Kq.
      + destruct args; [destruct (pa_default q); [|discriminate]|]; eauto.
      + destruct args; [eauto|]. rewrite sget_one in H by auto. eauto.
      + eauto.
      + eauto.
      + rewrite (L0 eq_refl) in I. destruct I.
  Qed.
  Lemma one_catchall ps p q : NoDup (map pa_name ps) -> catchall_last ps -> In p ps -> In q ps -> pa_kind p = VarKw -> pa_kind q = VarKw -> p = q.
  Proof.
    induction ps as [|x ps IH]; intros N L I J Kp Kq; [destruct I|]. inversion N; subst. destruct L as [L0 L].
    destruct I as [->|I], J as [J|J]; auto.
    - rewrite (L0 Kp) in J. destruct J.
    - subst x. rewrite (L0 Kq) in I. destruct I.
  Qed.
End delivery.

(** Context supplied and accepted: whenever the call binds at all, the handler gets it, as the
    parameter's value or, for a parameter **handler_context, inside its dict. *)
Theorem C37_delivered :
  forall (V : Type) ps (args : list V) c b, NoDup (map pa_name ps) -> catchall_last ps -> accepts (Some ps) = true ->
  bind_args ps args (kwargs (Some c) (Some ps)) = Some b -> In (HC, One c) b \/ In (HC, Table [(HC, c)]) b.
Proof.
  intros V ps args c b N L A. unfold kwargs. rewrite A. intros H. apply C37_test in A; auto. destruct A as (p & I & E & K).
  assert (T : pa_kind p = PosOrKw \/ pa_kind p = KwOnly -> In (HC, One c) b) by (intros K'; eapply bind_takes; eauto).
  destruct K as [K|[K|K]]; auto. destruct (bind_none ps args c b H) as [X|[n X]]; auto.
  destruct (table_kind ps args _ b n _ N H X) as (q & Q1 & Q2 & Q3). rewrite (one_catchall ps p q) in E; auto. subst n. rewrite E in X. auto.
Qed.
Print Assumptions C37_delivered.
(** Accepted, and the handler can be called without it: the call with the context binds, and
    only handler_context changes. *)
Theorem C37_call_still_binds :
  forall (V : Type) ps (args : list V) c b, NoDup (map pa_name ps) -> catchall_last ps -> accepts (Some ps) = true ->
  bind_args ps args [] = Some b -> In (HC, Default) b ->
  bind_args ps args (kwargs (Some c) (Some ps)) = Some (map (fun nx => if seqb HC (fst nx) then (fst nx, One c) else nx) b).
Proof.
  intros V ps args c b N L A H I. unfold kwargs. rewrite A. apply C37_test in A; auto. destruct A as (p & Ip & E & K).
  destruct (bind_default ps args b c N H I) as (b' & Hb & ->); auto.
  intros q Iq Eq. replace q with p; auto.
  assert (F : Some p = Some q) by (rewrite <- (find_name ps p N Ip E); apply find_name; auto). congruence.
Qed.
Print Assumptions C37_call_still_binds.
(** Otherwise nothing extra is passed; and a context is withheld only if the handler has no
    parameter of that name to receive it (it would be a TypeError or end up in another ** dict). *)
Theorem C37_withheld :
  forall (V : Type) sg (ctx : option V), ctx = None \/ accepts sg = false -> kwargs ctx sg = [].
Proof. intros V sg ctx [->|A]; [reflexivity|]. unfold kwargs. rewrite A. destruct ctx; reflexivity. Qed.
Print Assumptions C37_withheld.
Theorem C37_withheld_only_if_unnamed :
  forall (V : Type) ps (args : list V) c b, NoDup (map pa_name ps) -> catchall_last ps -> accepts (Some ps) = false ->
  bind_args ps args [(HC, c)] = Some b -> exists n, n <> HC /\ In (n, Table [(HC, c)]) b.
Proof.
  intros V ps args c b N L A H. assert (NA : forall p, In p ps -> pa_name p = HC -> ~ by_keyword p).
  { intros p I E K. assert (X : accepts (Some ps) = true) by (apply C37_test; eauto). congruence. }
  destruct (bind_else ps args c b) as [n X]; auto.
  { intros p I E K. apply (NA p I E). unfold by_keyword. tauto. }
  exists n. split; auto. intros ->. destruct (table_kind ps args _ b HC _ N H X) as (q & Q1 & Q2 & Q3).
  apply (NA q Q1 Q2). unfold by_keyword. auto.
Qed.
Print Assumptions C37_withheld_only_if_unnamed.

Definition pk (n : string) (k : kind) (d : bool) : param := mkParam (u n) k d.
(** flatten(self, obj, data, handler_context=None), and the same with keyword-only and ** forms *)
Example C37_case :
  let ps := [pk "obj" PosOrKw false; pk "data" PosOrKw false; pk "handler_context" PosOrKw true]%string in
  NoDup (map pa_name ps) /\ catchall_last ps /\ accepts (Some ps) = true /\
  bind_args ps [1; 2] (kwargs (Some 3) (Some ps)) = Some [(u "obj", One 1); (u "data", One 2); (HC, One 3)] /\
  bind_args ps [1; 2] [] = Some [(u "obj", One 1); (u "data", One 2); (HC, Default)].
Proof. cbn. repeat split; try (repeat constructor; cbn; intuition discriminate); discriminate. Qed.
Example C37_case_withheld :
  let ps := [pk "obj" PosOrKw false; pk "kwargs" VarKw false]%string in
  accepts (Some ps) = false /\ bind_args ps [1] (kwargs (Some 3) (Some ps)) = Some [(u "obj", One 1); (u "kwargs", Table [])] /\
  bind_args ps [1] [(HC, 3)] = Some [(u "obj", One 1); (u "kwargs", Table [(HC, 3)])].
Proof. repeat split. Qed.

(** ** The calls made by encode and decode *)
Lemma due_iff ctx sg c : due ctx sg = Some c <-> ctx = Some c /\ accepts sg = true.
Proof. unfold due. destruct ctx, (accepts sg); split; try intros [? ?]; intros; try discriminate; intuition congruence. Qed.

(** encode behaves as if each handler were handed what is due to it: handlers that differ only
    on other contexts make no difference. *)
Theorem C37_encode :
  forall w hf hr sf sr k o n v s,
  encode (with_handlers w hf hr sf sr) k o n v s =
  encode (with_handlers w (fun h _ => hf h (due (po_ctx o) (sf h))) hr sf sr) k o n v s.
Proof. intros. rewrite p_encode. reflexivity. Qed.
Print Assumptions C37_encode.
Theorem C37_decode :
  forall w hf hr sf sr o n cl text s,
  decode (with_handlers w hf hr sf sr) o n cl text s =
  decode (with_handlers w hf (fun h _ => hr h (due (uo_ctx o) (sr h))) sf sr) o n cl text s.
Proof. intros. rewrite u_decode. reflexivity. Qed.
Print Assumptions C37_decode.
(** Every handler call made by decode passes the context iff it was supplied and the handler
    accepts it. *)
Theorem C37_decode_calls :
  forall w hf hr sf sr o n cl text h h0 ctx, let w' := with_handlers w hf hr sf sr in
  In (EvHandler h ctx) (u_log (snd (decode w' o n cl text (new_unpickler h0)))) ->
  forall c, ctx = Some c <-> uo_ctx o = Some c /\ accepts (sr h) = true.
Proof.
  intros w hf hr sf sr o n cl text h h0 ctx w' I c.
  assert (E : ctx = due (uo_ctx o) (sr h)).
  { destruct (decode_ctx w' o n cl text (new_unpickler h0)) as (es & E & F). rewrite E in I. cbn in I.
    rewrite Forall_forall in F. exact (F _ I). }
  rewrite E. apply due_iff.
Qed.
Print Assumptions C37_decode_calls.
(** A handled class (handler 0 takes the context, handler 1 does not); decode with context 5. *)
Definition sig_hc : signature := Some [pk "obj" PosOrKw false; pk "handler_context" KwOnly true]%string.
Definition sig_kw : signature := Some [pk "obj" PosOrKw false; pk "kwargs" VarKw false]%string.
Definition W_ctx : world :=
  sample_world (mkReg [(RCls cHandled, 0); (RCls cOther, 1)] []) (fun _ _ _ _ => FDone None) (fun _ _ _ => HDone (HVal VNone)).
Example C37_decode_case :
  let w := with_handlers W_ctx (w_hflat W_ctx) (w_hrest W_ctx) (fun _ => None) (fun h => if Nat.eqb h 0 then sig_hc else sig_kw) in
  let text := dumps (JList [JObj [(OBJECT, JStr (u "m.Handled"))]; JObj [(OBJECT, JStr (u "m.Other"))]]) in
  filter (fun e => match e with EvHandler _ _ => true | _ => false end)
    (u_log (snd (decode w (mkUopts false true false MIgnore false (Some (VInt 5))) (length text) None text (new_unpickler [])))) =
  [EvHandler 0 (Some (VInt 5)); EvHandler 1 None].
Proof. vm_compute. reflexivity. Qed.
