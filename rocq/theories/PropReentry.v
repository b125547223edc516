(** C80: the context a handler sees. *)
From Verif Require Import Reentry SpecReentry.
From Coq Require Import List Arith Lia. Import ListNotations.
Open Scope nat_scope.

Section act_ind.
  Variable P : act -> Prop.
  Hypothesis HU : P Use.
  Hypothesis HC : forall h c body, Forall P body -> P (Call h c body).
  Fixpoint act_ind2 (a : act) : P a :=
    match a with
    | Use => HU
    | Call h c body => HC h c body ((fix go (l : list act) : Forall P l := match l with [] => Forall_nil _ | a :: r => Forall_cons a (act_ind2 a) (go r) end) body)
    end.
End act_ind.

Section proofs.
  Variables (reg : nat -> registered) (n0 : nat).
  Hypothesis Rn : forall h i, reg h = AsInstance i -> i < n0.
  Notation run_act := (run_act reg).
  Notation run_acts := (run_acts reg).

  Lemma run_call me h c h2 c2 body cells : run_act me h c (Call h2 c2 body) cells =
    let '(me2, cells1) := enter reg h2 c2 cells in run_acts me2 h2 c2 body cells1.
  Proof.
    cbn [Reentry.run_act]. destruct (enter reg h2 c2 cells) as (me2 & cells1). revert cells1.
    induction body as [|a r IH]; intros cells1; [reflexivity|]. cbn [Reentry.run_acts]. destruct (run_act me2 h2 c2 a cells1) as (x & cells2).
    rewrite IH. reflexivity.
  Qed.
  Lemma set_at i (c : nat) cells : i < length cells ->
    let cells' := firstn i cells ++ c :: skipn (S i) cells in
    length cells' = length cells /\ nth_error cells' i = Some c /\ forall j, j <> i -> nth_error cells' j = nth_error cells j.
  Proof.
    revert i. induction cells as [|x cells IH]; intros [|i] L; cbn in L |- *; [lia|lia| |].
    - split; [reflexivity|]. split; [reflexivity|]. intros [|j] N; [contradiction|reflexivity].
    - destruct (IH i) as (A & B & C); [lia|]. cbn in A, B, C. split; [congruence|]. split; [exact B|]. intros [|j] N; [reflexivity|]. cbn. apply C. lia.
  Qed.
  Lemma enter_at h c cells me cells1 : n0 <= length cells -> enter reg h c cells = (me, cells1) ->
    length cells <= length cells1 /\ nth_error cells1 me = Some c /\
    (forall i, reg h = AsInstance i -> me = i) /\ (reg h = AsClass -> me = length cells) /\
    forall j, j < length cells -> reg h <> AsInstance j -> nth_error cells1 j = nth_error cells j.
  Proof.
    intros L E. unfold enter in E. destruct (reg h) as [|i] eqn:R; injection E as <- <-.
    - split; [rewrite app_length; lia|]. split; [rewrite nth_error_app2, Nat.sub_diag by lia; reflexivity|]. split; [discriminate|].
      split; [reflexivity|]. intros j Lj _. apply nth_error_app1; auto.
    - pose proof (Rn h i R) as Li. destruct (set_at i c cells ltac:(lia)) as (A & B & C).
      split; [apply Nat.eq_le_incl; symmetry; exact A|]. split; [exact B|]. split; [intros i2 [= ->]; reflexivity|]. split; [discriminate|]. intros j Lj N. apply C. intros ->. contradiction.
  Qed.

  (** all calls inside leave the context of object j, which is c, as it is *)
  Definition spares (j c : nat) (l : list act) : Prop := forall h2 c2 body2, inside (h2, c2, body2) l -> reg h2 = AsInstance j -> c2 = c.
  Definition fine (l : list act) : Prop := forall x, inside x l -> undisturbed reg x.
  Definition good (me h c : nat) (l : list act) (out : list look * list nat) (cells : list nat) : Prop :=
    length cells <= length (snd out) /\
    (forall j d, nth_error cells j = Some d -> spares j d l -> nth_error (snd out) j = Some d) /\
    (fine l -> nth_error cells me = Some c -> spares me c l -> Forall right_context (fst out)).

  Lemma inside_tail x a l : inside x l -> inside x (a :: l).
  Proof. intros [h c body l0 E I|h c body l0 I H]; [eapply in_here; [exact E|right; exact I]|eapply in_deep; [right; exact I|exact H]]. Qed.
  Lemma inside_head x a l : inside x [a] -> inside x (a :: l).
  Proof. intros X. inversion X as [h c body l0 E I|h c body l0 I H]; subst; destruct I as [->|I]; [eapply in_here; [reflexivity|left; reflexivity]|destruct I|eapply in_deep; [left; reflexivity|exact H]|destruct I]. Qed.

  Lemma acts_good l : Forall (fun a => forall me h c cells, n0 <= length cells -> good me h c [a] (run_act me h c a cells) cells) l ->
    forall me h c cells, n0 <= length cells -> good me h c l (run_acts me h c l cells) cells.
  Proof.
    induction 1 as [|a l Ha _ IH]; intros me h c cells L.
    - cbn. split; [cbn; lia|]. split; [auto|]. constructor.
    - cbn [Reentry.run_acts]. specialize (Ha me h c cells L). destruct (run_act me h c a cells) as (x & cells1). destruct Ha as (A1 & A2 & A3). cbn [fst snd] in *.
      specialize (IH me h c cells1 ltac:(lia)). destruct (run_acts me h c l cells1) as (y & cells2). destruct IH as (B1 & B2 & B3). cbn [fst snd] in *.
      assert (S1 : forall j d, spares j d (a :: l) -> spares j d [a]) by (intros j d S h2 c2 b2 I; apply (S h2 c2 b2); apply inside_head; auto).
      assert (S2 : forall j d, spares j d (a :: l) -> spares j d l) by (intros j d S h2 c2 b2 I; apply (S h2 c2 b2); apply inside_tail; auto).
      split; [cbn; lia|]. split; [intros j d E S; apply B2; auto|].
      intros F M S. cbn [fst]. apply Forall_app. split; [apply A3|apply B3]; auto.
      + intros z I. apply F. apply inside_head; auto.
      + intros z I. apply F. apply inside_tail; auto.
  Qed.
  Lemma act_good a : forall me h c cells, n0 <= length cells -> good me h c [a] (run_act me h c a cells) cells.
  Proof.
    induction a as [|h2 c2 body IH] using act_ind2; intros me h c cells L.
    - cbn. split; [cbn; lia|]. split; [auto|]. intros _ M _. cbn [fst]. constructor; [exact M|constructor].
    - rewrite run_call. destruct (enter reg h2 c2 cells) as (me2 & cells1) eqn:E. destruct (enter_at h2 c2 cells me2 cells1 L E) as (L1 & M2 & Ei & Ec & Eo).
      pose proof (acts_good body IH me2 h2 c2 cells1 ltac:(lia)) as (B1 & B2 & B3). destruct (run_acts me2 h2 c2 body cells1) as (y & cells2). cbn [fst snd] in *.
      assert (SB : forall j d, spares j d [Call h2 c2 body] -> spares j d body).
      { intros j d S h3 c3 b3 I. apply (S h3 c3 b3). eapply in_deep; [left; reflexivity|exact I]. }
      split; [cbn; lia|]. split.
      + intros j d Ej S. cbn [snd]. assert (Lj : j < length cells) by (apply nth_error_Some; congruence).
        apply B2; [|apply SB; exact S]. destruct (reg h2) as [|i] eqn:R.
        * rewrite Eo by (auto; discriminate). exact Ej.
        * destruct (Nat.eq_dec i j) as [->|N].
          -- rewrite <- (Ei j eq_refl). rewrite M2. f_equal. apply (S h2 c2 body); [eapply in_here; [reflexivity|left; reflexivity]|exact R].
          -- rewrite Eo; auto. congruence.
      + intros F _ _. cbn [fst]. apply B3; auto.
        * intros z I. apply F. eapply in_deep; [left; reflexivity|exact I].
        * intros h3 c3 b3 I R3. destruct (reg h2) as [|i] eqn:R.
          -- pose proof (Rn _ _ R3) as X. rewrite (Ec eq_refl) in X. lia.
          -- rewrite (Ei i eq_refl) in R3. pose proof (F (h2, c2, body) ltac:(eapply in_here; [reflexivity|left; reflexivity])) as U. cbn in U. eapply U; eauto.
  Qed.
End proofs.

(** C80.  If, while a handler works for a pickler, the object it is registered as works for no other,
    then every look at self.context gives the pickler that called the handler: for handlers in any
    number, registered as classes or as objects, calls nested to any depth and one after the other,
    whatever the handler objects had as context before. *)
Theorem C80_own_context :
  forall reg cells l,
  (forall h i, reg h = AsInstance i -> i < length cells) ->
  (forall x, In x l -> undisturbed reg x) -> (forall h c body x, In (h, c, body) l -> inside x body -> undisturbed reg x) ->
  Forall right_context (fst (run_calls reg l cells)).
Proof.
  intros reg cells l Rn. assert (L : length cells <= length cells) by lia. revert L. generalize cells at 2 3 as cl.
  induction l as [|((h & c) & body) l IH]; intros cl L U1 U2; [constructor|].
  cbn [run_calls]. destruct (enter reg h c cl) as (me & cells1) eqn:E. destruct (enter_at reg (length cells) Rn h c cl me cells1 L E) as (L1 & M & Ei & Ec & _).
  assert (AG : Forall (fun a => forall me h c cells1, length cells <= length cells1 -> good reg me h c [a] (run_act reg me h c a cells1) cells1) body).
  { apply Forall_forall. intros a _. apply (act_good reg (length cells) Rn). }
  pose proof (acts_good reg (length cells) body AG me h c cells1 ltac:(lia)) as (B1 & B2 & B3).
  destruct (run_acts reg me h c body cells1) as (x & cells2). cbn [fst snd] in *.
  specialize (IH cells2 ltac:(lia)). destruct (run_calls reg l cells2) as (y & cells3). cbn [fst] in *.
  apply Forall_app. split.
  - apply B3; auto.
    + intros z I. apply (U2 h c body); [left; reflexivity|exact I].
    + intros h3 c3 b3 I R3. destruct (reg h) as [|i] eqn:R.
      * pose proof (Rn _ _ R3) as X. rewrite (Ec eq_refl) in X. lia.
      * rewrite (Ei i eq_refl) in R3. pose proof (U1 (h, c, body) (or_introl eq_refl)) as U. cbn in U. eapply U; eauto.
  - apply IH; [intros z I; apply U1; right; exact I|intros h3 c3 b3 z I; apply (U2 h3 c3 b3 z); right; exact I].
Qed.
Print Assumptions C80_own_context.

(** C80.  So handlers that are registered as classes see the pickler that called them, always. *)
Theorem C80_classes :
  forall reg cells l, (forall h, reg h = AsClass) -> Forall right_context (fst (run_calls reg l cells)).
Proof.
  intros reg cells l R. apply C80_own_context.
  - intros h i E. rewrite R in E. discriminate.
  - intros ((h & c) & body) _ i h2 c2 b2 E. rewrite R in E. discriminate.
  - intros h c body ((h1 & c1) & b1) _ _ i h2 c2 b2 E. rewrite R in E. discriminate.
Qed.
Print Assumptions C80_classes.

(** C80.  A handler registered as an object that calls encode, and is reached again from there, has the
    context of the inner call afterwards. *)
Theorem C80_reentered_refuted :
  exists reg cells l, (forall h i, reg h = AsInstance i -> i < length cells) /\
    ~ Forall right_context (fst (run_calls reg l cells)).
Proof.
  exists (fun _ => AsInstance 0), [9], [(0, 1, [Use; Call 0 2 [Use]; Use])]. split.
  - intros h i [= <-]. cbn. lia.
  - intros F. cbn in F. inversion F as [|? ? _ F1]; subst. inversion F1 as [|? ? _ F2]; subst. inversion F2 as [|? ? X _]; subst. discriminate X.
Qed.
Print Assumptions C80_reentered_refuted.

(** Handlers 0 and 2 are objects, 1 is a class: the array handler (0) encodes by its own context an array and a
    frame (1), which is encoded by another pickler with a handler object (2) of its own. *)
Definition reg_re (h : nat) : registered := match h with 0 => AsInstance 0 | 1 => AsClass | _ => AsInstance 1 end.
Definition prog_re : list (nat * nat * list act) :=
  [(0, 1, [Use; Call 0 1 [Use]; Call 1 1 [Use; Call 2 2 [Use; Call 1 2 [Use]]; Use]; Use]); (0, 3, [Use]); (2, 4, [Use])].
Example C80_case :
  (forall h i, reg_re h = AsInstance i -> i < length [7; 7]) /\
  (forall x, In x prog_re -> undisturbed reg_re x) /\ (forall h c body x, In (h, c, body) prog_re -> inside x body -> undisturbed reg_re x) /\
  map (fun k => (k_caller k, k_context k)) (fst (run_calls reg_re prog_re [7; 7])) =
    [(1, Some 1); (1, Some 1); (1, Some 1); (2, Some 2); (2, Some 2); (1, Some 1); (1, Some 1); (3, Some 3); (4, Some 4)].
Proof.
  assert (A : forall h i, reg_re h = AsInstance i -> i < length [7; 7]) by (intros [|[|h]] i [= <-]; cbn; lia).
  assert (D : forall x body, inside x body -> forall L : list (nat * nat * list act), (forall h c b, In (Call h c b) body -> In (h, c, b) L) ->
    (forall h c b h2 c2 b2, In (h, c, b) L -> In (Call h2 c2 b2) b -> In (h2, c2, b2) L) -> In x L).
  { intros x body I. induction I as [h c b l E I|h c b l I _ IH]; intros L H1 H2; [subst; apply H1; auto|].
    apply IH; auto. intros h2 c2 b2 I2. eapply H2; [apply H1; exact I|exact I2]. }
  split; [exact A|]. split; [|split; [|reflexivity]].
  - intros x I. repeat (destruct I as [<-|I]); [..|destruct I]; intros i h2 c2 b2 R J R2.
    + pose proof (D _ _ J [(0, 1, [Use]); (1, 1, [Use; Call 2 2 [Use; Call 1 2 [Use]]; Use]); (2, 2, [Use; Call 1 2 [Use]]); (1, 2, [Use])]) as Q.
      assert (Q1 : In (h2, c2, b2) [(0, 1, [Use]); (1, 1, [Use; Call 2 2 [Use; Call 1 2 [Use]]; Use]); (2, 2, [Use; Call 1 2 [Use]]); (1, 2, [Use])]).
      { apply Q; [intros h c b H|intros h c b h3 c3 b3 H H3]; cbn in H |- *.
        - intuition (try discriminate); match goal with X : Call _ _ _ = _ |- _ => injection X as <- <- <- end; auto 10.
        - intuition (try discriminate); match goal with X : (_, _, _) = _ |- _ => injection X as <- <- <- end; cbn in H3; intuition (try discriminate);
            match goal with X : Call _ _ _ = _ |- _ => injection X as <- <- <- end; auto 10. }
      cbn in Q1, R. injection R as <-. intuition (try discriminate); match goal with X : (_, _, _) = (_, _, _) |- _ => injection X as <- <- <- end; cbn in R2; try discriminate R2; reflexivity.
    + inversion J as [h c b l E K|h c b l K _]; destruct K as [K|[]]; discriminate K.
    + inversion J as [h c b l E K|h c b l K _]; destruct K as [K|[]]; discriminate K.
  - intros h c body x I J. repeat (destruct I as [I|I]); [..|destruct I]; injection I as <- <- <-.
    + pose proof (D _ _ J [(0, 1, [Use]); (1, 1, [Use; Call 2 2 [Use; Call 1 2 [Use]]; Use]); (2, 2, [Use; Call 1 2 [Use]]); (1, 2, [Use])]) as Q.
      assert (Q1 : In x [(0, 1, [Use]); (1, 1, [Use; Call 2 2 [Use; Call 1 2 [Use]]; Use]); (2, 2, [Use; Call 1 2 [Use]]); (1, 2, [Use])]).
      { apply Q; [intros h c b H|intros h c b h3 c3 b3 H H3]; cbn in H |- *.
        - intuition (try discriminate); match goal with X : Call _ _ _ = _ |- _ => injection X as <- <- <- end; auto 10.
        - intuition (try discriminate); match goal with X : (_, _, _) = _ |- _ => injection X as <- <- <- end; cbn in H3; intuition (try discriminate);
            match goal with X : Call _ _ _ = _ |- _ => injection X as <- <- <- end; auto 10. }
      cbn in Q1. repeat (destruct Q1 as [<-|Q1]); [..|destruct Q1]; intros i h2 c2 b2 R K R2; cbn in R; try discriminate R.
      * inversion K as [h c b l E K1|h c b l K1 _]; destruct K1 as [K1|[]]; discriminate K1.
      * injection R as <-. inversion K as [h c b l E K1|h c b l K1 K2]; subst; cbn in K1; intuition (try discriminate).
        -- match goal with X : Call _ _ _ = _ |- _ => injection X as <- <- <- end. injection E as -> -> ->. discriminate R2.
        -- match goal with X : Call _ _ _ = _ |- _ => injection X as <- <- <- end. inversion K2 as [h c b l E K3|h c b l K3 _]; destruct K3 as [K3|[]]; discriminate K3.
    + inversion J as [h c b l E K|h c b l K _]; destruct K as [K|[]]; discriminate K.
    + inversion J as [h c b l E K|h c b l K _]; destruct K as [K|[]]; discriminate K.
Qed.
