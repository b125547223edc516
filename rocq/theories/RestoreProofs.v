(** Facts about every run of the unpickler, from UGen: termination, no evaluation of code
    strings, fixed class table, independence of the past. *)
From Verif Require Import PyStr Tags Json JsonText B64 B85 Base Heap Registry LoadClass Unpickler UGen.
From Coq Require Import ZifyBool ZifyN ZifyNat.
Open Scope nat_scope.
Open Scope monad_scope.

(** ** Size of documents *)
Fixpoint jw (j : json) : nat :=
  match j with
  | JStr s => S (length s)
  | JList l => S (list_sum (map jw l))
  | JObj o => S (list_sum (map (fun kv => length (fst kv) + 1 + jw (snd kv)) o))
  | _ => 1
  end.
Definition jow (o : jobj) : nat := list_sum (map (fun kv => length (fst kv) + 1 + jw (snd kv)) o).

Lemma jw_pos j : 1 <= jw j.
Proof. destruct j; simpl; lia. Qed.
Lemma list_sum_In x l : In x l -> x <= list_sum l.
Proof. induction l as [|y l IH]; simpl; [tauto|]. intros [->|H]; [lia|]. specialize (IH H). lia. Qed.
Lemma jow_In k v o : In (k, v) o -> length k + 1 + jw v <= jow o.
Proof.
  intros H. unfold jow. apply list_sum_In. apply in_map_iff. exists (k, v). auto.
Qed.
Lemma jow_sset k v o : jow (sset k v o) <= jow o + (length k + 1 + jw v).
Proof.
  unfold jow. induction o as [|[k' v'] o IH]; simpl; [lia|].
  destruct (seqb_spec k k') as [->|N]; simpl; lia.
Qed.
Lemma jow_sbuild o : jow (sbuild o) <= jow o.
Proof.
  unfold sbuild. assert (G : forall a, jow (fold_left (fun d kv => sset (fst kv) (snd kv) d) o a) <= jow a + jow o).
  { induction o as [|[k v] o IH]; intros a; simpl; [unfold jow; simpl; lia|].
    specialize (IH (sset k v a)). pose proof (jow_sset k v a). unfold jow in *. simpl in *. lia. }
  specialize (G []). unfold jow in *. simpl in *. lia.
Qed.

Lemma skip_ws_len s : length (skip_ws s) <= length s.
Proof. induction s as [|c s IH]; simpl; auto. destruct (is_ws c); simpl; lia. Qed.
Lemma pstr_len : forall n s x t, length s <= n -> pstr s = Some (x, t) -> length x + 1 + length t <= length s.
Proof.
  induction n as [|n IH]; intros s x t L H.
  { destruct s; [discriminate|simpl in L; lia]. }
  assert (C : forall c r, pcons c (pstr r) = Some (x, t) -> length r <= n -> length x + 1 + length t <= S (length r)).
  { intros c r E Lr. unfold pcons in E. destruct (pstr r) as [[x' t']|] eqn:E'; [|discriminate].
    inversion E; subst. apply IH in E'; auto. simpl. lia. }
  destruct s as [|c r]; [discriminate|]. simpl in L. cbn [pstr] in H.
  destruct (N.eqb c 34).
  { inversion H; subst. simpl. lia. }
  destruct (N.eqb c 92).
  - destruct r as [|e r1]; [discriminate|]. simpl in L.
    destruct (N.eqb e 117).
    + destruct r1 as [|a1 [|a2 [|a3 [|a4 r2]]]]; try discriminate. simpl in L.
      destruct (unhex4 a1 a2 a3 a4) as [m|]; [|discriminate].
      assert (D : forall c, pcons c (pstr r2) = Some (x, t) ->
                  length x + 1 + length t <= length (c :: e :: a1 :: a2 :: a3 :: a4 :: r2)).
      { intros c' E. apply C in E; [simpl; lia|lia]. }
      destruct (is_high m); [|apply D in H; exact H].
      destruct r2 as [|x1 [|x2 [|b1 [|b2 [|b3 [|b4 r3]]]]]]; try (apply D in H; exact H).
      destruct (_ && _); [|apply D in H; exact H].
      destruct (unhex4 b1 b2 b3 b4) as [m2|]; [|discriminate].
      destruct (is_low m2); [|apply D in H; exact H].
      apply C in H; simpl in *; lia.
    + destruct (simple_esc e); [|discriminate]. apply C in H; simpl; lia.
  - destruct (N.ltb c 32); [discriminate|]. apply C in H; simpl; lia.
Qed.
Lemma span_len s d t : span_digits s = (d, t) -> length d + length t = length s.
Proof.
  revert d t. induction s as [|c s IH]; intros d t; simpl.
  - intros H; inversion H; auto.
  - destruct (is_digit c); [|intros H; inversion H; auto].
    destruct (span_digits s) as [d' t']. intros H; inversion H; subst. simpl. rewrite <- (IH d' t); auto.
Qed.
Lemma pnum_len s v t : pnum s = Some (v, t) -> jw v = 1 /\ 1 + length t <= length s.
Proof.
  unfold pnum. destruct (psign s) as [neg s1] eqn:Es.
  assert (L1 : length s1 <= length s).
  { unfold psign in Es. destruct s as [|c r]; [inversion Es; auto|].
    destruct (N.eqb c 45); inversion Es; subst; simpl; lia. }
  unfold pnum_body. destruct (punsigned s1) as [[ip s2]|] eqn:Eu; [|discriminate].
  assert (L2 : 1 + length s2 <= length s1).
  { unfold punsigned in Eu. destruct s1 as [|c r]; [discriminate|].
    destruct (N.eqb c 48); [inversion Eu; subst; simpl; lia|].
    destruct (is_digit c) eqn:D; [|discriminate]. inversion Eu as [E]. clear Eu.
    cbn [span_digits] in E. rewrite D in E. destruct (span_digits r) as [d' t'] eqn:E2.
    inversion E; subst. apply span_len in E2. simpl. lia. }
  destruct (pfrac s2) as [fp s3] eqn:Ef.
  assert (L3 : length s3 <= length s2).
  { unfold pfrac in Ef. destruct s2 as [|c r]; [inversion Ef; auto|].
    destruct (N.eqb c 46); [|inversion Ef; subst; auto].
    destruct (span_digits r) as [d t'] eqn:E2. apply span_len in E2.
    destruct d; inversion Ef; subst; simpl in *; lia. }
  destruct (pexp s3) as [ep s4] eqn:Ee.
  assert (L4 : length s4 <= length s3).
  { unfold pexp in Ee. destruct s3 as [|c r]; [inversion Ee; auto|].
    destruct (_ || _)%bool; [|inversion Ee; subst; auto].
    destruct r as [|g r']; [inversion Ee; subst; auto|].
    destruct (_ || _)%bool.
    - destruct (span_digits r') as [d t'] eqn:E2. apply span_len in E2.
      destruct d; inversion Ee; subst; simpl in *; lia.
    - destruct (span_digits (g :: r')) as [d t'] eqn:E2. apply span_len in E2.
      destruct d; inversion Ee; subst; simpl in *; lia. }
  destruct (fp ++ ep); intros H; inversion H; subst; simpl; split; lia.
Qed.
Lemma lit_len w v s v' t : lit w v s = Some (v', t) -> v' = v /\ length w + length t = length s.
Proof.
  unfold lit. destruct (prefixb w s) eqn:E; [|discriminate]. intros H. inversion H; subst. split; auto.
  apply prefixb_inv in E. destruct E as (r & ->). rewrite app_length, skipn_app, skipn_all2, Nat.sub_diag by lia.
  reflexivity.
Qed.
Lemma parse_len : forall n,
  (forall s v t, pval n s = Some (v, t) -> jw v + length t <= length s) /\
  (forall s l t, pelems n s = Some (l, t) -> list_sum (map jw l) + 1 + length t <= length s) /\
  (forall s o t, pmembers n s = Some (o, t) -> jow o + 1 + length t <= length s).
Proof.
  induction n as [|n (IHv & IHe & IHm)]; [repeat split; discriminate|].
  repeat split.
  - intros s v t H. cbn [pval] in H. destruct s as [|c r]; [discriminate|].
    destruct (N.eqb c 34).
    { destruct (pstr r) as [[x t']|] eqn:E; inversion H; subst. apply (pstr_len (length r)) in E; auto. simpl. lia. }
    destruct (N.eqb c 123).
    { pose proof (skip_ws_len r) as K. destruct (skip_ws r) as [|d r'] eqn:Er; [discriminate|]. simpl in K.
      destruct (N.eqb d 125); [inversion H; subst; simpl; lia|].
      destruct (pmembers n (d :: r')) as [[o t']|] eqn:E; inversion H; subst.
      apply IHm in E. pose proof (jow_sbuild o). unfold jow in *. simpl in *. lia. }
    destruct (N.eqb c 91).
    { pose proof (skip_ws_len r) as K. destruct (skip_ws r) as [|d r'] eqn:Er; [discriminate|]. simpl in K.
      destruct (N.eqb d 93); [inversion H; subst; simpl; lia|].
      destruct (pelems n (d :: r')) as [[l t']|] eqn:E; inversion H; subst.
      apply IHe in E. simpl in *. lia. }
    assert (L : forall w x, lit w x (c :: r) = Some (v, t) -> 1 <= length w -> jw x = 1 ->
                jw v + length t <= length (c :: r)).
    { intros w x E Lw Jx. apply lit_len in E. destruct E as (-> & E). lia. }
    repeat match type of H with (if ?b then _ else _) = _ => destruct b end;
      try (eapply L; [exact H|vm_compute; lia|reflexivity]).
    apply pnum_len in H. lia.
  - intros s l t H. cbn [pelems] in H. destruct (pval n s) as [[v t1]|] eqn:E; [|discriminate].
    apply IHv in E. pose proof (skip_ws_len t1) as K. destruct (skip_ws t1) as [|c r]; [discriminate|]. simpl in K.
    destruct (N.eqb c 44).
    + destruct (pelems n (skip_ws r)) as [[l' t']|] eqn:E2; [|discriminate]. inversion H; subst.
      apply IHe in E2. pose proof (skip_ws_len r). simpl. lia.
    + destruct (N.eqb c 93); [|discriminate]. inversion H; subst. simpl. lia.
  - intros s o t H. cbn [pmembers] in H. destruct s as [|q r0]; [discriminate|].
    destruct (N.eqb q 34); [|discriminate].
    destruct (pstr r0) as [[k t1]|] eqn:Ek; [|discriminate]. apply (pstr_len (length r0)) in Ek; auto.
    pose proof (skip_ws_len t1) as K1. destruct (skip_ws t1) as [|c r]; [discriminate|]. simpl in K1.
    destruct (N.eqb c 58); [|discriminate].
    destruct (pval n (skip_ws r)) as [[v t2]|] eqn:Ev; [|discriminate]. apply IHv in Ev.
    pose proof (skip_ws_len r) as K2. pose proof (skip_ws_len t2) as K3.
    destruct (skip_ws t2) as [|c2 r2]; [discriminate|]. simpl in K3.
    destruct (N.eqb c2 44).
    + destruct (pmembers n (skip_ws r2)) as [[o' t']|] eqn:E2; [|discriminate]. inversion H; subst.
      apply IHm in E2. pose proof (skip_ws_len r2). unfold jow in *. simpl in *. lia.
    + destruct (N.eqb c2 125); [|discriminate]. inversion H; subst. unfold jow. simpl. lia.
Qed.
Lemma loads_jw s j : loads s = Some j -> jw j <= length s.
Proof.
  unfold loads. intros H.
  assert (G : match pval (S (length s + length s)) (skip_ws s) with
              | Some (v, t) => match skip_ws t with [] => Some v | _ => None end
              | None => None end = Some j).
  { destruct s as [|c s]; [exact H|]. destruct c as [|p]; [exact H|].
    repeat (destruct p as [p|p|]; try exact H; try discriminate). }
  clear H. destruct (pval _ _) as [[v t]|] eqn:E; [|discriminate].
  apply (proj1 (parse_len _)) in E. pose proof (skip_ws_len s).
  destruct (skip_ws t); inversion G; subst. lia.
Qed.

Lemma jw_item x l : In x l -> jw x < jw (JList l).
Proof. intros H. simpl. apply (in_map jw) in H. apply list_sum_In in H. lia. Qed.
Lemma jw_field k x ob : In (k, x) ob -> jw x < jw (JObj ob).
Proof. intros H. apply jow_In in H. unfold jow in H. simpl. lia. Qed.
Lemma jw_char_field k c s ob : In (k, JStr s) ob -> In c s -> jw (JStr [c]) < jw (JObj ob).
Proof.
  intros H I. apply jow_In in H. unfold jow in H. simpl in *. destruct s; [destruct I|simpl in *; lia].
Qed.
Lemma jw_key k (ob : jobj) : In k (keys ob) -> jw (JStr k) < jw (JObj ob).
Proof.
  intros H. unfold keys in H. apply in_map_iff in H. destruct H as ([k' v] & <- & I).
  apply jow_In in I. unfold jow in I. simpl. pose proof (jw_pos v). lia.
Qed.
Lemma jw_pickled k (ob : jobj) j : In k (keys ob) -> prefixb JSON_KEY k = true ->
  loads (skipn (length JSON_KEY) k) = Some j -> jw j < jw (JObj ob).
Proof.
  intros H _ L. apply jw_key in H. apply loads_jw in L. rewrite skipn_length in L. simpl in H. simpl. lia.
Qed.

(** ** Termination *)
Section term.
  Variable w : world.
  Variable o : uopts.
  Hypothesis orc : no_oof w.
  Definition sm_w (a b : json) : Prop := jw a < jw b.
  Hypothesis handlers : forall h ctx ob, script_in sm_w (JObj ob) (w_hrest w h ctx ob).
  Definition halts A (m : MU A) : Prop := forall s, fst (m s) <> OOF.

  Lemma restore_halts : forall n j, jw j <= n -> halts val (restore w o n j).
  Proof.
    induction n as [|n IH]; intros j L; [pose proof (jw_pos j); lia|].
    cbn [restore]. apply (P_step w o halts (fun _ => True)) with (sm := sm_w); unfold halts, sm_w in *.
    - discriminate.
    - discriminate.
    - auto.
    - intros A B m f Hm Hf s. unfold bind. specialize (Hm s). destruct (m s) as [[a|e|] s1] eqn:E; simpl in *.
      + eapply Hf; eauto.
      + discriminate.
      + contradiction.
    - intros A m p h _ Hm Hh s. unfold catch. specialize (Hm s). destruct (m s) as [[a|e|] s1]; simpl in *; auto.
      destruct (p e); auto.
    - discriminate.
    - discriminate.
    - discriminate.
    - intros j0 _ s. unfold u_loadclass, bind, gets, lift. destruct j0; simpl; try (destruct (u_classes s); discriminate).
      destruct (from_classes (u_classes s) s0) eqn:E; simpl; pose proof (loadclass_no_oof w (u_classes s) (JStr s0) orc);
        auto.
    - discriminate.
    - intros j0 s. unfold raw. destruct (alloc_json j0 (u_heap s)). discriminate.
    - discriminate.
    - discriminate.
    - intros v s. unfold umkref. destruct (idx_get v (u_idx s)); discriminate.
    - discriminate.
    - discriminate.
    - intros p v s. unfold swapref. destruct (idx_get p (u_idx s)); discriminate.
    - discriminate.
    - intros; lia.
    - apply jw_item.
    - apply jw_field.
    - apply jw_char_field.
    - apply jw_key.
    - apply jw_pickled.
    - exact handlers.
    - auto.
    - discriminate.
    - intros j' H. apply IH. lia.
  Qed.
  Lemma run_swap_halts x s : fst (run_swap w x s) <> OOF.
  Proof.
    unfold run_swap, bind, gets. destruct (sw_method x).
    - destruct (sw_key x); try discriminate. unfold set_attr.
      destruct (sw_obj x); try discriminate. unfold bind, gets.
      pose proof (inst_setattr_no_oof (w_cls w) (u_heap s) l s0 (proxy_get s (sw_proxy x))) as N.
      destruct (inst_setattr _ _ _ _ _); try discriminate. contradiction.
    - destruct (sw_obj x); try discriminate. unfold get_uobj, bind, gets.
      destruct (hget (u_heap s) l) as [[]|]; simpl; try discriminate.
      + destruct (sw_key x); try discriminate. destruct (_ && _); discriminate.
  Qed.
  Lemma swap_proxies_halts s : fst (swap_proxies w s) <> OOF.
  Proof.
    unfold swap_proxies. unfold bind at 1, gets.
    assert (G : forall l b s, fst (foldM (fun (_ : unit) x => run_swap w x) l b s) <> OOF).
    { induction l as [|x l IH]; intros b s0; simpl; [discriminate|]. unfold bind.
      pose proof (run_swap_halts x s0). destruct (run_swap w x s0) as [[a|e|] s1]; simpl in *; auto; discriminate. }
    unfold bind. specialize (G (u_swaps s) tt s). destruct (foldM _ _ _ _) as [[a|e|] s1]; simpl in *; auto; discriminate.
  Qed.
  Lemma unpickle_halts n reset cl j : jw j <= n -> halts val (unpickle w o n reset cl j).
  Proof.
    intros L s. unfold unpickle.
    assert (B : forall A B (m : MU A) (f : A -> MU B), halts A m -> (forall a, halts B (f a)) -> halts B (bind m f)).
    { intros A B m f H1 H2 s0. unfold bind. specialize (H1 s0). destruct (m s0) as [[a|e|] s1]; simpl in *; auto.
      apply H2. discriminate. }
    apply B; [destruct reset; discriminate|]. intros _. apply B; [destruct cl; discriminate|]. intros _.
    apply B; [apply restore_halts; auto|]. intros v. apply B; [|discriminate].
    destruct reset; [|discriminate]. intros s0. apply swap_proxies_halts.
  Qed.
  Lemma decode_halts n cl text : length text <= n -> halts val (decode w o n cl text).
  Proof.
    intros L s. unfold decode. destruct (loads text) as [j|] eqn:E; [|discriminate].
    apply loads_jw in E. pose proof (unpickle_halts n true cl j ltac:(lia) s) as H.
    unfold bind. destruct (unpickle w o n true cl j s) as [[a|e|] s1]; simpl in *; auto; discriminate.
  Qed.
End term.

(** ** Transitive relations between the state before and after *)
Section pres.
  Variable w : world.
  Variable o : uopts.
  Variable R : ust -> ust -> Prop.
  Definition pres A (m : MU A) : Prop := forall s, R s (snd (m s)).
  Hypothesis R_refl : forall s, R s s.
  Hypothesis R_trans : forall a b c, R a b -> R b c -> R a c.
  Hypothesis R_log : forall e s, plain_event w o e -> R s (us_log (u_log s ++ [e]) s).
  Hypothesis R_load : forall j s, R s (snd (u_loadclass w j s)).
  Hypothesis R_heap : forall h s, R s (us_heap h s).
  Hypothesis R_prox : forall h s, R s (us_prox h s).
  Hypothesis R_objs : forall a b s, R s (us_objs a (us_idx b s)).
  Hypothesis R_swaps : forall h s, R s (us_swaps h s).

  (** When parts of j include a py/repr object and safe is off, evaluation may be logged. *)
  Variable sm : json -> json -> Prop.
  Hypothesis sm_trans : forall a b c, sm a b -> sm b c -> sm a c.
  Hypothesis sm_item : forall x l, In x l -> sm x (JList l).
  Hypothesis sm_field : forall k x ob, In (k, x) ob -> sm x (JObj ob).
  Hypothesis sm_char_field : forall k c s ob, In (k, JStr s) ob -> In c s -> sm (JStr [c]) (JObj ob).
  Hypothesis sm_key : forall k ob, In k (keys ob) -> sm (JStr k) (JObj ob).
  Hypothesis sm_pickled : forall k ob j, In k (keys ob) -> prefixb JSON_KEY k = true ->
    loads (skipn (length JSON_KEY) k) = Some j -> sm j (JObj ob).
  Hypothesis handlers_in : forall h ctx ob, script_in sm (JObj ob) (w_hrest w h ctx ob).
  Definition eval_ok (j : json) : Prop :=
    uo_safe o = false ->
    forall ob, (JObj ob = j \/ sm (JObj ob) j) -> shas REPR ob = true ->
    forall x s, R s (us_log (u_log s ++ [EvEval x]) s).
  Lemma eval_ok_sm a b : sm a b -> eval_ok b -> eval_ok a.
  Proof.
    intros H E F ob [I|I] Hr; apply (E F ob); auto; right; [subst a; auto|eapply sm_trans; eauto].
  Qed.
  Lemma restore_pres : forall n j, eval_ok j -> pres val (restore w o n j).
  Proof.
    induction n as [|n IH]; intros j OK; [intros s; apply R_refl|].
    cbn [restore]. apply (P_step w o pres (fun _ => True)) with (sm := sm); unfold pres in *.
    - intros A a s. apply R_refl.
    - intros A e s. apply R_refl.
    - left. intros A s. apply R_refl.
    - intros A B m f Hm Hf s. unfold bind. specialize (Hm s). destruct (m s) as [[a|e|] s1] eqn:E; simpl in *; auto.
      eapply R_trans; eauto.
    - intros A m p h _ Hm Hh s. unfold catch. specialize (Hm s). destruct (m s) as [[a|e|] s1]; simpl in *; auto.
      destruct (p e); simpl; auto. eapply R_trans; eauto.
    - intros A f _ s. apply R_refl.
    - intros e He _ _ s. apply R_log; auto.
    - intros A e s. apply (R_log (EvRaise e)). exact Logic.I.
    - intros j0 _. apply R_load.
    - intros ob s. apply R_heap.
    - intros j0 s. unfold raw. destruct (alloc_json j0 (u_heap s)). apply R_heap.
    - intros h s. apply R_heap.
    - intros l ob s. apply R_heap.
    - intros v s. unfold umkref. destruct (idx_get v (u_idx s)); simpl; auto.
    - intros s. apply R_prox.
    - intros m v s. apply R_prox.
    - intros p v s. unfold swapref. destruct (idx_get p (u_idx s)); simpl; auto.
    - intros l s. apply R_swaps.
    - exact sm_trans.
    - exact sm_item.
    - exact sm_field.
    - exact sm_char_field.
    - exact sm_key.
    - exact sm_pickled.
    - exact handlers_in.
    - auto.
    - intros ob x T _ Hr F s. apply (OK F ob); auto.
    - intros j' H. apply IH. eapply eval_ok_sm; eauto.
  Qed.
  Lemma swap_proxies_pres : pres unit (swap_proxies w).
  Proof.
    apply (P_swap_proxies w pres); unfold pres in *.
    - intros A a s. apply R_refl.
    - intros A e s. apply R_refl.
    - intros A B m f Hm Hf s. unfold bind. specialize (Hm s). destruct (m s) as [[a|e|] s1] eqn:E; simpl in *; auto.
      eapply R_trans; eauto.
    - intros A f _ s. apply R_refl.
    - intros h s. apply R_heap.
    - intros l ob s. apply R_heap.
    - intros l s. apply R_swaps.
  Qed.
  (** The same for a whole call, when reset and the [classes] argument are covered as well. *)
  Lemma unpickle_pres n reset cl j : eval_ok j ->
    (forall s, reset = true -> R s (snd (u_reset s))) ->
    (forall c s, cl = Some c -> R s (us_classes (register_classes w c (u_classes s)) s)) ->
    pres val (unpickle w o n reset cl j).
  Proof.
    intros OK H1 H2.
    assert (B : forall A B (m : MU A) (f : A -> MU B), pres A m -> (forall a, pres B (f a)) -> pres B (bind m f)).
    { intros A B m f Hm Hf s. unfold bind. specialize (Hm s). destruct (m s) as [[a|e|] s1]; simpl in *; auto.
      eapply R_trans; [exact Hm|apply Hf]. }
    assert (Rt : forall A (a : A), pres A (ret a)) by (intros A a s; apply R_refl).
    unfold unpickle. apply B; [destruct reset; auto; intros s; auto|]. intros _.
    apply B; [destruct cl; auto; intros s; simpl; auto|]. intros _.
    apply B; [apply restore_pres; auto|]. intros v. apply B; auto. destruct reset; auto. apply swap_proxies_pres.
  Qed.
End pres.

(** The instance in which nothing is said about sub-documents. *)
Lemma script_any top sc : script_in (fun _ _ => True) top sc.
Proof. induction sc; simpl; auto. Qed.
Section pres_any.
  Variable w : world.
  Variable o : uopts.
  Variable R : ust -> ust -> Prop.
  Hypothesis R_refl : forall s, R s s.
  Hypothesis R_trans : forall a b c, R a b -> R b c -> R a c.
  Hypothesis R_log : forall e s, (uo_safe o = true -> forall x, e <> EvEval x) -> R s (us_log (u_log s ++ [e]) s).
  Hypothesis R_heap : forall h s, R s (us_heap h s).
  Hypothesis R_prox : forall h s, R s (us_prox h s).
  Hypothesis R_objs : forall a b s, R s (us_objs a (us_idx b s)).
  Hypothesis R_swaps : forall h s, R s (us_swaps h s).
  Lemma any_load j s : R s (snd (u_loadclass w j s)).
  Proof.
    unfold u_loadclass, bind, gets, lift. destruct j; simpl; auto.
    destruct (from_classes (u_classes s) s0); simpl; [apply R_log; discriminate|].
    eapply R_trans; apply R_log; discriminate.
  Qed.
  Lemma any_log e s : plain_event w o e -> R s (us_log (u_log s ++ [e]) s).
  Proof. intros H. apply R_log. intros _ x ->. exact H. Qed.
  Lemma any_eval_ok j : eval_ok o R (fun _ _ => True) j.
  Proof. intros F ob _ _ x s. apply R_log. congruence. Qed.
  Lemma restore_any n j : pres R val (restore w o n j).
  Proof.
    apply restore_pres with (sm := fun _ _ => True); auto using any_eval_ok, any_load, any_log.
    intros. apply script_any.
  Qed.
  Lemma unpickle_any n reset cl j :
    (forall s, reset = true -> R s (snd (u_reset s))) ->
    (forall c s, cl = Some c -> R s (us_classes (register_classes w c (u_classes s)) s)) ->
    pres R val (unpickle w o n reset cl j).
  Proof.
    apply unpickle_pres with (sm := fun _ _ => True); auto using any_eval_ok, any_load, any_log.
    intros. apply script_any.
  Qed.
End pres_any.

(** ** Evaluation *)
Definition no_eval (e : event) : Prop := match e with EvEval _ => False | _ => True end.
Definition grows (Q : event -> Prop) (s s' : ust) : Prop := exists es, u_log s' = u_log s ++ es /\ Forall Q es.
Lemma grows_refl Q s : grows Q s s.
Proof. exists []. rewrite List.app_nil_r. auto. Qed.
Lemma grows_trans Q a b c : grows Q a b -> grows Q b c -> grows Q a c.
Proof.
  intros (e1 & E1 & F1) (e2 & E2 & F2). exists (e1 ++ e2). rewrite E2, E1, List.app_assoc. split; auto.
  apply Forall_app; auto.
Qed.
Lemma grows_log (Q : event -> Prop) e s : Q e -> grows Q s (us_log (u_log s ++ [e]) s).
Proof. intros H. exists [e]. auto. Qed.
Lemma grows_same Q s s' : u_log s' = u_log s -> grows Q s s'.
Proof. intros H. exists []. rewrite List.app_nil_r. auto. Qed.

Lemma unpickle_safe w o n reset cl j s : uo_safe o = true ->
  grows no_eval s (snd (unpickle w o n reset cl j s)).
Proof.
  intros F. apply (unpickle_any w o (grows no_eval)); intros; auto using grows_refl, grows_same.
  - eapply grows_trans; eauto.
  - apply grows_log. specialize (H F). destruct e; simpl; auto. apply (H s1); auto.
Qed.
Lemma decode_safe w o n cl text s : uo_safe o = true -> grows no_eval s (snd (decode w o n cl text s)).
Proof.
  intros F. unfold decode. destruct (loads text); [|apply grows_refl].
  pose proof (unpickle_safe w o n true cl j s F) as H. unfold bind.
  destruct (unpickle w o n true cl j s) as [[a|e|] s1]; simpl in *; exact H.
Qed.

(** ** Handler contexts *)
Definition ctx_ok (w : world) (o : uopts) (e : event) : Prop :=
  match e with EvHandler h ctx => ctx = rest_ctx w o h | _ => True end.
Lemma unpickle_ctx w o n reset cl j s : grows (ctx_ok w o) s (snd (unpickle w o n reset cl j s)).
Proof.
  apply (unpickle_pres w o (grows (ctx_ok w o))) with (sm := fun _ _ => True); intros; auto using grows_refl, grows_same.
  - eapply grows_trans; eauto.
  - apply grows_log. destruct e; simpl in *; auto.
  - unfold u_loadclass, bind, gets, lift. destruct j0; simpl; auto using grows_refl.
    destruct (from_classes (u_classes s0) s1); simpl; [apply grows_log; exact I|].
    eapply grows_trans; apply grows_log; exact I.
  - apply script_any.
  - intros F ob _ _ x s0. apply grows_log. exact I.
Qed.
Lemma decode_ctx w o n cl text s : grows (ctx_ok w o) s (snd (decode w o n cl text s)).
Proof.
  unfold decode. destruct (loads text); [|apply grows_refl].
  pose proof (unpickle_ctx w o n true cl j s) as H. unfold bind.
  destruct (unpickle w o n true cl j s) as [[a|e|] s1]; simpl in *; exact H.
Qed.

(** [part a b]: a is a proper part of b that the unpickler may look at. *)
Inductive part : json -> json -> Prop :=
| part_item x l : In x l -> part x (JList l)
| part_value k x ob : In (k, x) ob -> part x (JObj ob)
| part_char k c s ob : In (k, JStr s) ob -> In c s -> part (JStr [c]) (JObj ob)
| part_key k (ob : jobj) : In k (keys ob) -> part (JStr k) (JObj ob)
| part_pickled k (ob : jobj) j : In k (keys ob) -> prefixb JSON_KEY k = true ->
    loads (skipn (length JSON_KEY) k) = Some j -> part j (JObj ob)
| part_trans a b c : part a b -> part b c -> part a c.
Definition has_part_repr (j : json) : Prop :=
  exists ob, (j = JObj ob \/ part (JObj ob) j) /\ shas REPR ob = true.

Lemma unpickle_norepr w o n reset cl j s :
  (forall h ctx ob, script_in part (JObj ob) (w_hrest w h ctx ob)) -> ~ has_part_repr j ->
  grows no_eval s (snd (unpickle w o n reset cl j s)).
Proof.
  intros Hh Nr. apply (unpickle_pres w o (grows no_eval)) with (sm := part);
    intros; auto using grows_refl, grows_same; try (econstructor; eauto; fail).
  - eapply grows_trans; eauto.
  - apply grows_log. destruct e; simpl in *; auto.
  - unfold u_loadclass, bind, gets, lift. destruct j0; simpl; auto using grows_refl.
    destruct (from_classes (u_classes s0) s1); simpl; [apply grows_log; exact I|].
    eapply grows_trans; apply grows_log; exact I.
  - intros F ob H Hr. exfalso. apply Nr. exists ob. intuition.
Qed.

(** ** The class table *)
Definition table_kept (s s' : ust) : Prop :=
  u_classes s' = u_classes s /\
  exists es, u_log s' = u_log s ++ es /\
             forall m, In (EvImport m) es -> from_classes (u_classes s) m = None.
Lemma table_refl s : table_kept s s.
Proof. split; auto. exists []. rewrite List.app_nil_r. split; auto. intros m []. Qed.
Lemma table_trans a b c : table_kept a b -> table_kept b c -> table_kept a c.
Proof.
  intros (C1 & e1 & E1 & F1) (C2 & e2 & E2 & F2). split; [congruence|].
  exists (e1 ++ e2). rewrite E2, E1, List.app_assoc. split; auto.
  intros m I. apply in_app_iff in I. destruct I as [I|I]; auto. rewrite <- C1. auto.
Qed.
Lemma table_same s s' : u_classes s' = u_classes s -> u_log s' = u_log s -> table_kept s s'.
Proof. intros H1 H2. split; auto. exists []. rewrite List.app_nil_r. split; auto. intros m []. Qed.
Lemma table_log e s : (forall m, e = EvImport m -> from_classes (u_classes s) m = None) ->
  table_kept s (us_log (u_log s ++ [e]) s).
Proof. intros H. split; auto. exists [e]. split; auto. intros m [E|[]]. auto. Qed.
Lemma restore_table w o n j s : table_kept s (snd (restore w o n j s)).
Proof.
  apply (restore_pres w o table_kept) with (sm := fun _ _ => True); intros; auto using table_refl, table_same.
  - eapply table_trans; eauto.
  - apply table_log. intros m ->. destruct H.
  - unfold u_loadclass, bind, gets, lift. destruct j0; simpl; auto using table_refl.
    destruct (from_classes (u_classes s0) s1) eqn:E; simpl; [apply table_log; discriminate|].
    eapply table_trans; apply table_log; [discriminate|]. intros m Em. inversion Em; subst. exact E.
  - apply script_any.
  - intros F ob H Hr x s0. apply table_log. discriminate.
Qed.

(** ** The log is only written *)
Definition logshift (L : list event) (s : ust) : ust := us_log (L ++ u_log s) s.
Definition logpar A (m : MU A) : Prop :=
  forall L s, m (logshift L s) = (fst (m s), logshift L (snd (m s))).
Section logp.
  Variable w : world.
  Variable o : uopts.
  Lemma lp_ret A (a : A) : logpar A (ret a).
  Proof. intros L s. reflexivity. Qed.
  Lemma lp_bind A B (m : MU A) (f : A -> MU B) :
    logpar A m -> (forall a s s', m s = (Ret a, s') -> logpar B (f a)) -> logpar B (bind m f).
  Proof.
    intros Hm Hf L s. unfold bind. rewrite (Hm L s). destruct (m s) as [[a|e|] s1] eqn:E; simpl; auto.
    eapply Hf; eauto.
  Qed.
  Lemma lp_gets A (f : ust -> A) : (forall L s, f (us_log L s) = f s) -> logpar A (gets f).
  Proof. intros H L s. unfold gets, logshift. simpl. rewrite H. reflexivity. Qed.
  Lemma lp_log e : logpar unit (log e).
  Proof. intros L s. unfold log, modify, logshift, us_log. simpl. rewrite List.app_assoc. reflexivity. Qed.
  Lemma lp_set_heap h : logpar unit (modify (us_heap h)).
  Proof. intros L s. reflexivity. Qed.
  Lemma lp_set_obj l ob : logpar unit (set_obj l ob).
  Proof. intros L s. reflexivity. Qed.
  Lemma restore_logpar : forall n j, logpar val (restore w o n j).
  Proof.
    induction n as [|n IH]; intros j; [intros L s; reflexivity|].
    cbn [restore]. apply (P_step w o logpar (fun _ => True)) with (sm := fun _ _ => True); auto using lp_ret, lp_bind, lp_gets, lp_log, lp_set_heap, lp_set_obj.
    - intros A e L s. reflexivity.
    - left. intros A L s. reflexivity.
    - intros A m p h _ Hm Hh L s. unfold catch. rewrite (Hm L s). destruct (m s) as [[a|e|] s1]; simpl; auto.
      destruct (p e); auto. apply Hh.
    - intros A e L s. unfold raised, bind, log, modify, logshift, us_log. simpl. rewrite List.app_assoc. reflexivity.
    - intros j0 _. unfold u_loadclass. apply lp_bind; [apply lp_gets; auto|]. intros cl _ _ _.
      apply lp_bind; [|intros a s s' _ L s0; reflexivity].
      destruct j0; auto using lp_ret. apply lp_bind; auto using lp_log. intros. destruct (from_classes cl s); auto using lp_ret, lp_log.
    - intros ob L s. reflexivity.
    - intros j0 L s. unfold raw, logshift. simpl. destruct (alloc_json j0 (u_heap s)). reflexivity.
    - intros v L s. unfold umkref, logshift. simpl. destruct (idx_get v (u_idx s)); reflexivity.
    - intros L s. reflexivity.
    - intros m v L s. reflexivity.
    - intros p v L s. unfold swapref, logshift. simpl. destruct (idx_get p (u_idx s)); reflexivity.
    - intros l L s. reflexivity.
    - intros. apply script_any.
  Qed.
  Lemma unpickle_logpar n reset cl j : logpar val (unpickle w o n reset cl j).
  Proof.
    unfold unpickle. apply lp_bind; [destruct reset; intros L s; reflexivity|]. intros _ _ _ _.
    apply lp_bind; [destruct cl; intros L s; reflexivity|]. intros _ _ _ _.
    apply lp_bind; [apply restore_logpar|]. intros v _ _ _. apply lp_bind; [|intros _ _ _ _; apply lp_ret].
    destruct reset; [|apply lp_ret].
    apply (P_swap_proxies w logpar); auto using lp_ret, lp_bind, lp_gets, lp_set_heap, lp_set_obj.
    - intros A e L s. reflexivity.
    - intros l L s. reflexivity.
  Qed.
  (** What a new Unpickler would start from, in the memory of s. *)
  Definition fresh_in (s : ust) : ust := mkUst (u_heap s) [] [] (u_prox s) [] [] [].
  Lemma unpickle_history n cl j s :
    unpickle w o n true cl j s =
      (fst (unpickle w o n true cl j (fresh_in s)), logshift (u_log s) (snd (unpickle w o n true cl j (fresh_in s)))).
  Proof.
    rewrite <- unpickle_logpar. unfold unpickle. unfold bind at 1 3, u_reset, modify. simpl.
    unfold logshift, us_log. simpl. rewrite List.app_nil_r. reflexivity.
  Qed.
End logp.
