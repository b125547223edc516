(** Round trip, part 6: the encoder writes escaped and plain string keys of a dict in the
    order of the dict; what it writes is, up to the order of the entries, what it would write
    if the escaped keys came after the plain ones. *)
From Verif Require Import PyStr Tags Json JsonText JsonTextProofs B64 B85 Base Heap Registry LoadClass Pickler Unpickler SpecGraph.
From Verif Require Import CodecProofs PlainProofs WP RTBase RTStep RTPure RTDesc SpecRefs RTWalk RTCont.
From Coq Require Import Permutation.
Open Scope nat_scope.
Local Open Scope monad_scope.

Definition jk (o : pystr * json) : bool := prefixb JSON_KEY (fst o).
Definition same (d1 d2 : jobj) : Prop := filter jk d1 = filter jk d2 /\ filter (fun o => negb (jk o)) d1 = filter (fun o => negb (jk o)) d2.
Lemma filter_sset (p : pystr -> bool) x j d : filter (fun o : pystr * json => p (fst o)) (sset x j d) = if p x then sset x j (filter (fun o => p (fst o)) d) else filter (fun o => p (fst o)) d.
Proof.
  induction d as [|[y i] d IH]; simpl.
  - destruct (p x); auto.
  - destruct (seqb_spec x y) as [->|N]; simpl.
    + destruct (p y); simpl; auto. rewrite seqb_refl. auto.
    + rewrite IH. destruct (p y) eqn:P; destruct (p x); simpl; auto.
      destruct (seqb_spec x y); [congruence|]. auto.
Qed.
Lemma same_refl d : same d d.
Proof. split; auto. Qed.
Lemma same_trans a b c : same a b -> same b c -> same a c.
Proof. intros [A B] [C D]. split; congruence. Qed.
Lemma same_sym a b : same a b -> same b a.
Proof. intros [A B]. split; congruence. Qed.
Lemma same_sset x j d1 d2 : same d1 d2 -> same (sset x j d1) (sset x j d2).
Proof.
  intros [A B]. unfold same, jk in *. split.
  - rewrite !(filter_sset (prefixb JSON_KEY)), A. auto.
  - rewrite !(filter_sset (fun y => negb (prefixb JSON_KEY y))), B. auto.
Qed.
Lemma same_comm x j y i d : prefixb JSON_KEY x = true -> prefixb JSON_KEY y = false ->
  same (sset x j (sset y i d)) (sset y i (sset x j d)).
Proof.
  intros X Y. unfold same, jk. split.
  - rewrite !(filter_sset (prefixb JSON_KEY)), X, Y. auto.
  - rewrite !(filter_sset (fun z => negb (prefixb JSON_KEY z))), X, Y. auto.
Qed.
Lemma same_perm d1 d2 : same d1 d2 -> Permutation d1 d2.
Proof.
  intros [A B]. assert (X : forall d, Permutation d (filter jk d ++ filter (fun o => negb (jk o)) d)).
  { induction d as [|o d IH]; simpl; auto. destruct (jk o); simpl; [constructor; auto|]. rewrite <- Permutation_middle. constructor; auto. }
  rewrite (X d1), A, B. symmetry. apply X.
Qed.

(** Documents of immutable values have no objects with a number and no references. *)
Lemma walk_pure keys w po v n : pure v = true -> walk keys n (pdoc w po v) n.
Proof.
  induction v as [|x|x|x|x|x|l IH|x|x|x|x|x|x|x] using val_ind'; intros P; try discriminate; try (apply walk_scalar; reflexivity).
  - cbn [pdoc]. unfold flatten_bytestring. destruct (po_b85 po); (apply walk_leaf; [simpl; tauto|reflexivity]).
  - cbn [pdoc]. unfold tdoc. apply walk_group; [left; auto|]. cbn [pure] in P. induction l as [|x l IHl]; [apply walks_nil|].
    cbn [map]. cbn [forallb] in P. apply andb_true_iff in P as [P1 P2]. inversion IH; subst. eapply walks_cons; eauto.
  - cbn [pdoc]. apply walk_leaf; [simpl; tauto|reflexivity].
  - cbn [pdoc]. unfold tdoc. apply walk_leaf; [simpl; tauto|reflexivity].
Qed.

(** [d2] is [d1] with some entries written earlier; if none of the [c] entries expected is missing,
    references count the same. *)
Section moved.
  Variable keys : bool.
  Definition moved (c : nat) (d1 d2 : jobj) : Prop :=
    same d1 d2 /\ length d1 <= c /\ (length d1 = c -> forall n n', walkf keys n d1 n' -> walkf keys n d2 n').
  Lemma same_len d1 d2 : same d1 d2 -> length d1 = length d2.
  Proof. intros H. apply Permutation_length, same_perm; auto. Qed.
  Lemma moved_refl c d : length d <= c -> moved c d d.
  Proof. split; [apply same_refl|]. split; auto. Qed.
  Lemma moved_trans c d1 d2 d3 : moved c d1 d2 -> moved c d2 d3 -> moved c d1 d3.
  Proof.
    intros (A & B & C) (D & E & F). split; [eapply same_trans; eauto|]. split; auto. intros L n n' W.
    apply F; [|apply C; auto]. rewrite <- (same_len _ _ A). auto.
  Qed.
  Lemma same_in d1 d2 x : same d1 d2 -> In x (Json.keys d1) <-> In x (Json.keys d2).
  Proof. intros H. apply same_perm in H. unfold Json.keys. split; apply Permutation_in, Permutation_map; auto. symmetry; auto. Qed.
  Lemma sset_len x j (d : jobj) : length (sset x j d) <= S (length d).
  Proof. induction d as [|[y i] d IH]; simpl; auto. destruct (seqb x y); simpl; lia. Qed.
  Lemma sset_len_in x j (d : jobj) : In x (Json.keys d) -> length (sset x j d) = length d.
  Proof.
    induction d as [|[y i] d IH]; simpl; [intros []|]. destruct (seqb_spec x y) as [->|N]; simpl; auto.
    intros [E|H]; [congruence|]. rewrite IH; auto.
  Qed.
  Lemma sset_len_new x j (d : jobj) : length (sset x j d) = S (length d) -> ~ In x (Json.keys d).
  Proof. intros L C. rewrite (sset_len_in x j d C) in L. lia. Qed.
  Lemma moved_sset c x j d1 d2 : moved c d1 d2 -> moved (S c) (sset x j d1) (sset x j d2).
  Proof.
    intros (A & B & C). split; [apply same_sset; auto|]. split; [pose proof (sset_len x j d1); lia|].
    intros L n n' W. pose proof (sset_len x j d1) as L1. assert (E : length d1 = c) by lia.
    assert (N : ~ In x (Json.keys d1)) by (apply (sset_len_new x j); lia).
    rewrite (sset_app x j d1) in W by auto. rewrite (sset_app x j d2) by (rewrite <- same_in; eauto).
    apply walkf_split in W as (n1 & W1 & W2). eapply walkf_app; [apply C; eauto|exact W2].
  Qed.
  Lemma moved_skip c d1 d2 : moved c d1 d2 -> moved (S c) d1 d2.
  Proof. intros (A & B & C). split; auto. split; [lia|]. intros L. lia. Qed.
  Lemma moved_swap c x j y i d : prefixb JSON_KEY x = true -> prefixb JSON_KEY y = false ->
    (forall n, walkf keys n [(x, j)] n) -> length d <= c ->
    moved (S (S c)) (sset x j (sset y i d)) (sset y i (sset x j d)).
  Proof.
    intros X Y P L. split; [apply same_comm; auto|]. pose proof (sset_len y i d) as L1. pose proof (sset_len x j (sset y i d)) as L2.
    split; [lia|]. intros E n n' W. assert (NX : ~ In x (Json.keys (sset y i d))) by (apply (sset_len_new x j); lia).
    assert (NY : ~ In y (Json.keys d)) by (apply (sset_len_new y i); lia).
    rewrite (sset_app x j) in W by auto. rewrite (sset_app y i d) in * by auto.
    assert (NX' : ~ In x (Json.keys d)).
    { intros C. apply NX. unfold Json.keys in *. rewrite map_app. apply in_or_app; auto. }
    rewrite (sset_app x j d) by auto. rewrite (sset_app y i).
    2: { unfold Json.keys in *. rewrite map_app. intros C. apply in_app_or in C as [C|[C|[]]]; auto. cbn [fst] in C. congruence. }
    apply walkf_split in W as (n2 & W & W3). apply walkf_split in W as (n1 & W1 & W2).
    assert (n' = n2) by (eapply walkf_det; eauto). subst n'.
    eapply walkf_app; [|exact W2]. eapply walkf_app; eauto.
  Qed.
End moved.

Section order.
  Variables (w : world) (k : hooks) (keys : bool) (cl : list (pystr * val)) (h : heap) (po : popts).
  Notation supported := (supported w k keys cl h).
  Notation pdoc := (pdoc w po).
  Hypothesis Ou : po_unpicklable po = true.
  Hypothesis Or : po_make_refs po = true.
  Hypothesis Od : po_max_depth po = None.
  Hypothesis Os : po_sort po = false.
  Hypothesis Ok : po_keys po = keys.
  Hypothesis EK : keys = true.
  Variable n : nat.
  Notation fl := (flatten w k po n).
  Notation estep := (estep w k keys po n).
  Notation gstep := (gstep w k keys po n).

  Definition upd (r d : jobj) : jobj := match r with (x, j) :: _ => sset x j d | [] => d end.
  Lemma estep_upd dt kv s : estep dt kv s = (r <- estep [] kv ;; ret (upd r dt)) s.
  Proof.
    unfold RTCont.estep. rewrite EK. destruct kv as [q v]. cbn [fst snd]. destruct (is_str q) eqn:T.
    - destruct q; try discriminate. unfold flatten_string_key_value_pair, bind, gets. cbv beta iota.
      destruct ((prefixb JSON_KEY s0 || is_reserved s0) && po_keys po).
      + unfold bind. destruct (escape_key _ _ _ _ _) as [[ks|e|] s1]; auto. destruct (fl v s1) as [[j|e|] s2]; auto.
      + destruct (negb _); [reflexivity|]. unfold bind. destruct (fl v s) as [[j|e|] s2]; auto.
    - unfold flatten_non_string_key_value_pair, bind, gets. cbv beta iota.
      destruct (negb _); [reflexivity|]. rewrite Ok, EK. destruct q; try discriminate; unfold bind;
      destruct (escape_key _ _ _ _ _) as [[ks|e|] s1]; auto; destruct (fl v s1) as [[j|e|] s2]; auto.
  Qed.
  (** The step, as a result and its use. *)
  Lemma estep_cases dt kv s : match estep [] kv s with
    | (Ret r, s1) => estep dt kv s = (Ret (upd r dt), s1)
    | (Exc e, s1) => estep dt kv s = (Exc e, s1)
    | (OOF, s1) => estep dt kv s = (OOF, s1)
    end.
  Proof. rewrite (estep_upd dt). unfold bind. destruct (estep [] kv s) as [[r|e|] s1]; reflexivity. Qed.
  Lemma upd_moved c r d1 d2 : moved keys c d1 d2 -> moved keys (S c) (upd r d1) (upd r d2).
  Proof. intros H. destruct r as [|[x j] r]; simpl; [apply moved_skip; auto|]. apply moved_sset; auto. Qed.
  Lemma upd_len r d : length (upd r d) <= S (length d).
  Proof. destruct r as [|[x j] r]; simpl; auto. apply sset_len. Qed.
  Lemma estep_len kv dt s d s1 : estep dt kv s = (Ret d, s1) -> length d <= S (length dt).
  Proof.
    intros E. pose proof (estep_cases dt kv s) as C. destruct (estep [] kv s) as [[r|e|] s2]; rewrite C in E; inversion E; subst. apply upd_len.
  Qed.
  Lemma gfold_len its : forall dt s d s1, foldM gstep its dt s = (Ret d, s1) -> length d <= length dt + length its.
  Proof.
    induction its as [|kv its IH]; intros dt s d s1 E; cbn [foldM] in E; [inversion E; subst; lia|].
    apply bind_ret_inv in E as (d1 & s2 & E1 & E2). unfold RTCont.gstep in E1. destruct (0 <=? p_depth s)%Z; [|discriminate].
    apply estep_len in E1. apply IH in E2. cbn [length]. lia.
  Qed.

  Lemma gfold_moved its : forall c d1 d2 s Q, moved keys c d1 d2 -> wp (foldM gstep its d1) s Q ->
    wp (foldM gstep its d2) s (fun d s' => exists d', moved keys (c + length its) d' d /\ Q d' s').
  Proof.
    induction its as [|kv its IH]; intros c d1 d2 s Q H W; cbn [foldM length] in *.
    - exists d1. rewrite Nat.add_0_r. auto.
    - apply wp_bind. apply wp_bind_inv in W. apply gstep_wp in W as [D W]. apply wp_gstep; auto.
      pose proof (estep_cases d1 kv s) as E1. pose proof (estep_cases d2 kv s) as E2. unfold wp in *.
      destruct (estep [] kv s) as [[r|e|] s1]; rewrite E1 in W; rewrite E2; auto.
      rewrite <- Nat.add_succ_comm. apply (IH (S c) (upd r d1)); [apply upd_moved; auto | exact W].
  Qed.

  (** An escaped key with an immutable value leaves no trace in the encoder's state. *)
  Lemma flatten_pure_total v : forall n s, pure v = true -> supported v -> (0 <= p_depth s)%Z -> vdepth v < n ->
    flatten w k po n v s = (Ret (pdoc v), s).
  Proof.
    induction v as [|x|x|x|x|x|l IH|x|x|x|x|x|x|x] using val_ind'; intros n0 s P S D L; try discriminate;
      (destruct n0 as [|n0]; [lia|]); rewrite (flatten_S w k po Ou Or); try reflexivity.
    - unfold flatten_impl. cbn [prim_json]. unfold bind at 1, gets. cbv beta iota.
      unfold push, modify, bind at 1. cbv beta iota.
      set (s1 := set_depth (p_depth s + 1)%Z s).
      assert (D1 : (0 <= p_depth s1)%Z) by (unfold s1; simpl; lia).
      assert (X : mapM (flatten w k po n0) l s1 = (Ret (map pdoc l), s1)).
      { cbn [pure] in P. assert (S' : forall x, In x l -> supported x) by (intros; eapply supported_tuple; eauto). clear S.
        induction l as [|x l IHl]; [reflexivity|]. cbn [mapM]. apply andb_true_iff in P as [P1 P2]. rewrite vdepth_cons in L.
        pose proof (Forall_inv IH) as IHx. pose proof (Forall_inv_tail IH) as IHt.
        unfold bind at 1. rewrite IHx; auto; [|apply S'; left; auto|lia]. cbv beta iota.
        unfold bind. rewrite IHl; auto; [lia|]. intros; apply S'; right; auto. }
      unfold flatten_obj, max_reached, in_cycle. rewrite Od, Or. unfold bind, gets, get, ret, catch. cbn [negb orb andb].
      unfold get_flattener, list_recurse, bind, ret. rewrite X, Ou. unfold pop, bind, modify, ret, s1. destruct s; cbn in *.
      replace (p_depth + 1 - 1)%Z with p_depth by lia. destruct (Z.eqb_spec p_depth (-1)); [lia|]. reflexivity.
    - unfold flatten_impl. cbn [prim_json]. unfold bind at 1, gets. cbv beta iota.
      unfold flatten_obj, max_reached, in_cycle, push, pop. rewrite Od, Or. unfold bind, gets, get, modify, ret, catch. cbn [negb orb andb].
      cbn [get_flattener]. unfold ret. destruct s; cbn in *.
      replace (p_depth + 1 - 1)%Z with p_depth by lia. destruct (Z.eqb_spec p_depth (-1)); [lia|]. reflexivity.
    - unfold flatten_impl. cbn [prim_json]. unfold bind at 1, gets. cbv beta iota.
      unfold flatten_obj, max_reached, in_cycle, push, pop. rewrite Od, Or. unfold bind, gets, get, modify, ret, catch. cbn [negb orb andb].
      cbn [get_flattener]. destruct (supported_node _ _ _ _ _ _ S) as (M & _). simpl in M. rewrite M.
      unfold ret, flatten_function. rewrite Ou. destruct s; cbn in *.
      replace (p_depth + 1 - 1)%Z with p_depth by lia. destruct (Z.eqb_spec p_depth (-1)); [lia|]. reflexivity.
  Qed.
  Lemma esc_step a v dt s : escaped keys a = true -> pure v = true -> supported v -> (0 <= p_depth s)%Z -> vdepth v < n ->
    estep dt (VStr a, v) s = (Ret (sset (JSON_KEY ++ dumps (JStr a)) (pdoc v) dt), s).
  Proof.
    intros E P S D L. unfold RTCont.estep. rewrite EK. cbn [fst snd is_str].
    unfold flatten_string_key_value_pair, bind at 1, gets. cbv beta iota. rewrite Ok, EK.
    unfold escaped in E. rewrite EK in E. cbn [andb] in E. rewrite E. cbn [andb].
    unfold escape_key, pflatten. rewrite Os. destruct n as [|n']; [lia|].
    unfold bind, ret. cbn [flatten]. unfold flatten_step at 1. rewrite Ou, Or. cbn [andb].
    unfold flatten_impl at 1, bind, gets. cbn [prim_json].
    pose proof (flatten_pure_total v (Datatypes.S n') s P S D L) as F. cbn [flatten] in F. unfold ret. rewrite F. reflexivity.
  Qed.
  Lemma esc_step_oof a v dt s Q : escaped keys a = true -> pure v = true -> supported v -> (0 <= p_depth s)%Z -> ~ vdepth v < n ->
    wp (estep dt (VStr a, v)) s Q.
  Proof.
    intros E P S D L. unfold RTCont.estep. rewrite EK. cbn [fst snd is_str].
    unfold flatten_string_key_value_pair. apply wp_bind, wp_gets. rewrite Ok, EK.
    unfold escaped in E. rewrite EK in E. cbn [andb] in E. rewrite E. cbn [andb].
    apply wp_bind. unfold escape_key, pflatten. rewrite Os. apply wp_bind, wp_bind, wp_ret, wp_bind, wp_ret.
    apply wp_mono with (Q := fun _ s1 => s1 = s).
    - destruct n as [|n']; [exact I|]. rewrite (flatten_S w k po Ou Or). reflexivity.
    - intros j s1 _ ->. apply wp_ret, wp_bind.
      eapply wp_mono; [apply (flatten_pure w k keys cl h po); auto|]. intros j1 s1 _ (_ & _ & X). contradiction.
  Qed.
  Lemma estep_plain a v s r s1 : escaped keys a = false -> estep [] (VStr a, v) s = (Ret r, s1) -> r = [] \/ exists j, r = [(a, j)].
  Proof.
    intros E. unfold RTCont.estep. rewrite EK. cbn [fst snd is_str].
    unfold flatten_string_key_value_pair, bind at 1, gets. cbv beta iota. rewrite Ok, EK.
    unfold escaped in E. rewrite EK in E. cbn [andb] in E. rewrite E. cbn [andb].
    destruct (negb _); [unfold ret; intros [= <- <-]; auto|]. unfold bind. destruct (fl v s) as [[j|e|] s2]; unfold ret; intros X; [|discriminate|discriminate].
    injection X as <- <-. right. exists j. reflexivity.
  Qed.

  Definition plain_item (kv : val * val) : Prop := exists a, fst kv = VStr a /\ escaped keys a = false.
  Lemma wp_move A a v B : Forall plain_item A -> str_ok a = true -> escaped keys a = true -> pure v = true -> supported v -> vdepth v < n ->
    forall c dt s Q, (0 <= p_depth s)%Z -> length dt <= c -> wp (foldM gstep (A ++ (VStr a, v) :: B) dt) s Q ->
    wp (foldM gstep (A ++ B) (sset (JSON_KEY ++ dumps (JStr a)) (pdoc v) dt)) s (fun d s' => exists d', moved keys (S c + length (A ++ B)) d' d /\ Q d' s').
  Proof.
    intros HA OKA E P S L. assert (ESC : forall n, walkf keys n [(JSON_KEY ++ dumps (JStr a), pdoc v)] n).
    { intros n0. eapply walkf_key; [exact EK| |apply walk_scalar; reflexivity|apply walk_pure; auto|apply walkf_nil].
      cbn [jwf]. exact OKA. }
    induction HA as [|[q u] A (x & X1 & X2) HA IH]; intros c dt s Q D LC W; cbn [app foldM] in *.
    - apply wp_bind_inv in W. apply gstep_wp in W as [_ W]. unfold wp in W at 1. rewrite esc_step in W by auto.
      eapply wp_mono; [exact W|]. intros d s1 ED HQ. exists d. split; auto. apply moved_refl.
      apply gfold_len in ED. pose proof (sset_len (JSON_KEY ++ dumps (JStr a)) (pdoc v) dt). lia.
    - cbn [fst] in X1. subst q. apply wp_bind. apply wp_bind_inv in W. apply gstep_wp in W as [D' W]. apply wp_gstep; auto.
      pose proof (estep_cases dt (VStr x, u) s) as E1.
      pose proof (estep_cases (sset (JSON_KEY ++ dumps (JStr a)) (pdoc v) dt) (VStr x, u) s) as E2. unfold wp in W at 1. unfold wp at 1.
      destruct (estep [] (VStr x, u) s) as [[r|e|] s1] eqn:R; rewrite E1 in W; rewrite E2; auto.
      destruct (Z.leb_spec 0 (p_depth s1)) as [D1|D1].
      + apply (IH (Datatypes.S c)) in W; auto; [|pose proof (upd_len r dt); lia].
        eapply wp_mono; [eapply (gfold_moved _ (Datatypes.S (Datatypes.S c))); [|exact W]|].
        * destruct (estep_plain x u s r s1 X2 R) as [->|[j ->]]; cbn [upd].
          { apply moved_skip, moved_refl. pose proof (sset_len (JSON_KEY ++ dumps (JStr a)) (pdoc v) dt). lia. }
          apply moved_swap; auto. unfold escaped in X2. rewrite EK in X2. cbn [andb] in X2.
          apply orb_false_iff in X2 as [X2 _]. exact X2.
        * intros d s2 _ (d1 & S1 & d2 & S2 & HQ). exists d2. split; auto. cbn [length]. rewrite <- Nat.add_succ_comm. eapply moved_trans; eauto.
      + exfalso. destruct A as [|kv A]; cbn [app foldM] in W; apply wp_bind_inv in W; apply gstep_wp in W as [W _]; lia.
  Qed.
  Lemma split_len (L N : list (val * val)) : (forall kv, In kv L -> is_str (fst kv) = true) ->
    length (filter (fun kv => is_str (fst kv) && negb (is_escaped keys (fst kv))) L ++ filter (fun kv => is_escaped keys (fst kv)) L ++ N) = length (L ++ N).
  Proof.
    induction L as [|kv L IH]; intros H; [reflexivity|]. cbn [filter]. rewrite (H kv) by (left; auto).
    specialize (IH (fun x Hx => H x (or_intror Hx))). rewrite !app_length in *.
    destruct (is_escaped keys (fst kv)); cbn [negb andb length]; lia.
  Qed.
  Lemma wp_reorder L N : (forall kv, In kv L -> is_str (fst kv) = true /\ supported (fst kv) /\ supported (snd kv)) -> order_ok keys L ->
    forall c dt s Q, (0 <= p_depth s)%Z -> length dt <= c ->
    wp (foldM gstep (filter (fun kv => is_str (fst kv) && negb (is_escaped keys (fst kv))) L ++ filter (fun kv => is_escaped keys (fst kv)) L ++ N) dt) s Q ->
    wp (foldM gstep (L ++ N) dt) s (fun d s' => exists d', moved keys (c + length (L ++ N)) d' d /\ Q d' s').
  Proof.
    induction L as [|[q v] L IH]; intros HL HO c dt s Q D LC W; cbn [filter app] in *.
    - eapply wp_mono; [exact W|]. intros d s1 ED HQ. exists d. split; auto. apply moved_refl. apply gfold_len in ED. lia.
    - destruct (HL (q, v) (or_introl eq_refl)) as (Tq & Sq & Sv). cbn [fst snd] in *. rewrite Tq in W. cbn [andb] in W.
      destruct q as [| | | |a| | | | | | | | |]; try discriminate. destruct HO as [HO1 HO2].
      assert (HL' : forall kv, In kv L -> is_str (fst kv) = true /\ supported (fst kv) /\ supported (snd kv)) by (intros; apply HL; right; auto).
      cbn [is_escaped] in *. destruct (escaped keys a) eqn:E; cbn [negb] in W.
      + destruct (HO1 eq_refl) as [P|P].
        * cbn [foldM]. apply wp_bind, wp_gstep; auto. destruct (Nat.lt_ge_cases (vdepth v) n) as [V|V]; [|apply esc_step_oof; auto; lia].
          rewrite <- app_comm_cons in W. apply (wp_move _ a v _) with (c := c) in W; auto.
          -- unfold wp at 1. rewrite esc_step by auto. apply (IH HL' HO2 (S c)) in W; auto; [|pose proof (sset_len (JSON_KEY ++ dumps (JStr a)) (pdoc v) dt); lia].
             eapply wp_mono; [exact W|]. intros d s2 _ (d1 & S1 & d2 & S2 & HQ). exists d2. split; auto. cbn [length]. rewrite <- Nat.add_succ_comm.
             eapply moved_trans; [|exact S1]. rewrite split_len in S2 by (intros; apply HL'; auto). exact S2.
          -- rewrite Forall_forall. intros kv Hkv. apply filter_In in Hkv as [_ Hkv]. apply andb_true_iff in Hkv as [T1 T2].
             destruct (fst kv) eqn:F; try discriminate. exists s0. split; auto. apply negb_true_iff in T2. exact T2.
          -- exact (supported_node _ _ _ _ _ _ Sq).
        * assert (F1 : filter (fun kv => is_str (fst kv) && negb (is_escaped keys (fst kv))) L = []).
          { clear - P HL'. induction L as [|kv L IHL]; auto. simpl. rewrite (P kv); [|left; auto|apply HL'; left; auto].
            rewrite andb_false_r. apply IHL; intros; first [apply HL'; right; assumption|apply P; [right|]; assumption]. }
          assert (F2 : filter (fun kv => is_escaped keys (fst kv)) L = L).
          { clear - P HL'. induction L as [|kv L IHL]; auto. simpl. rewrite (P kv); [|left; auto|apply HL'; left; auto].
            f_equal. apply IHL; intros; first [apply HL'; right; assumption|apply P; [right|]; assumption]. }
          rewrite F1, F2 in W. eapply wp_mono; [exact W|]. intros d s1 ED HQ. exists d. split; auto. apply moved_refl. apply gfold_len in ED. cbn [length app] in *. lia.
      + cbn [app foldM] in *. apply wp_bind. apply wp_bind_inv in W. apply gstep_wp in W as [_ W]. apply wp_gstep; auto.
        eapply wp_mono; [exact W|]. cbv beta. intros d s1 ED W1.
        assert (LD : length d <= S c).
        { apply estep_len in ED. lia. }
        cbn [length]. rewrite <- Nat.add_succ_comm.
        destruct (Z.leb_spec 0 (p_depth s1)) as [D1|D1]; [apply IH; auto|].
        assert (X : L ++ N = []).
        { destruct L as [|kv L].
          - destruct N as [|kv N]; auto. cbn [filter app foldM] in W1. apply wp_bind_inv, gstep_wp in W1 as [W1 _]. lia.
          - exfalso. destruct (HL' kv (or_introl eq_refl)) as [T1 _]. cbn [filter] in W1. rewrite T1 in W1.
            assert (Y : exists kv' its, filter (fun kv => is_str (fst kv) && negb (is_escaped keys (fst kv))) (kv :: L) ++ filter (fun kv => is_escaped keys (fst kv)) (kv :: L) ++ N = kv' :: its).
            { cbn [filter]. rewrite T1. destruct (is_escaped keys (fst kv)); cbn [negb andb app]; [|eauto].
              destruct (filter (fun kv => is_str (fst kv) && negb (is_escaped keys (fst kv))) L); cbn [app]; eauto. }
            destruct Y as (kv' & its & Y). cbn [filter] in Y. rewrite T1 in Y. rewrite Y in W1. cbn [foldM] in W1. apply wp_bind_inv, gstep_wp in W1 as [W1 _]. lia. }
        destruct L; [|discriminate]. cbn [app] in X. subst N. cbn [filter app foldM] in *. exists d. split; [apply moved_refl; cbn [length]; lia|exact W1].
  Qed.
End order.
