(** Property theorems about registering yaml: C83. *)
From Verif Require Import PyStr Json Base Backend BackendProofs PropBackend Yaml.
Open Scope nat_scope.

Definition YAML : pystr := u "yaml".
(** The calls made to backends by one operation, from state s. *)
Definition made {A} (r : res A * bst) (s : bst) : list bcall := skipn (length (b_log s)) (b_log (snd r)).

Lemma made_app {A} (r : res A * bst) s l : b_log (snd r) = b_log s ++ l -> made r s = l.
Proof. unfold made. intros ->. rewrite skipn_app, skipn_all, Nat.sub_diag. reflexivity. Qed.

(** What loading leaves as it is. *)
Record beside (n : pystr) (s s' : bst) : Prop := {
  bs_f : b_fall s' = b_fall s;
  bs_e : forall m, m <> n -> sget m (b_enc s') = sget m (b_enc s);
  bs_d : forall m, m <> n -> sget m (b_dec s') = sget m (b_dec s);
  bs_x : forall m, m <> n -> sget m (b_exc s') = sget m (b_exc s);
  bs_eo : forall m, m <> n -> stored (b_eopts s') s' m = stored (b_eopts s) s m;
  bs_do : forall m, m <> n -> stored (b_dopts s') s' m = stored (b_dopts s) s m }.

Lemma sget_other {V} m n (v : V) o : m <> n -> sget m (sset n v o) = sget m o.
Proof. intros N. rewrite sget_sset. destruct (seqb_spec m n); auto. contradiction. Qed.

Lemma load_beside n s b s' : bwf s -> load_end n s b s' -> beside n s s'.
Proof.
  intros (W1 & W2 & W3 & W4 & W5 & W6 & W7 & W8) H.
  assert (X : forall opts m c d, m <> n -> (forall a k, sget m opts = Some (a, k) -> k < length (b_cells s)) ->
    match sget m (setdef_opts n opts c) with Some (a, k) => (a, nth k (b_cells s ++ d) []) | None => ([], []) end =
    match sget m opts with Some (a, k) => (a, nth k (b_cells s) []) | None => ([], []) end).
  { intros opts m c d N B. rewrite setdef_other by auto. destruct (sget m opts) as [[a k]|] eqn:E; auto.
    rewrite app_nth1; eauto. }
  destruct H; constructor; intros; cbn; auto; unfold stored; cbn; rewrite ?sget_sdel_other, ?sget_other by auto; auto.
  - apply X; eauto.
  - apply X; eauto.
Qed.

Lemma load_list n s b s' : ~ In n (b_names s) -> load_end n s b s' ->
  b_names s' = b_names s ++ (if b then [n] else []) /\ b_log s' = b_log s.
Proof.
  intros N H. apply listed_not in N.
  cbn in N. destruct H; cbn; rewrite ?app_nil_r; auto; change (existsb (seqb n) (b_names s)) with (listed n (b_names s)); rewrite N; auto.
Qed.

Lemma beside_enc n s s' o i p m : beside n s s' -> m <> n -> enc_call s' o i p m = enc_call s o i p m.
Proof. intros B N. unfold enc_call. rewrite (bs_e _ _ _ B), (bs_eo _ _ _ B) by auto. auto. Qed.
Lemma beside_dec n s s' t m : beside n s s' -> m <> n -> dec_call s' t m = dec_call s t m.
Proof. intros B N. unfold dec_call. rewrite (bs_d _ _ _ B), (bs_do _ _ _ B) by auto. auto. Qed.

(** The first of a list that does not fall through. *)
Lemma first_same {A} (go : A -> Prop) l1 x r1 l2 y r2 more :
  l1 ++ x :: r1 = l2 ++ y :: r2 \/ (l1 ++ x :: r1) ++ more = l2 ++ y :: r2 ->
  (forall m, In m l1 -> go m) -> ~ go x -> (forall m, In m l2 -> go m) -> (go y -> r2 = []) -> l1 = l2 /\ x = y.
Proof.
  revert l2. induction l1 as [|a l1 IH]; intros [|b l2] E G1 Nx G2 Ly; cbn in E.
  - destruct E as [E|E]; inversion E; auto.
  - exfalso. apply Nx. apply G2. destruct E as [E|E]; inversion E; left; auto.
  - exfalso. assert (Y : a = y /\ exists q, r2 = q /\ q <> []).
    { destruct E as [E|E]; inversion E; subst; split; auto; eexists; split; eauto; destruct l1; discriminate. }
    destruct Y as (-> & q & -> & Q). apply Q, Ly, G1. left. auto.
  - destruct (IH l2) as (-> & ->); [|intros; apply G1; right; auto|auto|intros; apply G2; right; auto|auto|].
    + destruct E as [E|E]; inversion E; auto.
    + split; auto. f_equal. destruct E as [E|E]; inversion E; auto.
Qed.

(** C83: what is encoded or decoded before registering yaml is encoded or decoded in the same way
    afterwards, by the same calls. *)
Theorem C83_kept : forall e s, bwf s -> bgood s -> ~ In YAML (b_names s) ->
  let s' := snd (register_yaml e s) in
  (forall o i p j, fst (bencode e o i p s) = Ret j ->
     fst (bencode e o i p s') = Ret j /\ made (bencode e o i p s') s' = made (bencode e o i p s) s) /\
  (forall t v, fst (bdecode e t s) = Ret v ->
     fst (bdecode e t s') = Ret v /\ made (bdecode e t s') s' = made (bdecode e t s) s).
Proof.
  intros e s W G N s'. destruct (load_backend_end e YAML (u "dump") (u "safe_load") (inl (u "YAMLError")) s) as (b & LE & _).
  change (load_end YAML s b s') in LE.
  pose proof (load_beside _ _ _ _ W LE) as B. destruct (load_list _ _ _ _ N LE) as (NM & LG).
  pose proof (wf_load_end _ _ _ _ LE W) as W'. pose proof (good_load_end _ _ _ _ LE N G) as G'.
  assert (NE : forall m, In m (b_names s) -> m <> YAML) by (intros m I ->; auto).
  split.
  - intros o i p j H.
    destruct (b_names s) as [|n0 r0] eqn:NS; [rewrite bencode_none in H by auto; discriminate|].
    destruct (b_fall s) eqn:F.
    + destruct (bencode_fall e o i p s W) as (tr & n & rest & s1 & E & T & L & R & _ & LO); auto. { rewrite NS. discriminate. }
      destruct (bencode_fall e o i p s' W') as (tr' & n' & rest' & s1' & E' & T' & L' & R' & _ & LO').
      { rewrite NM. discriminate. } { rewrite (bs_f _ _ _ B). auto. }
      rewrite R in H. cbn in H. destruct (enc_outcome e (enc_call s o i p n)) as [q|x|] eqn:O; try discriminate. injection H as <-.
      rewrite NS in E.
      pose (go := fun m => exists x, enc_outcome e (enc_call s' o i p m) = Exc x /\ is_Exception x = true).
      assert (IN : forall m, In m (tr ++ [n]) -> enc_call s' o i p m = enc_call s o i p m).
      { intros m I1. eapply beside_enc; eauto. apply NE. rewrite E. apply in_app_iff in I1. apply in_app_iff.
        destruct I1 as [I1|[->|[]]]; auto. right. left. auto. }
      assert (Q : tr = tr' /\ n = n').
      { eapply (first_same go) with (more := if b then [YAML] else []).
        - right. rewrite <- E, <- E', NM. reflexivity.
        - intros m I1. unfold go. rewrite IN; auto. apply in_app_iff; auto.
        - unfold go. rewrite IN by (apply in_app_iff; right; left; auto). rewrite O. intros (x & X & _). discriminate.
        - exact T'.
        - intros (x & X1 & X2). eapply L'; eauto. }
      destruct Q as (<- & <-).
      rewrite (made_app (bencode e o i p s) s _ ltac:(rewrite R; exact LO)), (made_app (bencode e o i p s') s' _ ltac:(rewrite R'; exact LO')), R'. cbn [fst].
      rewrite IN by (apply in_app_iff; right; left; auto). rewrite O. split; auto.
      rewrite !flat_map_concat_map. f_equal. apply map_ext_in. intros m I1. rewrite IN; auto.
    + assert (E : enc_call s' o i p n0 = enc_call s o i p n0) by (eapply beside_enc; eauto; apply NE; left; auto).
      destruct (bencode_nofall e o i p s n0 r0 W NS F) as (s1 & R & _ & LO).
      destruct (bencode_nofall e o i p s' n0 (r0 ++ if b then [YAML] else []) W') as (s1' & R' & _ & LO'); auto.
      { rewrite (bs_f _ _ _ B). auto. }
      rewrite (made_app (bencode e o i p s) s _ ltac:(rewrite R; exact LO)), (made_app (bencode e o i p s') s' _ ltac:(rewrite R'; exact LO')), R', E. rewrite R in H. auto.
  - intros t v H.
    assert (C : forall q, bgood q -> forall n, In n (b_names q) -> sget n (b_exc q) <> None) by (intros q (_ & C) n I1; apply C in I1; apply I1).
    destruct (b_names s) as [|n0 r0] eqn:NS; [rewrite bdecode_none in H by auto; discriminate|].
    destruct (b_fall s) eqn:F.
    + destruct (bdecode_fall e t s W (C s G)) as (tr & n & rest & s1 & E & T & L & R & _ & LO); auto. { rewrite NS. discriminate. }
      destruct (bdecode_fall e t s' W' (C s' G')) as (tr' & n' & rest' & s1' & E' & T' & L' & R' & _ & LO').
      { rewrite NM. discriminate. } { rewrite (bs_f _ _ _ B). auto. }
      rewrite R in H. cbn in H. destruct (dec_outcome e (dec_call s t n)) as [q|x|] eqn:O; try discriminate. injection H as <-.
      rewrite NS in E.
      pose (go := fun m => exists x, dec_outcome e (dec_call s' t m) = Exc x /\ declared e s' m x).
      assert (NY : forall m, In m (tr ++ [n]) -> m <> YAML).
      { intros m I1. apply NE. rewrite E. apply in_app_iff in I1. apply in_app_iff.
        destruct I1 as [I1|[->|[]]]; auto. right. left. auto. }
      assert (IN : forall m, In m (tr ++ [n]) -> dec_call s' t m = dec_call s t m).
      { intros m I1. eapply beside_dec; eauto. }
      assert (Q : tr = tr' /\ n = n').
      { eapply (first_same go) with (more := if b then [YAML] else []).
        - right. rewrite <- E, <- E', NM. reflexivity.
        - intros m I1. unfold go, declared. rewrite IN, (bs_x _ _ _ B); try (apply NY); try (apply in_app_iff; auto). apply T. auto.
        - unfold go. rewrite IN by (apply in_app_iff; right; left; auto). rewrite O. intros (x & X & _). discriminate.
        - exact T'.
        - intros (x & X1 & X2). eapply L'; eauto. }
      destruct Q as (<- & <-).
      rewrite (made_app (bdecode e t s) s _ ltac:(rewrite R; exact LO)), (made_app (bdecode e t s') s' _ ltac:(rewrite R'; exact LO')), R'. cbn [fst].
      rewrite IN by (apply in_app_iff; right; left; auto). rewrite O. split; auto.
      rewrite !flat_map_concat_map. f_equal. apply map_ext_in. intros m I1. rewrite IN; auto.
    + assert (E : dec_call s' t n0 = dec_call s t n0) by (eapply beside_dec; eauto; apply NE; left; auto).
      destruct (bdecode_nofall e t s n0 r0 W NS F) as (s1 & R & _ & LO).
      destruct (bdecode_nofall e t s' n0 (r0 ++ if b then [YAML] else []) W') as (s1' & R' & _ & LO'); auto.
      { rewrite (bs_f _ _ _ B). auto. }
      rewrite (made_app (bdecode e t s) s _ ltac:(rewrite R; exact LO)), (made_app (bdecode e t s') s' _ ltac:(rewrite R'; exact LO')), R', E. rewrite R in H. auto.
Qed.
Print Assumptions C83_kept.

(** C83: if yaml, or something in it, is missing, nothing at all changes. *)
Lemma first_only {A} (go : A -> Prop) l1 x r1 : forall l2 y r2, l1 ++ x :: r1 = l2 ++ y :: r2 ->
  (forall m, In m l1 -> go m) -> (go x -> r1 = []) -> (forall m, In m l2 -> go m) -> (go y -> r2 = []) -> l1 = l2 /\ x = y.
Proof.
  induction l1 as [|a l1 IH]; intros [|b l2] y r2 E G1 L1 G2 L2; inversion E; subst; auto.
  - exfalso. assert (R : l2 ++ y :: r2 = []) by (apply L1, G2; left; auto). destruct l2; discriminate.
  - exfalso. assert (R : l1 ++ x :: r1 = []) by (apply L2, G1; left; auto). destruct l1; discriminate.
  - destruct (IH l2 y r2) as (-> & ->); auto; intros; [apply G1|apply G2]; right; auto.
Qed.

Theorem C83_missing : forall e s, bwf s -> bgood s -> ~ In YAML (b_names s) -> fst (register_yaml e s) <> Ret true ->
  let s' := snd (register_yaml e s) in
  (forall o i p, fst (bencode e o i p s') = fst (bencode e o i p s) /\ made (bencode e o i p s') s' = made (bencode e o i p s) s) /\
  (forall t, fst (bdecode e t s') = fst (bdecode e t s) /\ made (bdecode e t s') s' = made (bdecode e t s) s).
Proof.
  intros e s W G N NT s'. destruct (load_backend_end e YAML (u "dump") (u "safe_load") (inl (u "YAMLError")) s) as (b & LE & BT).
  destruct b. { exfalso. apply NT, BT. auto. } clear BT NT.
  change (load_end YAML s false s') in LE.
  pose proof (load_beside _ _ _ _ W LE) as B. destruct (load_list _ _ _ _ N LE) as (NM & LG). rewrite app_nil_r in NM.
  pose proof (wf_load_end _ _ _ _ LE W) as W'. pose proof (good_load_end _ _ _ _ LE N G) as G'.
  assert (NE : forall m, In m (b_names s) -> m <> YAML) by (intros m I1 ->; auto).
  assert (C : forall q, bgood q -> forall n, In n (b_names q) -> sget n (b_exc q) <> None) by (intros q (_ & C) n I1; apply C in I1; apply I1).
  assert (CE : forall o i p m, In m (b_names s) -> enc_call s' o i p m = enc_call s o i p m) by (intros; eapply beside_enc; eauto).
  assert (CD : forall t m, In m (b_names s) -> dec_call s' t m = dec_call s t m) by (intros; eapply beside_dec; eauto).
  assert (DC : forall m x, In m (b_names s) -> declared e s' m x <-> declared e s m x)
    by (intros m x I1; unfold declared; rewrite (bs_x _ _ _ B) by auto; tauto).
  destruct (b_names s) as [|n0 r0] eqn:NS.
  { split; intros; [rewrite !bencode_none by auto|rewrite !bdecode_none by auto]; split; auto; unfold made; cbn; rewrite !skipn_all; auto. }
  destruct (b_fall s) eqn:F; pose proof (bs_f _ _ _ B) as F'; rewrite F in F'.
  - split.
    + intros o i p.
      destruct (bencode_fall e o i p s W) as (tr & n & rest & s1 & E & T & L & R & _ & LO); auto. { rewrite NS. discriminate. }
      destruct (bencode_fall e o i p s' W') as (tr' & n' & rest' & s1' & E' & T' & L' & R' & _ & LO'); auto. { rewrite NM. discriminate. }
      rewrite NS in E. rewrite NM in E'.
      assert (IN : forall m, In m (tr ++ [n]) -> In m (n0 :: r0)).
      { intros m I1. rewrite E. apply in_app_iff in I1. apply in_app_iff. destruct I1 as [I1|[->|[]]]; auto. right. left. auto. }
      assert (IN' : forall m, In m (tr' ++ [n']) -> In m (n0 :: r0)).
      { intros m I1. rewrite E'. apply in_app_iff in I1. apply in_app_iff. destruct I1 as [I1|[->|[]]]; auto. right. left. auto. }
      destruct (first_only (fun m => exists x, enc_outcome e (enc_call s o i p m) = Exc x /\ is_Exception x = true) tr n rest tr' n' rest') as (<- & <-).
      * congruence.
      * exact T.
      * intros (x & X1 & X2). eauto.
      * intros m I1. rewrite <- CE by (apply IN', in_app_iff; auto). auto.
      * intros (x & X1 & X2). rewrite <- CE in X1 by (apply IN', in_app_iff; right; left; auto). eauto.
      * rewrite (made_app (bencode e o i p s) s _ ltac:(rewrite R; exact LO)), (made_app (bencode e o i p s') s' _ ltac:(rewrite R'; exact LO')), R', R.
        cbn [fst]. rewrite CE by (apply IN, in_app_iff; right; left; auto). split; auto.
        rewrite !flat_map_concat_map. f_equal. apply map_ext_in. intros m I1. rewrite CE; auto.
    + intros t.
      destruct (bdecode_fall e t s W (C s G)) as (tr & n & rest & s1 & E & T & L & R & _ & LO); auto. { rewrite NS. discriminate. }
      destruct (bdecode_fall e t s' W' (C s' G')) as (tr' & n' & rest' & s1' & E' & T' & L' & R' & _ & LO'); auto. { rewrite NM. discriminate. }
      rewrite NS in E. rewrite NM in E'.
      assert (IN : forall m, In m (tr ++ [n]) -> In m (n0 :: r0)).
      { intros m I1. rewrite E. apply in_app_iff in I1. apply in_app_iff. destruct I1 as [I1|[->|[]]]; auto. right. left. auto. }
      assert (IN' : forall m, In m (tr' ++ [n']) -> In m (n0 :: r0)).
      { intros m I1. rewrite E'. apply in_app_iff in I1. apply in_app_iff. destruct I1 as [I1|[->|[]]]; auto. right. left. auto. }
      destruct (first_only (fun m => exists x, dec_outcome e (dec_call s t m) = Exc x /\ declared e s m x) tr n rest tr' n' rest') as (<- & <-).
      * congruence.
      * exact T.
      * intros (x & X1 & X2). eauto.
      * intros m I1. destruct (T' m I1) as (x & X1 & X2). exists x.
        rewrite <- CD by (apply IN', in_app_iff; auto). split; auto. apply DC; auto. apply IN', in_app_iff; auto.
      * intros (x & X1 & X2). assert (I1 : In n' (n0 :: r0)) by (apply IN', in_app_iff; right; left; auto).
        rewrite <- CD in X1 by auto. apply (L' x); auto. apply DC; auto.
      * rewrite (made_app (bdecode e t s) s _ ltac:(rewrite R; exact LO)), (made_app (bdecode e t s') s' _ ltac:(rewrite R'; exact LO')), R', R.
        cbn [fst]. rewrite CD by (apply IN, in_app_iff; right; left; auto). split; auto.
        rewrite !flat_map_concat_map. f_equal. apply map_ext_in. intros m I1. rewrite CD; auto.
  - split.
    + intros o i p.
      destruct (bencode_nofall e o i p s n0 r0 W NS F) as (s1 & R & _ & LO).
      destruct (bencode_nofall e o i p s' n0 r0 W') as (s1' & R' & _ & LO'); auto.
      rewrite (made_app (bencode e o i p s) s _ ltac:(rewrite R; exact LO)), (made_app (bencode e o i p s') s' _ ltac:(rewrite R'; exact LO')), R', R, CE by (left; auto). auto.
    + intros t.
      destruct (bdecode_nofall e t s n0 r0 W NS F) as (s1 & R & _ & LO).
      destruct (bdecode_nofall e t s' n0 r0 W') as (s1' & R' & _ & LO'); auto.
      rewrite (made_app (bdecode e t s) s _ ltac:(rewrite R; exact LO)), (made_app (bdecode e t s') s' _ ltac:(rewrite R'; exact LO')), R', R, CD by (left; auto). auto.
Qed.
Print Assumptions C83_missing.

Lemma register_true e s m f g h : be_import e YAML = Ret m ->
  be_getattr e m (u "dump") = Ret f -> be_getattr e m (u "safe_load") = Ret g -> be_getattr e m (u "YAMLError") = Ret h ->
  register_yaml e s = (Ret true, loaded YAML (put_exc YAML h (put_dec YAML g (put_enc YAML f s)))).
Proof.
  intros I1 D L X. unfold register_yaml, load_backend. fold YAML. rewrite I1. change (tl (split_on 46%N YAML)) with (@nil pystr). cbn [getattrs_].
  unfold store, catch, lift, bind. rewrite D. cbn [modify ret negb]. rewrite L. cbn [modify ret negb]. rewrite X. cbn [modify ret negb].
  unfold new_cell, get, modify, bind, ret. destruct s; cbn. unfold loaded, setdef_opts. cbn.
  rewrite app_length, <- app_assoc. cbn. rewrite Nat.add_1_r. reflexivity.
Qed.

(** C83: True is returned exactly if yaml and the three names in it are there.  Then yaml is the last
    backend, and where all others fail it decides: by dump, safe_load and YAMLError, with the options
    that were set for yaml, before or not. *)
Theorem C83_registered : forall e s,
  fst (register_yaml e s) = Ret true <->
  exists m f g h, be_import e YAML = Ret m /\ be_getattr e m (u "dump") = Ret f /\
    be_getattr e m (u "safe_load") = Ret g /\ be_getattr e m (u "YAMLError") = Ret h.
Proof.
  intros e s. unfold register_yaml. rewrite C27_load_true. fold YAML. change (tl (split_on 46%N YAML)) with (@nil pystr). split.
  - intros (top & m & f & g & I1 & L & D & S & h & X). inversion L; subst. eauto 10.
  - intros (m & f & g & h & I1 & D & L & X). exists m, m, f, g. repeat split; auto. constructor. eauto.
Qed.
Print Assumptions C83_registered.

Theorem C83_last : forall e s m f g h, bwf s -> bgood s -> ~ In YAML (b_names s) -> b_fall s = true ->
  be_import e YAML = Ret m -> be_getattr e m (u "dump") = Ret f ->
  be_getattr e m (u "safe_load") = Ret g -> be_getattr e m (u "YAMLError") = Ret h ->
  let s' := snd (register_yaml e s) in
  b_names s' = b_names s ++ [YAML] /\ sget YAML (b_exc s') = Some h /\
  (forall o i p,
     (forall n, In n (b_names s) -> exists x, enc_outcome e (enc_call s o i p n) = Exc x /\ is_Exception x = true) ->
     fst (bencode e o i p s') =
       res_map Some (be_encode e f o (fst (stored (b_eopts s) s YAML)) (override i p (snd (stored (b_eopts s) s YAML))))) /\
  (forall t,
     (forall n, In n (b_names s) -> exists x, dec_outcome e (dec_call s t n) = Exc x /\ declared e s n x) ->
     fst (bdecode e t s') =
       res_map Some (be_decode e g t (fst (stored (b_dopts s) s YAML)) (snd (stored (b_dopts s) s YAML)))).
Proof.
  intros e s m f g h W G N F I1 D L X s'.
  assert (ES : s' = loaded YAML (put_exc YAML h (put_dec YAML g (put_enc YAML f s)))).
  { unfold s'. rewrite (register_true e s m f g h); auto. }
  assert (LE : load_end YAML s true s') by (rewrite ES; constructor).
  pose proof (load_beside _ _ _ _ W LE) as B. destruct (load_list _ _ _ _ N LE) as (NM & LG).
  pose proof (wf_load_end _ _ _ _ LE W) as W'. pose proof (good_load_end _ _ _ _ LE N G) as G'.
  assert (NE : forall m, In m (b_names s) -> m <> YAML) by (intros q I2 ->; auto).
  assert (SR : seqb YAML YAML = true) by reflexivity.
  assert (ST : forall opts c d, (forall a k, sget YAML opts = Some (a, k) -> k < length (b_cells s)) ->
     c = length (b_cells s) \/ c = S (length (b_cells s)) -> d = [[]; []] ->
     match sget YAML (setdef_opts YAML opts c) with Some (a, k) => (a, nth k (b_cells s ++ d) []) | None => ([], []) end =
     match sget YAML opts with Some (a, k) => (a, nth k (b_cells s) []) | None => ([], []) end).
  { intros opts c d BO C ->. unfold setdef_opts, setdefault. destruct (sget YAML opts) as [[a k]|] eqn:E.
    - rewrite E, app_nth1; eauto.
    - rewrite sget_sset, SR. f_equal. rewrite app_nth2 by lia. destruct C as [-> | ->]; [rewrite Nat.sub_diag|replace (S _ - _) with 1 by lia]; auto. }
  destruct W as (W1 & W2 & W3 & W4 & W5 & W6 & W7 & W8).
  assert (YE : forall o i p, enc_call s' o i p YAML = Some (BEnc f o (fst (stored (b_eopts s) s YAML)) (override i p (snd (stored (b_eopts s) s YAML))))).
  { intros o i p. rewrite ES. unfold enc_call. cbn [loaded put_exc put_dec put_enc b_enc bs_exc bs_dec bs_enc].
    rewrite sget_sset, SR. unfold stored. cbn [loaded put_exc put_dec put_enc b_eopts b_cells bs_exc bs_dec bs_enc]. rewrite ST; eauto. }
  assert (YD : forall t, dec_call s' t YAML = Some (BDec g t (fst (stored (b_dopts s) s YAML)) (snd (stored (b_dopts s) s YAML)))).
  { intros t. rewrite ES. unfold dec_call. cbn [loaded put_exc put_dec put_enc b_dec bs_exc bs_dec bs_enc].
    rewrite sget_sset, SR. unfold stored. cbn [loaded put_exc put_dec put_enc b_dopts b_cells bs_exc bs_dec bs_enc]. rewrite ST; eauto. }
  assert (F' : b_fall s' = true) by (rewrite (bs_f _ _ _ B); auto).
  assert (NN : b_names s' <> []) by (rewrite NM; destruct (b_names s); discriminate).
  assert (LAST : forall (go : pystr -> Prop) tr n rest, b_names s' = tr ++ n :: rest -> (go n -> rest = []) ->
     (forall q, In q (b_names s) -> go q) -> n = YAML).
  { intros go tr n rest E GO AL. rewrite NM in E. destruct (in_dec (list_eq_dec N.eq_dec) n (b_names s)) as [I2|N2].
    - rewrite (GO (AL _ I2)) in E. apply app_inj_tail in E. destruct E; auto.
    - assert (I2 : In n (b_names s ++ [YAML])) by (rewrite E; apply in_app_iff; right; left; auto).
      apply in_app_iff in I2. destruct I2 as [?|[?|[]]]; auto. contradiction. }
  split; [exact NM|]. split. { rewrite ES. cbn [loaded put_exc b_exc bs_exc]. rewrite sget_sset, SR. auto. }
  split.
  - intros o i p AL. destruct (bencode_fall e o i p s' W' NN F') as (tr & n & rest & s1 & E & T & LX & R & _).
    assert (n = YAML).
    { eapply (LAST (fun q => exists x, enc_outcome e (enc_call s' o i p q) = Exc x /\ is_Exception x = true)); eauto.
      - intros (x & X1 & X2). eauto.
      - intros q I2. rewrite (beside_enc _ _ _ _ _ _ _ B) by auto. auto. }
    subst n. rewrite R. cbn [fst]. rewrite YE. reflexivity.
  - intros t AL. destruct (bdecode_fall e t s' W') as (tr & n & rest & s1 & E & T & LX & R & _); auto.
    { intros n I2. apply G' in I2. apply I2. }
    assert (n = YAML).
    { eapply (LAST (fun q => exists x, dec_outcome e (dec_call s' t q) = Exc x /\ declared e s' q x)); eauto.
      - intros (x & X1 & X2). eauto.
      - intros q I2. unfold declared. rewrite (beside_dec _ _ _ _ _ B), (bs_x _ _ _ B) by auto. apply AL; auto. }
    subst n. rewrite R. cbn [fst]. rewrite YD. reflexivity.
Qed.
Print Assumptions C83_last.

(** ** Cases: with json and ujson loaded, yaml takes what both refuse. *)
Definition env_yaml : benv :=
  {| be_import := fun n => if seqb n (u "yaml") then Ret 3 else be_import env0 n;
     be_getattr := fun m a => if m =? 3 then
         if seqb a (u "dump") then Ret 30 else if seqb a (u "safe_load") then Ret 31
         else if seqb a (u "YAMLError") then Ret 32 else Exc EAttributeError
       else be_getattr env0 m a;
     be_encode := fun f o a k => if f =? 30 then Ret (u "yaml text") else if (o =? 98) then Exc ETypeError else be_encode env0 f o a k;
     be_decode := fun f t a k => if f =? 31 then Ret 77 else if seqb t (u "5") then Ret 5 else Exc EValueError;
     be_isinst := fun _ x => is_ValueError x;
     be_valueerror := 7 |}.
Definition BY : bst := snd (binit env_yaml true 0 (empty_bst true)).
Definition BY' : bst := snd (register_yaml env_yaml BY).
Example C83_case_wf : bwf BY /\ bgood BY /\ ~ In YAML (b_names BY).
Proof.
  destruct (binit_ok env_yaml true 0 (empty_bst true) eq_refl) as (W & G & _).
  split; [exact W|]. split; [exact G|]. vm_compute. intros [H|[H|[]]]; discriminate.
Qed.
Example C83_case :
  fst (register_yaml env_yaml BY) = Ret true /\ b_names BY' = [u "json"; u "ujson"; u "yaml"] /\
  fst (bencode env_yaml 99 None None BY) = Ret (Some (u "text")) /\ fst (bencode env_yaml 99 None None BY') = Ret (Some (u "text")) /\
  fst (bencode env_yaml 98 None None BY) = Exc ETypeError /\ fst (bencode env_yaml 98 None None BY') = Ret (Some (u "yaml text")) /\
  fst (bdecode env_yaml (u "5") BY') = Ret (Some 5) /\
  fst (bdecode env_yaml (u "a: 1") BY) = Exc EValueError /\ fst (bdecode env_yaml (u "a: 1") BY') = Ret (Some 77).
Proof. vm_compute. repeat split. Qed.
(** Without yaml. *)
Example C83_case_missing : fst (register_yaml env0 B0) = Ret false.
Proof. vm_compute. reflexivity. Qed.
(** C83 in general is false: an error that decode gave is not kept, once yaml takes the text. *)
Theorem C83_error_refuted : exists e s t x v, bwf s /\ bgood s /\ ~ In YAML (b_names s) /\
  fst (bdecode e t s) = Exc x /\ fst (bdecode e t (snd (register_yaml e s))) = Ret (Some v).
Proof. exists env_yaml, BY, (u "a: 1"), EValueError, 77. split; [|split; [|split]]; try apply C83_case_wf. vm_compute. auto. Qed.
Print Assumptions C83_error_refuted.
