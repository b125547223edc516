(** C26, C27, C28: the backend manager. *)
From Verif Require Import PyStr Json Base Backend.
Open Scope nat_scope.

(** ** Specification *)
(** What is stored for backend n. *)
Definition stored (opts : list (pystr * (list nat * nat))) (s : bst) (n : pystr) : list nat * kwargs :=
  match sget n opts with Some (a, c) => (a, nth c (b_cells s) []) | None => ([], []) end.
(** indent/separators of one call override the stored options. *)
Definition override (indent separators : option nat) (kw : kwargs) : kwargs :=
  let kw := match indent with Some v => sset (u "indent") v kw | None => kw end in
  match separators with Some v => sset (u "separators") v kw | None => kw end.
(** The call made to backend n, if it has an encoder/decoder function, and its outcome. *)
Definition enc_call (s : bst) (obj : nat) (i p : option nat) (n : pystr) : option bcall :=
  match sget n (b_enc s) with
  | Some f => Some (BEnc f obj (fst (stored (b_eopts s) s n)) (override i p (snd (stored (b_eopts s) s n))))
  | None => None
  end.
Definition dec_call (s : bst) (text : pystr) (n : pystr) : option bcall :=
  match sget n (b_dec s) with
  | Some f => Some (BDec f text (fst (stored (b_dopts s) s n)) (snd (stored (b_dopts s) s n)))
  | None => None
  end.
Definition enc_outcome (e : benv) (c : option bcall) : res pystr :=
  match c with Some (BEnc f o a k) => be_encode e f o a k | _ => Exc EKeyError end.
Definition dec_outcome (e : benv) (c : option bcall) : res nat :=
  match c with Some (BDec f t a k) => be_decode e f t a k | _ => Exc EKeyError end.
Definition opt_list {A} (o : option A) : list A := match o with Some x => [x] | None => [] end.
Definition res_map {A B} (f : A -> B) (r : res A) : res B :=
  match r with Ret a => Ret (f a) | Exc x => Exc x | OOF => OOF end.

(** Well-formed states: dictionaries have distinct keys, option cells exist, _verified is truthful. *)
Definition bwf (s : bst) : Prop :=
  NoDup (keys (b_enc s)) /\ NoDup (keys (b_dec s)) /\ NoDup (keys (b_eopts s)) /\
  NoDup (keys (b_dopts s)) /\ NoDup (keys (b_exc s)) /\
  (forall n a c, sget n (b_eopts s) = Some (a, c) -> c < length (b_cells s)) /\
  (forall n a c, sget n (b_dopts s) = Some (a, c) -> c < length (b_cells s)) /\
  b_ver s = match b_names s with [] => false | _ => true end.
(** Everything but the log is as before, and new cells may exist. *)
Definition same_but (s s' : bst) : Prop :=
  b_fall s' = b_fall s /\ b_names s' = b_names s /\ b_enc s' = b_enc s /\ b_dec s' = b_dec s /\
  b_eopts s' = b_eopts s /\ b_dopts s' = b_dopts s /\ b_exc s' = b_exc s /\ b_ver s' = b_ver s /\
  exists ext, b_cells s' = b_cells s ++ ext.

Lemma same_refl s : same_but s s.
Proof. repeat split; auto. exists []. rewrite app_nil_r; auto. Qed.
Lemma same_trans s1 s2 s3 : same_but s1 s2 -> same_but s2 s3 -> same_but s1 s3.
Proof.
  intros (A1 & A2 & A3 & A4 & A5 & A6 & A7 & A8 & x & A9) (B1 & B2 & B3 & B4 & B5 & B6 & B7 & B8 & y & B9).
  repeat split; try congruence. exists (x ++ y). rewrite B9, A9, app_assoc. auto.
Qed.
Lemma same_wf s s' : same_but s s' -> bwf s -> bwf s'.
Proof.
  intros (A1 & A2 & A3 & A4 & A5 & A6 & A7 & A8 & x & A9) (W1 & W2 & W3 & W4 & W5 & W6 & W7 & W8).
  unfold bwf. rewrite A2, A3, A4, A5, A6, A7, A8, A9, app_length.
  repeat split; auto; intros n a c H.
  - specialize (W6 n a c H). lia.
  - specialize (W7 n a c H). lia.
Qed.
Lemma same_stored_e s s' n : same_but s s' -> bwf s -> stored (b_eopts s') s' n = stored (b_eopts s) s n.
Proof.
  intros (A1 & A2 & A3 & A4 & A5 & A6 & A7 & A8 & x & A9) (W1 & W2 & W3 & W4 & W5 & W6 & W7 & W8).
  unfold stored. rewrite A5. destruct (sget n (b_eopts s)) as [[a c]|] eqn:E; auto.
  rewrite A9, app_nth1; eauto.
Qed.
Lemma same_stored_d s s' n : same_but s s' -> bwf s -> stored (b_dopts s') s' n = stored (b_dopts s) s n.
Proof.
  intros (A1 & A2 & A3 & A4 & A5 & A6 & A7 & A8 & x & A9) (W1 & W2 & W3 & W4 & W5 & W6 & W7 & W8).
  unfold stored. rewrite A6. destruct (sget n (b_dopts s)) as [[a c]|] eqn:E; auto.
  rewrite A9, app_nth1; eauto.
Qed.
Lemma same_enc_call s s' o i p n : same_but s s' -> bwf s -> enc_call s' o i p n = enc_call s o i p n.
Proof.
  intros H W. unfold enc_call. rewrite (same_stored_e _ _ _ H W).
  destruct H as (A1 & A2 & A3 & _). rewrite A3. reflexivity.
Qed.
Lemma same_dec_call s s' t n : same_but s s' -> bwf s -> dec_call s' t n = dec_call s t n.
Proof.
  intros H W. unfold dec_call. rewrite (same_stored_d _ _ _ H W).
  destruct H as (A1 & A2 & A3 & A4 & _). rewrite A4. reflexivity.
Qed.

Lemma set_last {A} (l : list A) x y : firstn (length l) (l ++ [x]) ++ y :: skipn (S (length l)) (l ++ [x]) = l ++ [y].
Proof.
  rewrite firstn_app, Nat.sub_diag, firstn_all, firstn_O, app_nil_r.
  rewrite skipn_all2; [reflexivity|]. rewrite app_length; simpl; lia.
Qed.
Lemma nth_last {A} (l : list A) x d : nth (length l) (l ++ [x]) d = x.
Proof. rewrite app_nth2, Nat.sub_diag; auto. Qed.

Section proofs.
  Variable e : benv.

  Lemma set_last_cell s l x y : b_cells s = l ++ [x] -> 
    set_cell (length l) y s = (Ret tt, bs_cells (l ++ [y]) s).
  Proof. intros E. unfold set_cell, modify. rewrite E, set_last. reflexivity. Qed.

  (** One attempt: the call is the specified one; nothing stored changes. *)
  Lemma backend_encode_spec n o i p s : bwf s ->
    exists s', backend_encode e n o i p s = (enc_outcome e (enc_call s o i p n), s') /\
               same_but s s' /\ b_log s' = b_log s ++ opt_list (enc_call s o i p n).
  Proof.
    intros W. unfold backend_encode.
    rewrite (bind_eq _ _ s s s) by reflexivity.
    assert (H : exists a c s1,
      (match sget n (b_eopts s) with
       | Some p => ret p
       | None => c <- new_cell [] ;; ret ([], c)
       end%monad) s = (Ret (a, c), s1) /\ same_but s s1 /\ b_log s1 = b_log s /\
      a = fst (stored (b_eopts s) s n) /\ nth c (b_cells s1) [] = snd (stored (b_eopts s) s n)).
    { unfold stored. destruct (sget n (b_eopts s)) as [[a c]|] eqn:E.
      - exists a, c, s. repeat split; auto. exists []. rewrite app_nil_r; auto.
      - exists [], (length (b_cells s)), (bs_cells (b_cells s ++ [[]]) s). repeat split; simpl; auto.
        + eexists; reflexivity.
        + rewrite nth_last. reflexivity. }
    destruct H as (a & c & s1 & H1 & S1 & L1 & Ea & Ek).
    rewrite (bind_eq _ _ s (a, c) s1 H1).
    rewrite (bind_eq _ _ s1 s1 s1) by reflexivity.
    set (l := b_cells s1).
    rewrite (bind_eq _ _ s1 (length l) (bs_cells (l ++ [cell s1 c]) s1)) by reflexivity.
    assert (H2 : exists s2,
      (match i with Some v => s2 <- get ;; set_cell (length l) (sset (u "indent") v (cell s2 (length l))) | None => ret tt end%monad)
        (bs_cells (l ++ [cell s1 c]) s1) = (Ret tt, s2) /\
      s2 = bs_cells (l ++ [match i with Some v => sset (u "indent") v (cell s1 c) | None => cell s1 c end]) s1).
    { destruct i as [v|].
      - eexists. split; [|reflexivity]. erewrite bind_eq by reflexivity.
        unfold cell at 1. simpl b_cells. rewrite nth_last.
        erewrite set_last_cell by reflexivity. reflexivity.
      - eexists; split; reflexivity. }
    destruct H2 as (s2 & H2 & E2). rewrite (bind_eq _ _ _ tt s2 H2).
    set (k2 := match i with Some v => sset (u "indent") v (cell s1 c) | None => cell s1 c end) in *.
    assert (H3 : exists s3,
      (match p with Some v => s2 <- get ;; set_cell (length l) (sset (u "separators") v (cell s2 (length l))) | None => ret tt end%monad)
        s2 = (Ret tt, s3) /\
      s3 = bs_cells (l ++ [match p with Some v => sset (u "separators") v k2 | None => k2 end]) s1).
    { subst s2. destruct p as [v|].
      - eexists. split; [|reflexivity]. erewrite bind_eq by reflexivity.
        unfold cell at 1. simpl b_cells. rewrite nth_last.
        erewrite set_last_cell by reflexivity. reflexivity.
      - eexists; split; reflexivity. }
    destruct H3 as (s3 & H3 & E3). rewrite (bind_eq _ _ _ tt s3 H3).
    rewrite (bind_eq _ _ s3 s3 s3) by reflexivity.
    assert (S3 : same_but s s3).
    { eapply same_trans; [exact S1|]. subst s3. repeat split; auto. eexists; reflexivity. }
    assert (C3 : cell s3 (length l) = override i p (snd (stored (b_eopts s) s n))).
    { subst s3. unfold cell. simpl b_cells. rewrite nth_last. unfold override, k2, cell. rewrite Ek. reflexivity. }
    assert (L3 : b_log s3 = b_log s) by (subst s3; exact L1).
    assert (N3 : b_enc s3 = b_enc s) by apply S3.
    unfold enc_call. rewrite N3. destruct (sget n (b_enc s)) as [f|].
    - eexists. split; [|split].
      + erewrite bind_eq by reflexivity. unfold lift. rewrite C3, <- Ea. reflexivity.
      + destruct S3 as (A1 & A2 & A3 & A4 & A5 & A6 & A7 & A8 & A9). repeat split; auto.
      + simpl. rewrite L3. unfold cell in C3. rewrite <- Ea, <- C3. reflexivity.
    - exists s3. split; [reflexivity|]. split; auto. rewrite L3. simpl. rewrite app_nil_r. reflexivity.
  Qed.

  Lemma backend_decode_spec n t s : bwf s ->
    exists s', backend_decode e n t s = (dec_outcome e (dec_call s t n), s') /\
               same_but s s' /\ b_log s' = b_log s ++ opt_list (dec_call s t n).
  Proof.
    intros W. unfold backend_decode.
    rewrite (bind_eq _ _ s s s) by reflexivity.
    assert (H : exists a c s1,
      (match sget n (b_dopts s) with
       | Some p => ret p
       | None => c <- new_cell [] ;; ret ([], c)
       end%monad) s = (Ret (a, c), s1) /\ same_but s s1 /\ b_log s1 = b_log s /\
      a = fst (stored (b_dopts s) s n) /\ nth c (b_cells s1) [] = snd (stored (b_dopts s) s n)).
    { unfold stored. destruct (sget n (b_dopts s)) as [[a c]|] eqn:E.
      - exists a, c, s. repeat split; auto. exists []. rewrite app_nil_r; auto.
      - exists [], (length (b_cells s)), (bs_cells (b_cells s ++ [[]]) s). repeat split; simpl; auto.
        + eexists; reflexivity.
        + rewrite nth_last. reflexivity. }
    destruct H as (a & c & s1 & H1 & S1 & L1 & Ea & Ek).
    rewrite (bind_eq _ _ s (a, c) s1 H1).
    rewrite (bind_eq _ _ s1 s1 s1) by reflexivity.
    set (l := b_cells s1).
    rewrite (bind_eq _ _ s1 (length l) (bs_cells (l ++ [cell s1 c]) s1)) by reflexivity.
    set (s3 := bs_cells (l ++ [cell s1 c]) s1).
    rewrite (bind_eq _ _ s3 s3 s3) by reflexivity.
    assert (S3 : same_but s s3).
    { eapply same_trans; [exact S1|]. repeat split; auto. eexists; reflexivity. }
    assert (C3 : cell s3 (length l) = snd (stored (b_dopts s) s n)).
    { unfold cell, s3. simpl b_cells. rewrite nth_last. exact Ek. }
    assert (L3 : b_log s3 = b_log s) by exact L1.
    assert (N3 : b_dec s3 = b_dec s) by apply S3.
    unfold dec_call. rewrite N3. destruct (sget n (b_dec s)) as [f|].
    - eexists. split; [|split].
      + erewrite bind_eq by reflexivity. unfold lift. rewrite C3, <- Ea. reflexivity.
      + destruct S3 as (A1 & A2 & A3 & A4 & A5 & A6 & A7 & A8 & A9). repeat split; auto.
      + clearbody s3; simpl. rewrite L3. unfold cell in C3. rewrite <- Ea, <- C3. reflexivity.
    - exists s3. split; [reflexivity|]. split; auto. rewrite L3. simpl. rewrite app_nil_r. reflexivity.
  Qed.

  (** Fallthrough of encode. *)
  Lemma encode_loop_spec o i p s0 : bwf s0 -> forall names s, names <> [] -> same_but s0 s ->
    exists tried n rest s',
      names = tried ++ n :: rest /\
      (forall m, In m tried -> exists x, enc_outcome e (enc_call s0 o i p m) = Exc x /\ is_Exception x = true) /\
      (forall x, enc_outcome e (enc_call s0 o i p n) = Exc x -> is_Exception x = true -> rest = []) /\
      encode_loop e names o i p s = (res_map Some (enc_outcome e (enc_call s0 o i p n)), s') /\
      same_but s0 s' /\
      b_log s' = b_log s ++ flat_map (fun m => opt_list (enc_call s0 o i p m)) (tried ++ [n]).
  Proof.
    intros W. induction names as [|n r IH]; intros s NN S; [contradiction|].
    cbn [encode_loop].
    destruct (backend_encode_spec n o i p s (same_wf _ _ S W)) as (s1 & H1 & S1 & L1).
    rewrite (same_enc_call _ _ _ _ _ _ S W) in H1, L1.
    assert (S01 := same_trans _ _ _ S S1).
    destruct (enc_outcome e (enc_call s0 o i p n)) as [a|x|] eqn:O.
    - exists [], n, r, s1. split; [reflexivity|]. split; [contradiction|]. split; [rewrite O; discriminate|].
      unfold catch, bind. rewrite H1, O. simpl. rewrite app_nil_r. auto.
    - destruct (is_Exception x) eqn:X.
      + destruct r as [|n2 r].
        * exists [], n, [], s1. split; [reflexivity|]. split; [contradiction|]. split; [auto|].
          unfold catch, bind. rewrite H1, X, O. simpl. rewrite app_nil_r. auto.
        * destruct (IH s1 ltac:(discriminate) S01) as (tr & m & rest & s2 & E & T & Lx & R & S2 & LG).
          exists (n :: tr), m, rest, s2. split; [simpl; rewrite E; reflexivity|].
          split. { intros m' [<-|I]; eauto. }
          split; [exact Lx|]. unfold catch, bind. rewrite H1, X.
          split; [exact R|]. split; [exact S2|].
          rewrite LG, L1. simpl. rewrite app_assoc. reflexivity.
      + exists [], n, r, s1. split; [reflexivity|]. split; [contradiction|].
        split; [intros y Ey Hy; rewrite O in Ey; inversion Ey; congruence|].
        unfold catch, bind. rewrite H1, X, O. simpl. rewrite app_nil_r. auto.
    - exists [], n, r, s1. split; [reflexivity|]. split; [contradiction|]. split; [rewrite O; discriminate|].
      unfold catch, bind. rewrite H1, O. simpl. rewrite app_nil_r. auto.
  Qed.

  (** Does backend n's declared error cover x? *)
  Definition declared (s : bst) (n : pystr) (x : exn) : Prop :=
    exists k, sget n (b_exc s) = Some k /\ be_isinst e k x = true.

  Lemma decode_loop_spec t s0 : bwf s0 -> (forall n, In n (b_names s0) -> sget n (b_exc s0) <> None) ->
    forall names s, names <> [] -> incl names (b_names s0) -> same_but s0 s ->
    exists tried n rest s',
      names = tried ++ n :: rest /\
      (forall m, In m tried -> exists x, dec_outcome e (dec_call s0 t m) = Exc x /\ declared s0 m x) /\
      (forall x, dec_outcome e (dec_call s0 t n) = Exc x -> declared s0 n x -> rest = []) /\
      decode_loop e names t s = (res_map Some (dec_outcome e (dec_call s0 t n)), s') /\
      same_but s0 s' /\
      b_log s' = b_log s ++ flat_map (fun m => opt_list (dec_call s0 t m)) (tried ++ [n]).
  Proof.
    intros W HX. induction names as [|n r IH]; intros s NN IN S; [contradiction|].
    cbn [decode_loop].
    destruct (backend_decode_spec n t s (same_wf _ _ S W)) as (s1 & H1 & S1 & L1).
    rewrite (same_dec_call _ _ _ _ S W) in H1, L1.
    assert (S01 := same_trans _ _ _ S S1).
    destruct (dec_outcome e (dec_call s0 t n)) as [a|x|] eqn:O.
    - exists [], n, r, s1. split; [reflexivity|]. split; [contradiction|]. split; [rewrite O; discriminate|].
      unfold catch, bind. rewrite H1, O. simpl. rewrite app_nil_r. auto.
    - assert (E1 : b_exc s1 = b_exc s0) by apply S01.
      destruct (sget n (b_exc s0)) as [k|] eqn:K; [|exfalso; apply (HX n); [apply IN; left; auto|exact K]].
      destruct (be_isinst e k x) eqn:X.
      + destruct r as [|n2 r].
        * exists [], n, [], s1. split; [reflexivity|]. split; [contradiction|]. split; [auto|].
          unfold catch, bind, get. rewrite H1, E1, K, X, O. simpl. rewrite app_nil_r. auto.
        * destruct (IH s1 ltac:(discriminate) ltac:(intros y Hy; apply IN; right; auto) S01)
            as (tr & m & rest & s2 & E & T & Lx & R & S2 & LG).
          exists (n :: tr), m, rest, s2. split; [simpl; rewrite E; reflexivity|].
          split. { intros m' [<-|I]; [exists x; split; auto; exists k; auto|eauto]. }
          split; [exact Lx|].
          split. { unfold catch, bind, get. rewrite H1, E1, K, X. exact R. }
          split; [exact S2|].
          rewrite LG, L1. simpl. rewrite app_assoc. reflexivity.
      + exists [], n, r, s1. split; [reflexivity|]. split; [contradiction|].
        split. { intros y Ey (k' & K' & X'). rewrite O in Ey. inversion Ey; subst. congruence. }
        unfold catch, bind, get. rewrite H1, E1, K, X, O. simpl. rewrite app_nil_r. auto.
    - exists [], n, r, s1. split; [reflexivity|]. split; [contradiction|]. split; [rewrite O; discriminate|].
      unfold catch, bind. rewrite H1, O. simpl. rewrite app_nil_r. auto.
  Qed.

  Lemma verify_ok s : bwf s -> b_names s <> [] -> verify s = (Ret tt, s).
  Proof.
    intros W NN. unfold verify. rewrite (bind_eq _ _ s s s) by reflexivity.
    destruct W as (_ & _ & _ & _ & _ & _ & _ & V). rewrite V. destruct (b_names s); [contradiction|reflexivity].
  Qed.
  Lemma verify_no s : bwf s -> b_names s = [] -> verify s = (Exc EAssertion, s).
  Proof.
    intros W NN. unfold verify. rewrite (bind_eq _ _ s s s) by reflexivity.
    destruct W as (_ & _ & _ & _ & _ & _ & _ & V). rewrite V, NN. reflexivity.
  Qed.

  Lemma bencode_fall o i p s : bwf s -> b_names s <> [] -> b_fall s = true ->
    exists tried n rest s',
      b_names s = tried ++ n :: rest /\
      (forall m, In m tried -> exists x, enc_outcome e (enc_call s o i p m) = Exc x /\ is_Exception x = true) /\
      (forall x, enc_outcome e (enc_call s o i p n) = Exc x -> is_Exception x = true -> rest = []) /\
      bencode e o i p s = (res_map Some (enc_outcome e (enc_call s o i p n)), s') /\
      same_but s s' /\
      b_log s' = b_log s ++ flat_map (fun m => opt_list (enc_call s o i p m)) (tried ++ [n]).
  Proof.
    intros W NN F. destruct (encode_loop_spec o i p s W (b_names s) s NN (same_refl s)) as (tr & n & r & s' & H).
    exists tr, n, r, s'. unfold bencode. rewrite (bind_eq _ _ s tt s (verify_ok s W NN)).
    rewrite (bind_eq _ _ s s s) by reflexivity. rewrite F. exact H.
  Qed.
  Lemma bencode_nofall o i p s n rest : bwf s -> b_names s = n :: rest -> b_fall s = false ->
    exists s', bencode e o i p s = (res_map Some (enc_outcome e (enc_call s o i p n)), s') /\ same_but s s' /\
      b_log s' = b_log s ++ opt_list (enc_call s o i p n).
  Proof.
    intros W NN F. unfold bencode. rewrite (bind_eq _ _ s tt s) by (apply verify_ok; auto; rewrite NN; discriminate).
    rewrite (bind_eq _ _ s s s) by reflexivity. rewrite F, NN.
    destruct (backend_encode_spec n o i p s W) as (s1 & H1 & S1 & L1). exists s1.
    split; [|auto]. unfold bind. rewrite H1. destruct (enc_outcome _ _); reflexivity.
  Qed.
  Lemma bencode_none o i p s : bwf s -> b_names s = [] -> bencode e o i p s = (Exc EAssertion, s).
  Proof. intros W N. unfold bencode. rewrite (bind_exc _ _ s EAssertion s); auto. apply verify_no; auto. Qed.

  Lemma bdecode_fall t s : bwf s -> (forall n, In n (b_names s) -> sget n (b_exc s) <> None) ->
    b_names s <> [] -> b_fall s = true ->
    exists tried n rest s',
      b_names s = tried ++ n :: rest /\
      (forall m, In m tried -> exists x, dec_outcome e (dec_call s t m) = Exc x /\ declared s m x) /\
      (forall x, dec_outcome e (dec_call s t n) = Exc x -> declared s n x -> rest = []) /\
      bdecode e t s = (res_map Some (dec_outcome e (dec_call s t n)), s') /\
      same_but s s' /\
      b_log s' = b_log s ++ flat_map (fun m => opt_list (dec_call s t m)) (tried ++ [n]).
  Proof.
    intros W HX NN F.
    destruct (decode_loop_spec t s W HX (b_names s) s NN (fun _ h => h) (same_refl s)) as (tr & n & r & s' & H).
    exists tr, n, r, s'. unfold bdecode. rewrite (bind_eq _ _ s tt s (verify_ok s W NN)).
    rewrite (bind_eq _ _ s s s) by reflexivity. rewrite F. exact H.
  Qed.
  Lemma bdecode_nofall t s n rest : bwf s -> b_names s = n :: rest -> b_fall s = false ->
    exists s', bdecode e t s = (res_map Some (dec_outcome e (dec_call s t n)), s') /\ same_but s s' /\
      b_log s' = b_log s ++ opt_list (dec_call s t n).
  Proof.
    intros W NN F. unfold bdecode. rewrite (bind_eq _ _ s tt s) by (apply verify_ok; auto; rewrite NN; discriminate).
    rewrite (bind_eq _ _ s s s) by reflexivity. rewrite F, NN.
    destruct (backend_decode_spec n t s W) as (s1 & H1 & S1 & L1). exists s1.
    split; [|auto]. unfold bind. rewrite H1. destruct (dec_outcome _ _); reflexivity.
  Qed.
  Lemma bdecode_none t s : bwf s -> b_names s = [] -> bdecode e t s = (Exc EAssertion, s).
  Proof. intros W N. unfold bdecode. rewrite (bind_exc _ _ s EAssertion s); auto. apply verify_no; auto. Qed.
End proofs.

(** ** Histories *)
Section maps.
  Context {V : Type}.
  Implicit Types o : list (pystr * V).
  Lemma sdel_incl k x o : In x (keys (sdel k o)) -> In x (keys o).
  Proof.
    induction o as [|[k' v'] o IH]; simpl; auto. destruct (seqb k k'); simpl; intuition.
  Qed.
  Lemma sdel_NoDup k o : NoDup (keys o) -> NoDup (keys (sdel k o)).
  Proof.
    induction o as [|[k' v'] o IH]; simpl; auto. intros H. inversion H; subst.
    destruct (seqb k k'); auto. simpl. constructor; auto. intros C. apply sdel_incl in C. auto.
  Qed.
  Lemma sget_sdel_same k o : NoDup (keys o) -> sget k (sdel k o) = None.
  Proof.
    induction o as [|[k' v'] o IH]; simpl; auto. intros H. inversion H; subst.
    destruct (seqb_spec k k') as [->|N].
    - apply sget_None. auto.
    - simpl. destruct (seqb_spec k k'); [contradiction|]. auto.
  Qed.
  Lemma sget_sdel_other k k' o : k <> k' -> sget k (sdel k' o) = sget k o.
  Proof.
    intros N. induction o as [|[a v] o IH]; simpl; auto.
    destruct (seqb_spec k' a) as [->|M].
    - destruct (seqb_spec k a); [subst; contradiction|]. reflexivity.
    - simpl. rewrite IH. reflexivity.
  Qed.
  Lemma sget_sdel_sub k k' v o : NoDup (keys o) -> sget k (sdel k' o) = Some v -> sget k o = Some v.
  Proof.
    intros ND H. destruct (seqb_spec k k') as [->|N].
    - rewrite sget_sdel_same in H; auto. discriminate.
    - rewrite sget_sdel_other in H; auto.
  Qed.
  Lemma sset_NoDup k v o : NoDup (keys o) -> NoDup (keys (sset k v o)).
  Proof.
    induction o as [|[k' v'] o IH]; simpl; intros H.
    - constructor; [intros []|constructor].
    - inversion H; subst. destruct (seqb_spec k k'); simpl.
      + subst. constructor; auto.
      + constructor; auto. intros C. apply sset_keys_incl in C. destruct C; [congruence|contradiction].
  Qed.
  Lemma sget_sset k k' v o : sget k (sset k' v o) = if seqb k k' then Some v else sget k o.
  Proof.
    destruct (seqb_spec k k') as [->|N]; [apply sget_sset_same|apply sget_sset_other; auto].
  Qed.
End maps.

Lemma remove1_In n x l : In x (remove1 n l) -> In x l.
Proof. induction l as [|y l IH]; simpl; auto. destruct (seqb n y); simpl; intuition. Qed.
Lemma remove1_other n x l : x <> n -> In x l -> In x (remove1 n l).
Proof.
  intros N. induction l as [|y l IH]; simpl; auto. destruct (seqb_spec n y); intros [->|I]; simpl; auto. congruence.
Qed.
Lemma remove1_NoDup n l : NoDup l -> NoDup (remove1 n l) /\ ~ In n (remove1 n l).
Proof.
  induction l as [|y l IH]; simpl; intros H; [split; [constructor|auto]|].
  inversion H; subst. destruct (seqb_spec n y) as [->|N]; [auto|].
  destruct (IH H3). split.
  - constructor; auto. intros C. apply remove1_In in C. auto.
  - intros [C|C]; [congruence|auto].
Qed.
Lemma listed_In n l : listed n l = true <-> In n l.
Proof.
  unfold listed. rewrite existsb_exists. split.
  - intros (x & I & E). destruct (seqb_spec n x); [subst; auto|discriminate].
  - intros I. exists n. split; auto. destruct (seqb_spec n n); auto.
Qed.
Lemma listed_not n l : listed n l = false <-> ~ In n l.
Proof. rewrite <- listed_In. destruct (listed n l); split; congruence. Qed.
Lemma remove1_head n x l : x <> n -> hd_error (remove1 n (x :: l)) = Some x.
Proof. intros N. simpl. destruct (seqb_spec n x); [congruence|reflexivity]. Qed.

(** remove_backend in one step *)
Definition removed (n : pystr) (s : bst) : bst :=
  let names := if listed n (b_names s) then remove1 n (b_names s) else b_names s in
  mkB (b_fall s) names (sdel n (b_enc s)) (sdel n (b_dec s)) (sdel n (b_eopts s)) (sdel n (b_dopts s))
      (sdel n (b_exc s)) (match names with [] => false | _ => true end) (b_cells s) (b_log s).
Lemma remove_backend_eq n s : remove_backend n s = (Ret tt, removed n s).
Proof.
  unfold remove_backend, removed, modify, bind. destruct s; simpl. destruct (listed n b_names); reflexivity.
Qed.
Definition put_enc n f s := bs_enc (sset n f (b_enc s)) s.
Definition put_dec n f s := bs_dec (sset n f (b_dec s)) s.
Definition put_exc n f s := bs_exc (sset n f (b_exc s)) s.
Definition setdef_opts n (o : list (pystr * (list nat * nat))) c := setdefault n (@nil nat, c) o.
Arguments setdef_opts : simpl never.
(** the end of a successful load *)
Definition loaded (n : pystr) (s : bst) : bst :=
  mkB (b_fall s) (b_names s ++ [n]) (b_enc s) (b_dec s)
      (setdef_opts n (b_eopts s) (length (b_cells s)))
      (setdef_opts n (b_dopts s) (S (length (b_cells s)))) (b_exc s) true
      (b_cells s ++ [[]; []]) (b_log s).

Lemma bind_oof {S A B} (m : M S A) (f : A -> M S B) s s1 : m s = (OOF, s1) -> bind m f s = (OOF, s1).
Proof. unfold bind. intros ->. reflexivity. Qed.

Section hist.
  Variable e : benv.

  (** All states a load can end in. *)
  Inductive load_end (n : pystr) (s : bst) : bool -> bst -> Prop :=
  | le_same : load_end n s false s
  | le_enc f : load_end n s false (put_enc n f s)
  | le_dec f g : load_end n s false (put_dec n g (put_enc n f s))
  | le_rem0 : load_end n s false (removed n s)
  | le_rem1 f : load_end n s false (removed n (put_enc n f s))
  | le_rem2 f g : load_end n s false (removed n (put_dec n g (put_enc n f s)))
  | le_ok f g h : load_end n s true (loaded n (put_exc n h (put_dec n g (put_enc n f s)))).

  Lemma store_cases put n m a s :
    store e put n m a s = (Ret true, match be_getattr e m a with Ret x => put x s | _ => s end) /\ (exists x, be_getattr e m a = Ret x) \/
    store e put n m a s = (Ret false, removed n s) \/
    (exists r, store e put n m a s = (r, s) /\ (r = OOF \/ exists x, r = Exc x)).
  Proof.
    unfold store, catch, lift, bind, modify. destruct (be_getattr e m a) as [x|x|].
    - left. split; eauto.
    - destruct (is_AttributeError x).
      + right. left. rewrite remove_backend_eq. reflexivity.
      + right. right. eexists; split; [reflexivity|]. eauto.
    - right. right. eexists; split; [reflexivity|]. eauto.
  Qed.

  Lemma load_backend_end n d l x s :
    exists b, load_end n s b (snd (load_backend e n d l x s)) /\
              (b = true <-> fst (load_backend e n d l x s) = Ret true).
  Proof.
    unfold load_backend. destruct (be_import e n) as [top|ex|].
    2:{ exists false. destruct (is_ImportError ex); (split; [apply le_same|split; discriminate]). }
    2:{ exists false. (split; [apply le_same|split; discriminate]). }
    destruct (getattrs_ e top (tl (split_on 46%N n))) as [m|ex|].
    2:{ exists false. destruct (is_AttributeError ex); (split; [apply le_same|split; discriminate]). }
    2:{ exists false. (split; [apply le_same|split; discriminate]). }
    destruct (store_cases (fun f s => bs_enc (sset n f (b_enc s)) s) n m d s) as [(H & f & Hf)|[H|(r & H & D)]].
    2:{ exists false. rewrite (bind_eq _ _ _ _ _ H). split; [apply le_rem0|split; discriminate]. }
    2:{ exists false. destruct D as [->|(y & ->)]; [rewrite (bind_oof _ _ _ _ H)|rewrite (bind_exc _ _ _ _ _ H)]; (split; [apply le_same|split; discriminate]). }
    rewrite Hf in H. rewrite (bind_eq _ _ _ _ _ H). cbn [negb]. clear H.
    set (s1 := bs_enc _ s).
    destruct (store_cases (fun f s => bs_dec (sset n f (b_dec s)) s) n m l s1) as [(H & g & Hg)|[H|(r & H & D)]].
    2:{ exists false. rewrite (bind_eq _ _ _ _ _ H). split; [apply le_rem1|split; discriminate]. }
    2:{ exists false. destruct D as [->|(y & ->)]; [rewrite (bind_oof _ _ _ _ H)|rewrite (bind_exc _ _ _ _ _ H)]; (split; [apply le_enc|split; discriminate]). }
    rewrite Hg in H. rewrite (bind_eq _ _ _ _ _ H). cbn [negb]. clear H.
    set (s2 := bs_dec _ s1).
    destruct x as [x|k].
    - destruct (store_cases (fun f s => bs_exc (sset n f (b_exc s)) s) n m x s2) as [(H & h & Hh)|[H|(r & H & D)]].
      2:{ exists false. rewrite (bind_eq _ _ _ _ _ H). split; [apply le_rem2|split; discriminate]. }
      2:{ exists false. destruct D as [->|(y & ->)]; [rewrite (bind_oof _ _ _ _ H)|rewrite (bind_exc _ _ _ _ _ H)]; (split; [apply le_dec|split; discriminate]). }
      rewrite Hh in H. rewrite (bind_eq _ _ _ _ _ H). cbn [negb]. clear H.
      exists true. split; [|split; reflexivity].
      assert (E : loaded n (put_exc n h (put_dec n g (put_enc n f s))) = loaded n (bs_exc (sset n h (b_exc s2)) s2)) by reflexivity.
      pose proof (le_ok n s f g h) as LE. rewrite E in LE. clear -LE.
      set (s3 := bs_exc _ s2) in *. clearbody s3.
      unfold new_cell, get, modify, bind, ret; destruct s3; simpl. unfold loaded, setdef_opts in LE; simpl in LE.
      rewrite app_length, <- app_assoc; simpl. rewrite Nat.add_1_r. exact LE.
    - rewrite (bind_eq _ _ s2 true (bs_exc (sset n k (b_exc s2)) s2)) by reflexivity. cbn [negb].
      exists true. split; [|split; reflexivity].
      assert (E : loaded n (put_exc n k (put_dec n g (put_enc n f s))) = loaded n (bs_exc (sset n k (b_exc s2)) s2)) by reflexivity.
      pose proof (le_ok n s f g k) as LE. rewrite E in LE. clear -LE.
      set (s3 := bs_exc _ s2) in *. clearbody s3.
      unfold new_cell, get, modify, bind, ret; destruct s3; simpl. unfold loaded, setdef_opts in LE; simpl in LE.
      rewrite app_length, <- app_assoc; simpl. rewrite Nat.add_1_r. exact LE.
  Qed.

  (** *** bwf *)
  Lemma wf_put_enc n f s : bwf s -> bwf (put_enc n f s).
  Proof. intros (W1 & W2 & W3 & W4 & W5 & W6 & W7 & W8). repeat split; auto. simpl. apply sset_NoDup; auto. Qed.
  Lemma wf_put_dec n f s : bwf s -> bwf (put_dec n f s).
  Proof. intros (W1 & W2 & W3 & W4 & W5 & W6 & W7 & W8). repeat split; auto. simpl. apply sset_NoDup; auto. Qed.
  Lemma wf_put_exc n f s : bwf s -> bwf (put_exc n f s).
  Proof. intros (W1 & W2 & W3 & W4 & W5 & W6 & W7 & W8). repeat split; auto. simpl. apply sset_NoDup; auto. Qed.
  Lemma wf_removed n s : bwf s -> bwf (removed n s).
  Proof.
    intros (W1 & W2 & W3 & W4 & W5 & W6 & W7 & W8). unfold bwf, removed; simpl.
    repeat split; try (apply sdel_NoDup; assumption); auto.
    - intros m a c H. eapply W6. eapply sget_sdel_sub; eauto.
    - intros m a c H. eapply W7. eapply sget_sdel_sub; eauto.
  Qed.
  Lemma setdef_NoDup n o c : NoDup (keys o) -> NoDup (keys (setdef_opts n o c)).
  Proof. unfold setdef_opts, setdefault. destruct (sget n o); auto. apply sset_NoDup. Qed.
  Lemma setdef_sget n o c m a c' : sget m (setdef_opts n o c) = Some (a, c') -> sget m o = Some (a, c') \/ c' = c.
  Proof.
    unfold setdef_opts, setdefault. destruct (sget n o); auto.
    rewrite sget_sset. destruct (seqb m n); auto. intros E; inversion E; auto.
  Qed.
  Lemma wf_loaded n s : bwf s -> bwf (loaded n s).
  Proof.
    intros (W1 & W2 & W3 & W4 & W5 & W6 & W7 & W8). unfold bwf, loaded; simpl.
    rewrite app_length; simpl.
    repeat split; auto; try (apply setdef_NoDup; assumption).
    - intros m a c H. apply setdef_sget in H. destruct H as [H| ->]; [apply W6 in H|]; lia.
    - intros m a c H. apply setdef_sget in H. destruct H as [H| ->]; [apply W7 in H|]; lia.
    - destruct (b_names s); reflexivity.
  Qed.
  Lemma wf_load_end n s b s' : load_end n s b s' -> bwf s -> bwf s'.
  Proof.
    intros H W. destruct H; auto using wf_put_enc, wf_put_dec, wf_put_exc, wf_removed, wf_loaded.
  Qed.

  Definition empty_bst (fall : bool) : bst := mkB fall [] [] [] [] [] [] false [] [].
  Lemma wf_empty b : bwf (empty_bst b).
  Proof. unfold bwf; simpl. repeat split; try constructor; intros; discriminate. Qed.

  Lemma wf_opts_e n a kw s : bwf s -> bwf (snd (set_encoder_options n a kw s)).
  Proof.
    intros (W1 & W2 & W3 & W4 & W5 & W6 & W7 & W8). unfold bwf; simpl. rewrite app_length; simpl.
    repeat split; auto; try (apply sset_NoDup; assumption).
    - intros m a' c. rewrite sget_sset. destruct (seqb m n); intros H; [inversion H; lia|apply W6 in H; lia].
    - intros m a' c H. apply W7 in H. lia.
  Qed.
  Lemma wf_opts_d n a kw s : bwf s -> bwf (snd (set_decoder_options n a kw s)).
  Proof.
    intros (W1 & W2 & W3 & W4 & W5 & W6 & W7 & W8). unfold bwf; simpl. rewrite app_length; simpl.
    repeat split; auto; try (apply sset_NoDup; assumption).
    - intros m a' c H. apply W6 in H. lia.
    - intros m a' c. rewrite sget_sset. destruct (seqb m n); intros H; [inversion H; lia|apply W7 in H; lia].
  Qed.
  Lemma wf_prefer n s : bwf s -> bwf (snd (set_preferred n s)).
  Proof.
    intros W. unfold set_preferred. rewrite (bind_eq _ _ s s s) by reflexivity.
    destruct (listed n (b_names s)) eqn:L; [|exact W].
    destruct W as (W1 & W2 & W3 & W4 & W5 & W6 & W7 & W8). unfold bwf; simpl. repeat split; auto.
    rewrite W8. apply listed_In in L. destruct (b_names s); [contradiction|reflexivity].
  Qed.
  Lemma encode_same o i p s : bwf s -> same_but s (snd (bencode e o i p s)).
  Proof.
    intros W. destruct (b_names s) as [|n r] eqn:N.
    - rewrite bencode_none; auto. apply same_refl.
    - destruct (b_fall s) eqn:F.
      + destruct (bencode_fall e o i p s W ltac:(congruence) F) as (? & ? & ? & s' & _ & _ & _ & H & S & _). rewrite H. exact S.
      + destruct (bencode_nofall e o i p s n r W N F) as (s' & H & S & _). rewrite H. exact S.
  Qed.
  Lemma decode_loop_same t s0 : bwf s0 -> forall names s, same_but s0 s -> same_but s0 (snd (decode_loop e names t s)).
  Proof.
    intros W. induction names as [|n r IH]; intros s S; [exact S|]. cbn [decode_loop].
    destruct (backend_decode_spec e n t s (same_wf _ _ S W)) as (s1 & H1 & S1 & L1).
    assert (S01 := same_trans _ _ _ S S1). unfold catch, bind, get. rewrite H1.
    destruct (dec_outcome e (dec_call s t n)) as [a|x|]; try exact S01.
    destruct (sget n (b_exc s1)) as [k|]; [|exact S01].
    destruct (be_isinst e k x); [|exact S01]. destruct r; [exact S01|]. apply IH; auto.
  Qed.
  Lemma decode_same t s : bwf s -> same_but s (snd (bdecode e t s)).
  Proof.
    intros W. destruct (b_names s) as [|n r] eqn:N.
    - rewrite bdecode_none; auto. apply same_refl.
    - destruct (b_fall s) eqn:F.
      + unfold bdecode. rewrite (bind_eq _ _ s tt s) by (apply verify_ok; auto; congruence).
        rewrite (bind_eq _ _ s s s) by reflexivity. rewrite F. apply decode_loop_same; auto using same_refl.
      + destruct (bdecode_nofall e t s n r W N F) as (s' & H & S & _). rewrite H. exact S.
  Qed.

  Lemma wf_step o s : bwf s -> bwf (bstep e o s).
  Proof.
    intros W. destruct o; unfold bstep, discard.
    - destruct (load_backend_end n dumps loads exc s) as (b & H & _). eapply wf_load_end; eauto.
    - rewrite remove_backend_eq. apply wf_removed; auto.
    - apply wf_prefer; auto.
    - exact W.
    - apply wf_opts_e; auto.
    - apply wf_opts_d; auto.
    - eapply same_wf; [apply encode_same|]; auto.
    - eapply same_wf; [apply decode_same|]; auto.
  Qed.
  Lemma wf_run ops : forall s, bwf s -> bwf (brun e ops s).
  Proof. induction ops as [|o ops IH]; intros s W; [exact W|]. simpl. apply IH, wf_step, W. Qed.
End hist.

(** ** C27 *)
Definition complete (s : bst) (n : pystr) : Prop :=
  sget n (b_enc s) <> None /\ sget n (b_dec s) <> None /\ sget n (b_exc s) <> None.
Definition bgood (s : bst) : Prop := NoDup (b_names s) /\ forall n, In n (b_names s) -> complete s n.
(** Histories that never load a backend that is already loaded. *)
Fixpoint clean (e : benv) (ops : list bop) (s : bst) : Prop :=
  match ops with
  | [] => True
  | o :: r => match o with OpLoad n _ _ _ => ~ In n (b_names s) | _ => True end /\ clean e r (bstep e o s)
  end.

Section good.
  Variable e : benv.

  Lemma sset_not_None {V} k k' (v : V) o : sget k o <> None -> sget k (sset k' v o) <> None.
  Proof. rewrite sget_sset. destruct (seqb k k'); auto. discriminate. Qed.
  Lemma good_put_enc n f s : bgood s -> bgood (put_enc n f s).
  Proof.
    intros [D H]. split; auto. intros m I. destruct (H m I) as (A & B & C). repeat split; auto.
    simpl. apply sset_not_None; auto.
  Qed.
  Lemma good_put_dec n f s : bgood s -> bgood (put_dec n f s).
  Proof.
    intros [D H]. split; auto. intros m I. destruct (H m I) as (A & B & C). repeat split; auto.
    simpl. apply sset_not_None; auto.
  Qed.
  Lemma good_put_exc n f s : bgood s -> bgood (put_exc n f s).
  Proof.
    intros [D H]. split; auto. intros m I. destruct (H m I) as (A & B & C). repeat split; auto.
    simpl. apply sset_not_None; auto.
  Qed.
  Lemma good_removed n s : bgood s -> bgood (removed n s).
  Proof.
    intros [D H].
    assert (X : NoDup (b_names (removed n s)) /\ ~ In n (b_names (removed n s)) /\
                incl (b_names (removed n s)) (b_names s)).
    { unfold removed; simpl. destruct (listed n (b_names s)) eqn:L.
      - destruct (remove1_NoDup n _ D). split; [|split]; auto. intros x. apply remove1_In.
      - apply listed_not in L. split; [|split]; auto. intros x; auto. }
    destruct X as (X1 & X2 & X3). split; auto. intros m I.
    assert (m <> n) by congruence. destruct (H m (X3 m I)) as (A & B & C).
    unfold complete, removed; simpl. rewrite !sget_sdel_other; auto.
  Qed.
  Lemma good_loaded n s : bgood s -> ~ In n (b_names s) -> complete s n -> bgood (loaded n s).
  Proof.
    intros [D H] N Cn. split; simpl.
    - apply NoDup_rev in D. rewrite <- (rev_involutive (b_names s)).
      change [n] with (rev [n]). rewrite <- rev_app_distr. apply NoDup_rev. simpl. constructor; auto.
      rewrite <- in_rev. auto.
    - intros m I. apply in_app_iff in I. destruct I as [I|[<-|[]]]; [exact (H m I)|exact Cn].
  Qed.
  Lemma good_load_end n s b s' : load_end n s b s' -> ~ In n (b_names s) -> bgood s -> bgood s'.
  Proof.
    intros H N G. destruct H; auto using good_put_enc, good_put_dec, good_put_exc, good_removed.
    apply good_loaded; auto using good_put_enc, good_put_dec, good_put_exc.
    unfold complete; simpl. rewrite !sget_sset. destruct (seqb_spec n n); [|contradiction].
    repeat split; discriminate.
  Qed.
  Lemma good_same s s' : same_but s s' -> bgood s -> bgood s'.
  Proof.
    intros (A1 & A2 & A3 & A4 & A5 & A6 & A7 & A8 & x & A9) [D H]. unfold bgood, complete.
    rewrite A2, A3, A4, A7. split; auto.
  Qed.
  Lemma good_step o s : bwf s -> match o with OpLoad n _ _ _ => ~ In n (b_names s) | _ => True end ->
    bgood s -> bgood (bstep e o s).
  Proof.
    intros W N G. destruct o; unfold bstep, discard.
    - destruct (load_backend_end e n dumps loads exc s) as (b & H & _). eapply good_load_end; eauto.
    - rewrite remove_backend_eq. apply good_removed; auto.
    - unfold set_preferred. rewrite (bind_eq _ _ s s s) by reflexivity.
      destruct (listed n (b_names s)) eqn:L; [|exact G]. destruct G as [D H]. split; simpl.
      + destruct (remove1_NoDup n _ D). constructor; auto.
      + intros m [<-|I]; [apply H; apply listed_In; auto|]. apply H. eapply remove1_In; eauto.
    - exact G.
    - exact G.
    - exact G.
    - eapply good_same; [apply encode_same|]; auto.
    - eapply good_same; [apply decode_same|]; auto.
  Qed.
  Lemma good_run ops : forall s, bwf s -> bgood s -> clean e ops s -> bgood (brun e ops s).
  Proof.
    induction ops as [|o ops IH]; intros s W G C; [exact G|]. destruct C as [C1 C2].
    simpl. apply IH; auto using wf_step, good_step.
  Qed.

  (** A newly made JSONBackend. *)
  Lemma load_names n s b s' : load_end n s b s' -> incl (b_names s') (n :: b_names s).
  Proof.
    intros H x I. destruct H; simpl in *; auto;
      try (destruct (listed n (b_names s)); [apply remove1_In in I|]; auto).
    apply in_app_iff in I. destruct I as [I|[<-|[]]]; auto.
  Qed.
  Lemma binit_ok fall v s : fst (binit e fall v s) = Ret tt ->
    bwf (snd (binit e fall v s)) /\ bgood (snd (binit e fall v s)) /\
    (forall n, In n (b_names (snd (binit e fall v s))) -> n = u "simplejson" \/ n = u "json" \/ n = u "ujson").
  Proof.
    unfold binit. rewrite (bind_eq _ _ s tt (empty_bst fall)) by reflexivity.
    assert (W0 := wf_empty fall). set (s0 := empty_bst fall) in *.
    assert (G0 : bgood s0) by (split; [constructor|intros n []]).
    assert (N0 : b_names s0 = []) by reflexivity. clearbody s0.
    assert (Step : forall n s r s1, load_backend e n (u "dumps") (u "loads") (inr (be_valueerror e)) s = (r, s1) ->
       bwf s -> bgood s -> ~ In n (b_names s) -> bwf s1 /\ bgood s1 /\ incl (b_names s1) (n :: b_names s)).
    { intros n s' r s1 E W G N. destruct (load_backend_end e n (u "dumps") (u "loads") (inr (be_valueerror e)) s') as (b & H & _).
      rewrite E in H. simpl in H. split; [eapply wf_load_end; eauto|]. split; [eapply good_load_end; eauto|].
      eapply load_names; eauto. }
    destruct (load_backend e (u "simplejson") (u "dumps") (u "loads") (inr (be_valueerror e)) s0) as [[b1|x|] s1] eqn:E1.
    2:{ rewrite (bind_exc _ _ _ _ _ E1). discriminate. }
    2:{ rewrite (bind_oof _ _ _ _ E1). discriminate. }
    destruct (Step _ _ _ _ E1 W0 G0) as (W1 & G1 & N1); [rewrite N0; intros []|].
    rewrite (bind_eq _ _ _ _ _ E1). rewrite N0 in N1.
    destruct (load_backend e (u "json") (u "dumps") (u "loads") (inr (be_valueerror e)) s1) as [[b2|x|] s2] eqn:E2.
    2:{ rewrite (bind_exc _ _ _ _ _ E2). discriminate. }
    2:{ rewrite (bind_oof _ _ _ _ E2). discriminate. }
    destruct (Step _ _ _ _ E2 W1 G1) as (W2 & G2 & N2).
    { intros I. apply N1 in I. destruct I as [I|[]]. discriminate. }
    rewrite (bind_eq _ _ _ _ _ E2).
    destruct (load_backend e (u "ujson") (u "dumps") (u "loads") (inr (be_valueerror e)) s2) as [[b3|x|] s3] eqn:E3.
    2:{ rewrite (bind_exc _ _ _ _ _ E3). discriminate. }
    2:{ rewrite (bind_oof _ _ _ _ E3). discriminate. }
    destruct (Step _ _ _ _ E3 W2 G2) as (W3 & G3 & N3).
    { intros I. apply N2 in I. destruct I as [I|I]; [discriminate|]. apply N1 in I. destruct I as [I|[]]. discriminate. }
    rewrite (bind_eq _ _ _ _ _ E3). intros _.
    destruct W3 as (X1 & X2 & X3 & X4 & X5 & X6 & X7 & X8). split; [|split].
    - unfold bwf; simpl. rewrite !app_length; simpl. repeat split; auto.
      + repeat constructor; simpl; intuition discriminate.
      + intros n a c. repeat (destruct (seqb _ _); [intros H; inversion H; lia|]). discriminate.
      + intros n a c H. apply X7 in H. lia.
    - exact G3.
    - simpl. intros n I. apply N3 in I. destruct I as [I|I]; [subst; auto|].
      apply N2 in I. destruct I as [I|I]; [subst; auto|]. apply N1 in I. destruct I as [I|[]]. subst; auto.
  Qed.

  (** The preferred backend stays first until another is preferred or it is removed/reloaded. *)
  Definition keeps_first (n : pystr) (o : bop) : Prop :=
    match o with OpPrefer m => m = n | OpRemove m => m <> n | OpLoad m _ _ _ => m <> n | _ => True end.
  Lemma removed_head n m s : m <> n -> hd_error (b_names s) = Some n -> hd_error (b_names (removed m s)) = Some n.
  Proof.
    intros N H. unfold removed; simpl. destruct (listed m (b_names s)); auto.
    destruct (b_names s) as [|x l]; [discriminate|]. inversion H; subst. apply remove1_head; auto.
  Qed.
  Lemma first_step n o s : bwf s -> keeps_first n o -> hd_error (b_names s) = Some n ->
    hd_error (b_names (bstep e o s)) = Some n.
  Proof.
    intros W K H. destruct o; unfold bstep, discard; simpl in K; auto.
    - destruct (load_backend_end e n0 dumps loads exc s) as (b & L & _).
      destruct L; auto; try (apply removed_head; auto).
      simpl. destruct (b_names s); [discriminate|exact H].
    - rewrite remove_backend_eq. apply removed_head; auto.
    - subst. unfold set_preferred. rewrite (bind_eq _ _ s s s) by reflexivity.
      destruct (listed n (b_names s)); auto.
    - destruct (encode_same e obj indent separators s W) as (_ & -> & _). auto.
    - destruct (decode_same e text s W) as (_ & -> & _). auto.
  Qed.
  Lemma first_run n ops : forall s, bwf s -> Forall (keeps_first n) ops -> hd_error (b_names s) = Some n ->
    hd_error (b_names (brun e ops s)) = Some n.
  Proof.
    induction ops as [|o ops IH]; intros s W F H; auto. inversion F; subst. simpl.
    apply IH; auto using wf_step, first_step.
  Qed.
  Lemma prefer_first n s : In n (b_names s) ->
    fst (set_preferred n s) = Ret tt /\ hd_error (b_names (snd (set_preferred n s))) = Some n /\
    (forall m, In m (b_names (snd (set_preferred n s))) <-> In m (b_names s)).
  Proof.
    intros I. unfold set_preferred. rewrite (bind_eq _ _ s s s) by reflexivity.
    assert (L := proj2 (listed_In n (b_names s)) I). rewrite L. split; [reflexivity|]. split; [reflexivity|].
    simpl. intros m. split.
    - intros [<-|J]; auto. eapply remove1_In; eauto.
    - intros J. destruct (seqb_spec m n) as [->|N]; auto. right. apply remove1_other; auto.
  Qed.
  Lemma prefer_missing n s : ~ In n (b_names s) -> set_preferred n s = (Exc EAssertion, s).
  Proof.
    intros I. unfold set_preferred. rewrite (bind_eq _ _ s s s) by reflexivity.
    assert (L := proj2 (listed_not n (b_names s)) I). rewrite L. reflexivity.
  Qed.

  (** Removal forgets. *)
  Lemma remove_forgets n s : bwf s -> NoDup (b_names s) ->
    let s' := snd (remove_backend n s) in
    ~ In n (b_names s') /\ sget n (b_enc s') = None /\ sget n (b_dec s') = None /\ sget n (b_exc s') = None /\
    sget n (b_eopts s') = None /\ sget n (b_dopts s') = None /\
    forall m, m <> n -> (In m (b_names s') <-> In m (b_names s)) /\ sget m (b_enc s') = sget m (b_enc s) /\
      sget m (b_dec s') = sget m (b_dec s) /\ sget m (b_exc s') = sget m (b_exc s) /\
      stored (b_eopts s') s' m = stored (b_eopts s) s m /\ stored (b_dopts s') s' m = stored (b_dopts s) s m.
  Proof.
    intros (W1 & W2 & W3 & W4 & W5 & W6 & W7 & W8) D s'. subst s'. rewrite remove_backend_eq. simpl.
    rewrite !sget_sdel_same by auto. split; [|repeat split; auto].
    - destruct (listed n (b_names s)) eqn:L; [|apply listed_not; auto]. apply remove1_NoDup; auto.
    - destruct (listed n (b_names s)); auto. apply remove1_In.
    - destruct (listed n (b_names s)); auto. apply remove1_other; auto.
    - apply sget_sdel_other; auto.
    - apply sget_sdel_other; auto.
    - apply sget_sdel_other; auto.
    - unfold stored. rewrite sget_sdel_other; auto.
    - unfold stored. rewrite sget_sdel_other; auto.
  Qed.

  (** ** C28 *)
  Lemma set_opts_stored n a kw s : bwf s ->
    let s' := snd (set_encoder_options n a kw s) in stored (b_eopts s') s' n = (a, kw).
  Proof. intros W s'. subst s'. unfold stored; simpl. rewrite sget_sset_same, nth_last. reflexivity. Qed.
  Lemma set_dopts_stored n a kw s : bwf s ->
    let s' := snd (set_decoder_options n a kw s) in stored (b_dopts s') s' n = (a, kw).
  Proof. intros W s'. subst s'. unfold stored; simpl. rewrite sget_sset_same, nth_last. reflexivity. Qed.

  (** Operations that do not concern the options of n. *)
  Definition keeps_opts (n : pystr) (o : bop) : Prop :=
    match o with
    | OpEncOpts m _ _ | OpDecOpts m _ _ | OpRemove m | OpLoad m _ _ _ => m <> n
    | _ => True
    end.
  Lemma stored_removed n m s : m <> n ->
    stored (b_eopts (removed m s)) (removed m s) n = stored (b_eopts s) s n /\
    stored (b_dopts (removed m s)) (removed m s) n = stored (b_dopts s) s n.
  Proof. intros N. unfold stored; simpl. rewrite !sget_sdel_other by auto. auto. Qed.
  Lemma setdef_other n m o c : m <> n -> sget n (setdef_opts m o c) = sget n o.
  Proof. intros N. unfold setdef_opts, setdefault. destruct (sget m o); auto. apply sget_sset_other; auto. Qed.
  Lemma stored_step n o s : bwf s -> keeps_opts n o ->
    stored (b_eopts (bstep e o s)) (bstep e o s) n = stored (b_eopts s) s n /\
    stored (b_dopts (bstep e o s)) (bstep e o s) n = stored (b_dopts s) s n.
  Proof.
    intros W K. destruct o; unfold bstep, discard; simpl in K; auto.
    - destruct (load_backend_end e n0 dumps loads exc s) as (b & L & _).
      destruct L; auto;
        try match goal with |- stored (b_eopts (removed _ ?x)) _ _ = _ /\ _ => exact (stored_removed n n0 x K) end.
      unfold stored, loaded; simpl. rewrite !setdef_other by auto.
      destruct W as (W1 & W2 & W3 & W4 & W5 & W6 & W7 & W8).
      split.
      + destruct (sget n (b_eopts s)) as [[a c]|] eqn:E; auto. rewrite app_nth1; eauto.
      + destruct (sget n (b_dopts s)) as [[a c]|] eqn:E; auto. rewrite app_nth1; eauto.
    - rewrite remove_backend_eq. apply stored_removed; auto.
    - unfold set_preferred. rewrite (bind_eq _ _ s s s) by reflexivity. destruct (listed n0 (b_names s)); auto.
    - destruct W as (W1 & W2 & W3 & W4 & W5 & W6 & W7 & W8). unfold stored; simpl.
      rewrite sget_sset_other by auto. split.
      + destruct (sget n (b_eopts s)) as [[a c]|] eqn:E; auto. rewrite app_nth1; eauto.
      + destruct (sget n (b_dopts s)) as [[a c]|] eqn:E; auto. rewrite app_nth1; eauto.
    - destruct W as (W1 & W2 & W3 & W4 & W5 & W6 & W7 & W8). unfold stored; simpl.
      rewrite sget_sset_other by auto. split.
      + destruct (sget n (b_eopts s)) as [[a c]|] eqn:E; auto. rewrite app_nth1; eauto.
      + destruct (sget n (b_dopts s)) as [[a c]|] eqn:E; auto. rewrite app_nth1; eauto.
    - split; [apply same_stored_e|apply same_stored_d]; auto using encode_same.
    - split; [apply same_stored_e|apply same_stored_d]; auto using decode_same.
  Qed.
  Lemma stored_run n ops : forall s, bwf s -> Forall (keeps_opts n) ops ->
    stored (b_eopts (brun e ops s)) (brun e ops s) n = stored (b_eopts s) s n /\
    stored (b_dopts (brun e ops s)) (brun e ops s) n = stored (b_dopts s) s n.
  Proof.
    induction ops as [|o ops IH]; intros s W F; auto. inversion F; subst. simpl.
    destruct (IH _ (wf_step e o s W) H2) as [-> ->]. apply stored_step; auto.
  Qed.
  Lemma enc_call_after_set n a kw ops s f o i p : bwf s -> Forall (keeps_opts n) ops ->
    let s' := brun e ops (snd (set_encoder_options n a kw s)) in
    sget n (b_enc s') = Some f -> enc_call s' o i p n = Some (BEnc f o a (override i p kw)).
  Proof.
    intros W F s' E. unfold enc_call. rewrite E.
    destruct (stored_run n ops _ (wf_opts_e n a kw s W) F) as [S _]. fold s' in S. rewrite S.
    rewrite (set_opts_stored n a kw s W). reflexivity.
  Qed.
  Lemma dec_call_after_set n a kw ops s f t : bwf s -> Forall (keeps_opts n) ops ->
    let s' := brun e ops (snd (set_decoder_options n a kw s)) in
    sget n (b_dec s') = Some f -> dec_call s' t n = Some (BDec f t a kw).
  Proof.
    intros W F s' E. unfold dec_call. rewrite E.
    destruct (stored_run n ops _ (wf_opts_d n a kw s W) F) as [_ S]. fold s' in S. rewrite S.
    rewrite (set_dopts_stored n a kw s W). reflexivity.
  Qed.
End good.
