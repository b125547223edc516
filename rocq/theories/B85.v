(** Base85 as used by jsonpickle: util.b85encode / util.b85decode
    (/repo/jsonpickle/util.py:517-531), i.e. CPython's base64._85encode and
    base64.b85decode. *)
From Verif Require Import PyStr B64.
From Coq Require Import ZifyBool ZifyN ZifyNat.
Ltac Zify.zify_post_hook ::= Z.div_mod_to_equations.
Open Scope N_scope.

Definition alpha85 : pystr :=
  u "0123456789ABCDEFGHIJKLMNOPQRSTUVWXYZabcdefghijklmnopqrstuvwxyz!#$%&()*+-;<=>?@^_`{|}~".

(** util.py:517-521: the alphabet of base64.b85encode *)
Definition enc85 (n : N) : N := nth (N.to_nat n) alpha85 0.

Fixpoint find_index (c : N) (l : pystr) (i : N) : option N :=
  match l with
  | [] => None
  | x :: r => if N.eqb x c then Some i else find_index c r (i + 1)
  end.
Definition dec85 (c : N) : option N := find_index c alpha85 0.

(** base64.b85encode and b85decode (Python library) used by util.py:517-531 *)
Definition word (a b c d : N) : N := ((a * 256 + b) * 256 + c) * 256 + d.
Definition digit (w : N) (i : nat) : N :=
  match i with
  | 0%nat => w / 52200625
  | 1%nat => w / 614125 mod 85
  | 2%nat => w / 7225 mod 85
  | 3%nat => w / 85 mod 85
  | _ => w mod 85
  end.
Definition chunk (w : N) : pystr :=
  [enc85 (digit w 0); enc85 (digit w 1); enc85 (digit w 2); enc85 (digit w 3); enc85 (digit w 4)].

(** util.b85encode: the final partial word is zero padded and the padding characters cut off. *)
Fixpoint b85encode (l : bytes) : pystr :=
  match l with
  | [] => []
  | [a] => firstn 2 (chunk (word (bN a) 0 0 0))
  | [a; b] => firstn 3 (chunk (word (bN a) (bN b) 0 0))
  | [a; b; c] => firstn 4 (chunk (word (bN a) (bN b) (bN c) 0))
  | a :: b :: c :: d :: r => chunk (word (bN a) (bN b) (bN c) (bN d)) ++ b85encode r
  end.

(** One hunk of five characters: [None] is ValueError (bad character or overflow). *)
Definition dechunk (s : pystr) : option N :=
  let step := fun acc c =>
    match acc, dec85 c with Some a, Some v => Some (a * 85 + v) | _, _ => None end in
  match fold_left step s (Some 0) with
  | Some a => if a <? 4294967296 then Some a else None
  | None => None
  end.
Definition unword (w : N) : bytes :=
  [Nb (w / 16777216); Nb (w / 65536 mod 256); Nb (w / 256 mod 256); Nb (w mod 256)].

(** base64.b85decode: pad with '~' to a multiple of five, decode, cut the padding. *)
Fixpoint dec85_all (s : pystr) : option bytes :=
  match s with
  | [] => Some []
  | [a] => (* padding = 4: the 4 decoded bytes are all removed *)
      option_map (fun w => firstn 0 (unword w)) (dechunk [a; 126; 126; 126; 126])
  | [a; b] => option_map (fun w => firstn 1 (unword w)) (dechunk [a; b; 126; 126; 126])
  | [a; b; c] => option_map (fun w => firstn 2 (unword w)) (dechunk [a; b; c; 126; 126])
  | [a; b; c; d] => option_map (fun w => firstn 3 (unword w)) (dechunk [a; b; c; d; 126])
  | a :: b :: c :: d :: e :: r =>
      match dechunk [a; b; c; d; e] with
      | Some w => option_map (app (unword w)) (dec85_all r)
      | None => None
      end
  end.

(** unpickler.py:435-439 [_restore_base85] on a string payload and util.b85decode
    (util.py:524-531).  A non-ASCII code point only contributes bytes outside the
    alphabet, so both the real and this decoder answer b"" for it. *)
Definition b85decode (s : pystr) : bytes :=
  if utf8_ok s then match dec85_all s with Some l => l | None => [] end else [].

Lemma dec_enc85_all :
  forallb (fun n => match dec85 (enc85 (N.of_nat n)) with Some m => N.eqb m (N.of_nat n) | None => false end)
          (seq 0 85) = true.
Proof. reflexivity. Qed.
Lemma dec_enc85 n : n < 85 -> dec85 (enc85 n) = Some n.
Proof.
  intros H. pose proof dec_enc85_all as A. rewrite forallb_forall in A.
  specialize (A (N.to_nat n)). rewrite N2Nat.id in A.
  assert (In (N.to_nat n) (seq 0 85)) by (apply in_seq; lia).
  specialize (A H0). destruct (dec85 (enc85 n)); [|discriminate]. apply N.eqb_eq in A. congruence.
Qed.
Lemma dec_tilde : dec85 126 = Some 84. Proof. reflexivity. Qed.

Lemma word_lt a b c d : word (bN a) (bN b) (bN c) (bN d) < 4294967296.
Proof.
  pose proof (bN_lt a). pose proof (bN_lt b). pose proof (bN_lt c). pose proof (bN_lt d).
  unfold word. lia.
Qed.

Lemma digit_lt w i : w < 4294967296 -> digit w i < 85.
Proof. intros H. unfold digit. destruct i as [|[|[|[|i]]]]; lia. Qed.

Definition horner (a b c d e : N) : N := (((a * 85 + b) * 85 + c) * 85 + d) * 85 + e.

Lemma dechunk5 a b c d e a' b' c' d' e' :
  dec85 a = Some a' -> dec85 b = Some b' -> dec85 c = Some c' -> dec85 d = Some d' -> dec85 e = Some e' ->
  dechunk [a; b; c; d; e] =
  let w := horner a' b' c' d' e' in if w <? 4294967296 then Some w else None.
Proof.
  intros H1 H2 H3 H4 H5. unfold dechunk. cbn [fold_left].
  rewrite H1, H2, H3, H4, H5. reflexivity.
Qed.

Lemma div_85s w :
  w / 7225 = w / 85 / 85 /\ w / 614125 = w / 85 / 85 / 85 /\ w / 52200625 = w / 85 / 85 / 85 / 85.
Proof. rewrite !N.div_div by discriminate. repeat split. Qed.

Lemma dm85 q : q / 85 * 85 + q mod 85 = q.
Proof. lia. Qed.

Lemma horner_eq w :
  digit w 0 * 85 + digit w 1 = w / 614125 /\ w / 614125 * 85 + digit w 2 = w / 7225 /\
  w / 7225 * 85 + digit w 3 = w / 85 /\ w / 85 * 85 + digit w 4 = w.
Proof.
  destruct (div_85s w) as (E1 & E2 & E3). unfold digit. rewrite E3, E2, E1.
  repeat split; apply dm85.
Qed.

Lemma horner_digits w :
  horner (digit w 0) (digit w 1) (digit w 2) (digit w 3) (digit w 4) = w.
Proof.
  destruct (horner_eq w) as (H1 & H2 & H3 & H4). unfold horner.
  rewrite H1, H2, H3, H4. reflexivity.
Qed.

Lemma dechunk_chunk w : w < 4294967296 -> dechunk (chunk w) = Some w.
Proof.
  intros H. unfold chunk.
  rewrite (dechunk5 _ _ _ _ _ _ _ _ _ _ (dec_enc85 _ (digit_lt w 0 H)) (dec_enc85 _ (digit_lt w 1 H))
            (dec_enc85 _ (digit_lt w 2 H)) (dec_enc85 _ (digit_lt w 3 H)) (dec_enc85 _ (digit_lt w 4 H))).
  cbv zeta. rewrite horner_digits. destruct (w <? 4294967296) eqn:E; auto. lia.
Qed.

Lemma unword_word a b c d : unword (word (bN a) (bN b) (bN c) (bN d)) = [a; b; c; d].
Proof.
  pose proof (bN_lt a). pose proof (bN_lt b). pose proof (bN_lt c). pose proof (bN_lt d).
  unfold unword, word.
  f_equal; [|f_equal; [|f_equal; [|f_equal]]]; apply Nb_is; lia.
Qed.

Lemma list_ind4 {A} (P : list A -> Prop) :
  P [] -> (forall a, P [a]) -> (forall a b, P [a; b]) -> (forall a b c, P [a; b; c]) ->
  (forall a b c d r, P r -> P (a :: b :: c :: d :: r)) -> forall l, P l.
Proof.
  intros H0 H1 H2 H3 H4. fix IH 1. intros [|a [|b [|c [|d r]]]]; [auto|auto|auto|auto|apply H4, IH].
Qed.

(** Decoding the truncated last hunk: the '~' padding is digit 84, and the bytes kept are unaffected. *)
Lemma tail1 w : w < 4294967296 -> w mod 16777216 = 0 ->
  let w' := horner (digit w 0) (digit w 1) 84 84 84 in
  w' < 4294967296 /\ w' / 16777216 = w / 16777216.
Proof.
  intros H M. cbv zeta. destruct (horner_eq w) as (H1 & _). unfold horner. rewrite H1. split; lia.
Qed.
Lemma tail2 w : w < 4294967296 -> w mod 65536 = 0 ->
  let w' := horner (digit w 0) (digit w 1) (digit w 2) 84 84 in
  w' < 4294967296 /\ w' / 65536 = w / 65536.
Proof.
  intros H M. cbv zeta. destruct (horner_eq w) as (H1 & H2 & _). unfold horner. rewrite H1, H2. split; lia.
Qed.
Lemma tail3 w : w < 4294967296 -> w mod 256 = 0 ->
  let w' := horner (digit w 0) (digit w 1) (digit w 2) (digit w 3) 84 in
  w' < 4294967296 /\ w' / 256 = w / 256.
Proof.
  intros H M. cbv zeta. destruct (horner_eq w) as (H1 & H2 & H3 & _). unfold horner. rewrite H1, H2, H3. split; lia.
Qed.

Lemma ltb_true a b : a < b -> (a <? b) = true.
Proof. apply N.ltb_lt. Qed.

Lemma dec85_encode l : dec85_all (b85encode l) = Some l.
Proof.
  induction l as [|a|a b|a b c|a b c d r IH] using list_ind4.
  - reflexivity.
  - pose proof (bN_lt a) as Ha. cbn [b85encode]. set (w := word (bN a) 0 0 0).
    assert (Hw : w < 4294967296) by (unfold w, word; lia).
    assert (Hm : w mod 16777216 = 0) by (unfold w, word; lia).
    assert (Hq : w / 16777216 = bN a) by (unfold w, word; lia).
    cbn [firstn chunk dec85_all].
    rewrite (dechunk5 _ _ _ _ _ _ _ _ _ _ (dec_enc85 _ (digit_lt w 0 Hw)) (dec_enc85 _ (digit_lt w 1 Hw))
              dec_tilde dec_tilde dec_tilde).
    destruct (tail1 w Hw Hm) as [T1 T2]. cbv zeta. rewrite (ltb_true _ _ T1). cbn [option_map firstn unword].
    rewrite T2, Hq, Nb_bN. reflexivity.
  - pose proof (bN_lt a) as Ha. pose proof (bN_lt b) as Hb. cbn [b85encode]. set (w := word (bN a) (bN b) 0 0).
    assert (Hw : w < 4294967296) by (unfold w, word; lia).
    assert (Hm : w mod 65536 = 0) by (unfold w, word; lia).
    assert (Hq : w / 65536 = bN a * 256 + bN b) by (unfold w, word; lia).
    cbn [firstn chunk dec85_all].
    rewrite (dechunk5 _ _ _ _ _ _ _ _ _ _ (dec_enc85 _ (digit_lt w 0 Hw)) (dec_enc85 _ (digit_lt w 1 Hw))
              (dec_enc85 _ (digit_lt w 2 Hw)) dec_tilde dec_tilde).
    destruct (tail2 w Hw Hm) as [T1 T2]. cbv zeta. rewrite (ltb_true _ _ T1). cbn [option_map firstn unword].
    rewrite T2, Hq.
    replace (horner (digit w 0) (digit w 1) (digit w 2) 84 84 / 16777216) with (bN a) by lia.
    rewrite Nb_bN. do 3 f_equal. apply Nb_is. lia.
  - pose proof (bN_lt a) as Ha. pose proof (bN_lt b) as Hb. pose proof (bN_lt c) as Hc.
    cbn [b85encode]. set (w := word (bN a) (bN b) (bN c) 0).
    assert (Hw : w < 4294967296) by (unfold w, word; lia).
    assert (Hm : w mod 256 = 0) by (unfold w, word; lia).
    assert (Hq : w / 256 = (bN a * 256 + bN b) * 256 + bN c) by (unfold w, word; lia).
    cbn [firstn chunk dec85_all].
    rewrite (dechunk5 _ _ _ _ _ _ _ _ _ _ (dec_enc85 _ (digit_lt w 0 Hw)) (dec_enc85 _ (digit_lt w 1 Hw))
              (dec_enc85 _ (digit_lt w 2 Hw)) (dec_enc85 _ (digit_lt w 3 Hw)) dec_tilde).
    destruct (tail3 w Hw Hm) as [T1 T2]. cbv zeta. rewrite (ltb_true _ _ T1). cbn [option_map firstn unword].
    rewrite T2, Hq.
    replace (horner (digit w 0) (digit w 1) (digit w 2) (digit w 3) 84 / 16777216) with (bN a) by lia.
    replace (horner (digit w 0) (digit w 1) (digit w 2) (digit w 3) 84 / 65536) with (bN a * 256 + bN b) by lia.
    rewrite Nb_bN. do 3 f_equal; [|f_equal].
    + apply Nb_is. lia.
    + apply Nb_is. lia.
  - cbn [b85encode]. set (w := word (bN a) (bN b) (bN c) (bN d)).
    pose proof (dechunk_chunk w (word_lt a b c d)) as Hd. unfold chunk in *.
    cbn [app dec85_all]. rewrite Hd, IH. cbn [option_map]. unfold w. rewrite unword_word. reflexivity.
Qed.

Lemma enc85_ascii_all : forallb (fun n => let c := enc85 (N.of_nat n) in (32 <=? c) && (c <? 127)) (seq 0 85) = true.
Proof. reflexivity. Qed.
Lemma enc85_ascii n : n < 85 -> 32 <= enc85 n < 127.
Proof.
  intros H. pose proof enc85_ascii_all as A. rewrite forallb_forall in A.
  specialize (A (N.to_nat n)). rewrite N2Nat.id in A.
  assert (I : In (N.to_nat n) (seq 0 85)) by (apply in_seq; lia).
  specialize (A I). cbv zeta in A. lia.
Qed.
Lemma chunk_ascii w : w < 4294967296 -> Forall (fun c => 32 <= c < 127) (chunk w).
Proof.
  intros H. unfold chunk.
  repeat (apply Forall_cons; [apply enc85_ascii, digit_lt; auto|]). constructor.
Qed.
Lemma Forall_firstn {A} (P : A -> Prop) n l : Forall P l -> Forall P (firstn n l).
Proof. intros H. revert n; induction H; intros [|n]; simpl; constructor; auto. Qed.

Lemma b85encode_ascii l : Forall (fun c => 32 <= c < 127) (b85encode l).
Proof.
  induction l as [|a|a b|a b c|a b c d r IH] using list_ind4; cbn [b85encode].
  - constructor.
  - apply Forall_firstn, chunk_ascii. pose proof (bN_lt a). unfold word; lia.
  - apply Forall_firstn, chunk_ascii. pose proof (bN_lt a). pose proof (bN_lt b). unfold word; lia.
  - apply Forall_firstn, chunk_ascii. pose proof (bN_lt a). pose proof (bN_lt b). pose proof (bN_lt c). unfold word; lia.
  - apply Forall_app; split; auto. apply chunk_ascii, word_lt.
Qed.

Lemma b85_roundtrip l : b85decode (b85encode l) = l.
Proof.
  unfold b85decode. rewrite (ascii_utf8_ok _ (b85encode_ascii l)), dec85_encode. reflexivity.
Qed.
