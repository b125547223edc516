(** Base64 as used by jsonpickle: util.b64encode / util.b64decode
    (/repo/jsonpickle/util.py:500-514), i.e. CPython's [binascii.b2a_base64] and the
    non-strict [binascii.a2b_base64].  Bit operations are written with [/] and [mod]. *)
From Verif Require Import PyStr.
From Coq Require Import ZifyBool ZifyN ZifyNat.
Ltac Zify.zify_post_hook ::= Z.div_mod_to_equations.
Open Scope N_scope.

(** A byte is an [ascii] (eight bits). *)
Definition byte := ascii.
Definition bytes := list byte.
Definition bN (b : byte) : N := N_of_ascii b.
Definition Nb (n : N) : byte := ascii_of_N n.   (* takes n mod 256 *)

Lemma bN_lt b : bN b < 256.
Proof. destruct b as [[] [] [] [] [] [] [] []]; reflexivity. Qed.
Lemma Nb_bN b : Nb (bN b) = b.
Proof. apply ascii_N_embedding. Qed.
Lemma Nb_is n b : n = bN b -> Nb n = b.
Proof. intros ->. apply Nb_bN. Qed.
Lemma bN_Nb n : n < 256 -> bN (Nb n) = n.
Proof. apply N_ascii_embedding. Qed.

(** The alphabet: A-Z a-z 0-9 + / *)
(** util.py:500-504: the alphabet of base64.b64encode *)
Definition enc64 (n : N) : N :=
  if n <? 26 then 65 + n
  else if n <? 52 then 97 + (n - 26)
  else if n <? 62 then 48 + (n - 52)
  else if n =? 62 then 43 else 47.

Definition dec64 (c : N) : option N :=
  if (65 <=? c) && (c <=? 90) then Some (c - 65)
  else if (97 <=? c) && (c <=? 122) then Some (c - 97 + 26)
  else if (48 <=? c) && (c <=? 57) then Some (c - 48 + 52)
  else if c =? 43 then Some 62
  else if c =? 47 then Some 63
  else None.

Definition PAD : N := 61.

(** util.b64encode (util.py:500-504). *)
Fixpoint b64encode (l : bytes) : pystr :=
  match l with
  | [] => []
  | [a] => [enc64 (bN a / 4); enc64 ((bN a mod 4) * 16); PAD; PAD]
  | [a; b] =>
      [enc64 (bN a / 4); enc64 ((bN a mod 4) * 16 + bN b / 16); enc64 ((bN b mod 16) * 4); PAD]
  | a :: b :: c :: r =>
      enc64 (bN a / 4) :: enc64 ((bN a mod 4) * 16 + bN b / 16)
      :: enc64 ((bN b mod 16) * 4 + bN c / 64) :: enc64 (bN c mod 64) :: b64encode r
  end.

(** binascii.a2b_base64, non strict: [q] is quad_pos, [left] leftchar, [pads] the number
    of '=' seen since the last data character.  [None] is binascii.Error. *)
(** util.py:507-514: binascii.a2b_base64 (not strict) *)
Fixpoint a2b (q : nat) (left : N) (pads : nat) (s : pystr) : option bytes :=
  match s with
  | [] => match q with O => Some [] | _ => None end
  | c :: r =>
      if c =? PAD then
        if (2 <=? q)%nat then
          if (4 <=? q + S pads)%nat then Some [] (* goto done *) else a2b q left (S pads) r
        else a2b q left pads r
      else
        match dec64 c with
        | None => a2b q left pads r
        | Some v =>
            match q with
            | 0%nat => a2b 1 v 0 r
            | 1%nat => option_map (cons (Nb (left * 4 + v / 16))) (a2b 2 (v mod 16) 0 r)
            | 2%nat => option_map (cons (Nb (left * 16 + v / 4))) (a2b 3 (v mod 4) 0 r)
            | _ => option_map (cons (Nb (left * 64 + v))) (a2b 0 0 0 r)
            end
        end
  end.

(** [str.encode("utf-8")] fails exactly on surrogates. *)
(** util.py:511: str.encode refuses surrogates *)
Definition is_surrogate (c : N) : bool := (55296 <=? c) && (c <=? 57343).
Definition utf8_ok (s : pystr) : bool := forallb (fun c => negb (is_surrogate c)) s.

(** unpickler.py:429-433 [_restore_base64] on a string payload, together with
    util.b64decode (util.py:507-514).  The bytes of a non-ASCII code point are all
    >= 128, hence outside the alphabet and skipped by the decoder, so the decoder is
    run on code points directly. *)
Definition b64decode (s : pystr) : bytes :=
  if utf8_ok s then match a2b 0 0 0 s with Some l => l | None => [] end else [].

Lemma dec_enc64 n : n < 64 -> dec64 (enc64 n) = Some n.
Proof.
  intros H. unfold enc64.
  destruct (n <? 26) eqn:?; [|destruct (n <? 52) eqn:?; [|destruct (n <? 62) eqn:?; [|destruct (n =? 62) eqn:?]]];
    unfold dec64;
    repeat match goal with
    | |- (if ?b then _ else _) = _ => let E := fresh in destruct b eqn:E; try lia
    end; f_equal; lia.
Qed.

Lemma enc64_not_pad n : n < 64 -> (enc64 n =? PAD) = false.
Proof.
  intros H. unfold enc64, PAD.
  destruct (n <? 26) eqn:?; [|destruct (n <? 52) eqn:?; [|destruct (n <? 62) eqn:?; [|destruct (n =? 62) eqn:?]]]; lia.
Qed.

Lemma enc64_ascii n : n < 64 -> 32 <= enc64 n < 127.
Proof.
  intros H. unfold enc64.
  destruct (n <? 26) eqn:?; [|destruct (n <? 52) eqn:?; [|destruct (n <? 62) eqn:?; [|destruct (n =? 62) eqn:?]]]; lia.
Qed.

(** Strong induction in steps of three. *)
Lemma list_ind3 {A} (P : list A -> Prop) :
  P [] -> (forall a, P [a]) -> (forall a b, P [a; b]) ->
  (forall a b c r, P r -> P (a :: b :: c :: r)) -> forall l, P l.
Proof.
  intros H0 H1 H2 H3. fix IH 1. intros [|a [|b [|c r]]]; [auto|auto|auto|apply H3, IH].
Qed.

Lemma a2b_step q left pads n r : n < 64 ->
  a2b q left pads (enc64 n :: r) =
  match q with
  | 0%nat => a2b 1 n 0 r
  | 1%nat => option_map (cons (Nb (left * 4 + n / 16))) (a2b 2 (n mod 16) 0 r)
  | 2%nat => option_map (cons (Nb (left * 16 + n / 4))) (a2b 3 (n mod 4) 0 r)
  | _ => option_map (cons (Nb (left * 64 + n))) (a2b 0 0 0 r)
  end.
Proof.
  intros H. cbn [a2b]. rewrite enc64_not_pad, dec_enc64; auto.
Qed.

Lemma a2b_encode l : a2b 0 0 0 (b64encode l) = Some l.
Proof.
  induction l as [|a|a b|a b c r IH] using list_ind3.
  - reflexivity.
  - pose proof (bN_lt a). cbn [b64encode].
    rewrite !a2b_step by lia. cbn -[N.mul N.add N.div N.modulo].
    do 2 f_equal. apply Nb_is. lia.
  - pose proof (bN_lt a). pose proof (bN_lt b). cbn [b64encode].
    rewrite !a2b_step by lia. cbn -[N.mul N.add N.div N.modulo].
    do 2 f_equal; [|f_equal]; apply Nb_is; lia.
  - pose proof (bN_lt a). pose proof (bN_lt b). pose proof (bN_lt c). cbn [b64encode].
    rewrite !a2b_step by lia. rewrite IH. cbn -[N.mul N.add N.div N.modulo].
    f_equal. f_equal; [|f_equal; [|f_equal]]; apply Nb_is; lia.
Qed.

Lemma b64encode_ascii l : Forall (fun c => 32 <= c < 127) (b64encode l).
Proof.
  induction l as [|a|a b|a b c r IH] using list_ind3; cbn [b64encode].
  - constructor.
  - pose proof (bN_lt a).
    repeat (apply Forall_cons; [first [apply enc64_ascii; lia | unfold PAD; lia]|]). constructor.
  - pose proof (bN_lt a). pose proof (bN_lt b).
    repeat (apply Forall_cons; [first [apply enc64_ascii; lia | unfold PAD; lia]|]). constructor.
  - pose proof (bN_lt a). pose proof (bN_lt b). pose proof (bN_lt c).
    repeat (apply Forall_cons; [apply enc64_ascii; lia|]). exact IH.
Qed.

Lemma ascii_utf8_ok s : Forall (fun c => 32 <= c < 127) s -> utf8_ok s = true.
Proof.
  intros H. apply forallb_forall. intros c Hc.
  rewrite Forall_forall in H. specialize (H c Hc). unfold is_surrogate. lia.
Qed.

Lemma b64_roundtrip l : b64decode (b64encode l) = l.
Proof.
  unfold b64decode. rewrite (ascii_utf8_ok _ (b64encode_ascii l)), a2b_encode. reflexivity.
Qed.

(** The length of the text. *)
Lemma b64encode_length l : (length (b64encode l) = 4 * ((length l + 2) / 3))%nat.
Proof.
  induction l as [|a|a b|a b c r IH] using list_ind3; try reflexivity.
  cbn [b64encode length]. rewrite IH. lia.
Qed.
