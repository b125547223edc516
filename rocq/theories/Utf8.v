(** [str.encode()] and [bytes.decode()] with the default codec, UTF-8 in strict mode. *)
From Verif Require Import PyStr B64 Base.
From Coq Require Import ZifyN ZifyNat.
Open Scope N_scope.

(** One code point.  [None]: UnicodeEncodeError (surrogates; values above 0x10ffff are not code
    points at all). *)
Definition utf8_char (c : N) : option (list N) :=
  if c <? 128 then Some [c]
  else if c <? 2048 then Some [192 + c / 64; 128 + c mod 64]
  else if is_surrogate c then None
  else if c <? 65536 then Some [224 + c / 4096; 128 + c / 64 mod 64; 128 + c mod 64]
  else if c <? 1114112 then Some [240 + c / 262144; 128 + c / 4096 mod 64; 128 + c / 64 mod 64; 128 + c mod 64]
  else None.
Fixpoint utf8_encode (s : pystr) : res bytes :=
  match s with
  | [] => Ret []
  | c :: r =>
      match utf8_char c, utf8_encode r with
      | Some b, Ret l => Ret (map Nb b ++ l)
      | None, _ => Exc EUnicodeError
      | _, x => x
      end
  end.
Definition cont (b : N) : bool := (128 <=? b) && (b <? 192).
Definition ucons (c : N) (r : res pystr) : res pystr := match r with Ret s => Ret (c :: s) | x => x end.
Fixpoint utf8_decode (l : list N) : res pystr :=
  match l with
  | [] => Ret []
  | b :: r =>
      if b <? 128 then ucons b (utf8_decode r)
      else if (194 <=? b) && (b <? 224) then
        match r with
        | c1 :: r1 => if cont c1 then ucons ((b - 192) * 64 + (c1 - 128)) (utf8_decode r1) else Exc EUnicodeError
        | _ => Exc EUnicodeError
        end
      else if (224 <=? b) && (b <? 240) then
        match r with
        | c1 :: c2 :: r2 =>
            let c := (b - 224) * 4096 + (c1 - 128) * 64 + (c2 - 128) in
            if cont c1 && cont c2 && (2048 <=? c) && negb (is_surrogate c) then ucons c (utf8_decode r2)
            else Exc EUnicodeError
        | _ => Exc EUnicodeError
        end
      else if (240 <=? b) && (b <? 245) then
        match r with
        | c1 :: c2 :: c3 :: r3 =>
            let c := (b - 240) * 262144 + (c1 - 128) * 4096 + (c2 - 128) * 64 + (c3 - 128) in
            if cont c1 && cont c2 && cont c3 && (65536 <=? c) && (c <? 1114112) then ucons c (utf8_decode r3)
            else Exc EUnicodeError
        | _ => Exc EUnicodeError
        end
      else Exc EUnicodeError
  end.

Lemma utf8_decode_cons b r : utf8_decode (b :: r) =
      if b <? 128 then ucons b (utf8_decode r)
      else if (194 <=? b) && (b <? 224) then
        match r with
        | c1 :: r1 => if cont c1 then ucons ((b - 192) * 64 + (c1 - 128)) (utf8_decode r1) else Exc EUnicodeError
        | _ => Exc EUnicodeError
        end
      else if (224 <=? b) && (b <? 240) then
        match r with
        | c1 :: c2 :: r2 =>
            let c := (b - 224) * 4096 + (c1 - 128) * 64 + (c2 - 128) in
            if cont c1 && cont c2 && (2048 <=? c) && negb (is_surrogate c) then ucons c (utf8_decode r2)
            else Exc EUnicodeError
        | _ => Exc EUnicodeError
        end
      else if (240 <=? b) && (b <? 245) then
        match r with
        | c1 :: c2 :: c3 :: r3 =>
            let c := (b - 240) * 262144 + (c1 - 128) * 4096 + (c2 - 128) * 64 + (c3 - 128) in
            if cont c1 && cont c2 && cont c3 && (65536 <=? c) && (c <? 1114112) then ucons c (utf8_decode r3)
            else Exc EUnicodeError
        | _ => Exc EUnicodeError
        end
      else Exc EUnicodeError.
Proof. reflexivity. Qed.
Lemma some_inj {A} (a b : A) : Some a = Some b -> a = b.
Proof. congruence. Qed.
Ltac dm a := pose proof (N.div_mod' a 64); pose proof (N.mod_lt a 64 ltac:(discriminate)).
Ltac dms c := dm c; dm (c / 64); dm (c / 64 / 64);
  assert (c / 4096 = c / 64 / 64) by (rewrite N.div_div by discriminate; reflexivity);
  assert (c / 262144 = c / 64 / 64 / 64) by (rewrite !N.div_div by discriminate; reflexivity).
Ltac nbool := repeat match goal with
  | |- context [?a <? ?b] => first [replace (a <? b) with true by (symmetry; apply N.ltb_lt; lia) | replace (a <? b) with false by (symmetry; apply N.ltb_ge; lia)]
  | |- context [?a <=? ?b] => first [replace (a <=? b) with true by (symmetry; apply N.leb_le; lia) | replace (a <=? b) with false by (symmetry; apply N.leb_gt; lia)]
  end.
Lemma utf8_char_decode c b r : utf8_char c = Some b -> utf8_decode (b ++ r) = ucons c (utf8_decode r).
Proof.
  unfold utf8_char. destruct (c <? 128) eqn:E1.
  { intros HH. apply some_inj in HH; subst b. cbn [app]; rewrite utf8_decode_cons. rewrite E1. reflexivity. }
  apply N.ltb_ge in E1. destruct (c <? 2048) eqn:E2.
  { apply N.ltb_lt in E2. dms c. intros HH. apply some_inj in HH; subst b. cbn [app]; rewrite utf8_decode_cons. unfold cont. nbool. cbn [andb].
    f_equal.
    lia. }
  apply N.ltb_ge in E2. destruct (is_surrogate c) eqn:Es; [discriminate|]. destruct (c <? 65536) eqn:E3.
  { apply N.ltb_lt in E3. dms c. intros HH. apply some_inj in HH; subst b. cbn [app]; rewrite utf8_decode_cons. cbv zeta.
    replace ((224 + c / 4096 - 224) * 4096 + (128 + c / 64 mod 64 - 128) * 64 + (128 + c mod 64 - 128)) with c.
    2: lia.
    rewrite Es. unfold cont. nbool. reflexivity. }
  apply N.ltb_ge in E3. destruct (c <? 1114112) eqn:E4; [|discriminate]. apply N.ltb_lt in E4. dms c.
  intros HH. apply some_inj in HH; subst b. cbn [app]; rewrite utf8_decode_cons. cbv zeta.
  replace ((240 + c / 262144 - 240) * 262144 + (128 + c / 4096 mod 64 - 128) * 4096 + (128 + c / 64 mod 64 - 128) * 64 + (128 + c mod 64 - 128)) with c.
  2: lia.
  unfold cont. nbool. reflexivity.
Qed.
Lemma utf8_char_small c b : utf8_char c = Some b -> Forall (fun x => x < 256) b.
Proof.
  unfold utf8_char. destruct (c <? 128) eqn:E1.
  { apply N.ltb_lt in E1. intros HH. apply some_inj in HH; subst b. repeat constructor. lia. }
  destruct (c <? 2048) eqn:E2. { apply N.ltb_lt in E2. dms c. intros HH. apply some_inj in HH; subst b. repeat constructor; lia. }
  destruct (is_surrogate c); [discriminate|].
  destruct (c <? 65536) eqn:E3. { apply N.ltb_lt in E3. dms c. intros HH. apply some_inj in HH; subst b. repeat constructor; lia. }
  destruct (c <? 1114112) eqn:E4; [|discriminate]. apply N.ltb_lt in E4. dms c. intros HH. apply some_inj in HH; subst b. repeat constructor; lia.
Qed.
(** [s.encode().decode() == s] *)
Lemma utf8_roundtrip s b : utf8_encode s = Ret b -> utf8_decode (map bN b) = Ret s.
Proof.
  revert b. induction s as [|c s IH]; intros b H; cbn [utf8_encode] in H; [inversion H; reflexivity|].
  destruct (utf8_char c) as [x|] eqn:E; [|discriminate]. destruct (utf8_encode s) as [l| |]; try discriminate. inversion H; subst.
  rewrite map_app, map_map. replace (map (fun y => bN (Nb y)) x) with x.
  - rewrite (utf8_char_decode c x _ E), (IH l eq_refl). reflexivity.
  - pose proof (utf8_char_small c x E) as F. clear - F. induction F; cbn [map]; auto. rewrite bN_Nb, <- IHF; auto.
Qed.
(** Encoding fails on surrogates only. *)
Lemma utf8_encode_total s : Forall (fun c => c < 1114112) s -> utf8_ok s = true -> exists b, utf8_encode s = Ret b.
Proof.
  induction s as [|c s IH]; intros F O; [eexists; reflexivity|]. inversion F; subst. unfold utf8_ok in O. cbn [forallb] in O.
  apply andb_true_iff in O. destruct O as [O1 O2]. destruct IH as (b & E); auto. cbn [utf8_encode]. rewrite E. unfold utf8_char.
  apply negb_true_iff in O1. rewrite O1. replace (c <? 1114112) with true by (symmetry; apply N.ltb_lt; auto).
  destruct (c <? 128), (c <? 2048), (c <? 65536); eexists; reflexivity.
Qed.
