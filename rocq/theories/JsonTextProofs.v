(** [loads (dumps j) = Some j]. *)
From Verif Require Import PyStr Json JsonText.
From Coq Require Import ZifyBool ZifyN ZifyNat Decimal DecimalFacts DecimalPos DecimalN DecimalZ.
Ltac Zify.zify_post_hook ::= Z.div_mod_to_equations.
Open Scope N_scope.
Arguments N.div : simpl never.
Arguments N.modulo : simpl never.
Arguments N.mul : simpl never.
Arguments N.add : simpl never.
Arguments N.sub : simpl never.

(** ** Well-formed documents *)
Fixpoint no_pair (s : pystr) : bool :=
  match s with
  | a :: ((b :: _) as r) => negb (is_high a && is_low b) && no_pair r
  | _ => true
  end.
(** A string that survives the text: valid code points, and no high surrogate directly
    followed by a low one (Python strings may contain such a pair; JSON text merges it). *)
Definition str_ok (s : pystr) : bool := forallb (fun c => c <? 1114112) s && no_pair s.

(** A float token the text layer can carry: a JSON number lexeme with fraction or exponent,
    or one of the three special names. *)
Definition float_ok (t : pystr) : bool :=
  seqb t (u "NaN") || seqb t (u "Infinity") || seqb t (u "-Infinity") ||
  match pnum t with Some (JFloat t', []) => seqb t t' | _ => false end.

Fixpoint nodupb (l : list pystr) : bool :=
  match l with [] => true | x :: r => negb (smem x r) && nodupb r end.
Lemma nodupb_NoDup l : nodupb l = true <-> NoDup l.
Proof.
  induction l as [|x l IH]; simpl; [split; auto; constructor|].
  rewrite andb_true_iff, negb_true_iff, IH. split.
  - intros [H1 H2]. constructor; auto. intros C. apply smem_In in C. congruence.
  - intros H; inversion H; subst. split; auto. destruct (smem x l) eqn:E; auto.
    apply smem_In in E. contradiction.
Qed.

Fixpoint jwf (j : json) : bool :=
  match j with
  | JFloat t => float_ok t
  | JStr s => str_ok s
  | JList l => forallb jwf l
  | JObj o => nodupb (map fst o) && forallb (fun kv => match kv with (k, v) => str_ok k && jwf v end) o
  | _ => true
  end.

(** ** Integers *)
Lemma chars_uint_chars d : chars_uint (uint_chars d) = d.
Proof. induction d; simpl; f_equal; auto. Qed.
Lemma uint_chars_digits d : Forall (fun c => is_digit c = true) (uint_chars d).
Proof. induction d; simpl; constructor; auto. Qed.

Definition num_stop (s : pystr) : bool :=
  match s with
  | c :: _ => negb (is_digit c || (c =? 46) || (c =? 101) || (c =? 69))
  | [] => true
  end.

Lemma span_app d rest : Forall (fun c => is_digit c = true) d ->
  match rest with c :: _ => is_digit c = false | [] => True end ->
  span_digits (d ++ rest) = (d, rest).
Proof.
  intros H R. induction H as [|c d Hc H IH]; simpl.
  - destruct rest as [|c r]; auto. simpl. rewrite R. auto.
  - rewrite Hc, IH. auto.
Qed.

Lemma num_stop_digit rest : num_stop rest = true ->
  match rest with c :: _ => is_digit c = false | [] => True end.
Proof. destruct rest as [|c r]; auto. simpl. destruct (is_digit c); simpl; auto. Qed.
Lemma num_stop_frac rest : num_stop rest = true -> pfrac rest = ([], rest).
Proof.
  destruct rest as [|c r]; auto. unfold pfrac; simpl. intros H.
  destruct (c =? 46) eqn:E; auto. rewrite orb_true_r in H. discriminate.
Qed.
Lemma num_stop_exp rest : num_stop rest = true -> pexp rest = ([], rest).
Proof.
  destruct rest as [|c r]; auto. unfold pexp; simpl. intros H.
  destruct ((c =? 101) || (c =? 69)) eqn:E; auto.
  exfalso. destruct (is_digit c), (c =? 46), (c =? 101), (c =? 69); simpl in *; discriminate.
Qed.

Lemma nzhead_not_D0 d r : nzhead d <> Decimal.D0 r.
Proof. induction d; simpl; try discriminate; auto. Qed.

Lemma nzhead_len d : (nb_digits (nzhead d) <= nb_digits d)%nat.
Proof. induction d; simpl; lia. Qed.
Lemma nzhead_fix_D0 r : nzhead (Decimal.D0 r) = Decimal.D0 r -> False.
Proof.
  simpl. intros H. pose proof (nzhead_len r) as L. rewrite H in L. simpl in L. lia.
Qed.

Lemma unorm_fix d : unorm d = d -> d = Decimal.D0 Decimal.Nil \/ (nzhead d = d /\ d <> Decimal.Nil).
Proof.
  unfold unorm. destruct (nzhead d) eqn:E; intros <-; auto;
    right; (split; [|discriminate]); auto; rewrite <- E; rewrite ?nzhead_invol; auto.
Qed.

(** An unsigned digit string in normal form is read back by [punsigned]. *)
Lemma punsigned_norm d rest : unorm d = d -> num_stop rest = true ->
  punsigned (uint_chars d ++ rest) = Some (uint_chars d, rest).
Proof.
  intros H R. destruct (unorm_fix d H) as [->|[Hz Hn]].
  - reflexivity.
  - pose proof (uint_chars_digits d) as D.
    assert (S : span_digits (uint_chars d ++ rest) = (uint_chars d, rest))
      by (apply span_app; [auto|apply num_stop_digit; auto]).
    unfold punsigned.
    destruct d as [|r|r|r|r|r|r|r|r|r|r]; try contradiction;
      try (exfalso; exact (nzhead_fix_D0 r Hz));
      cbn [uint_chars app] in *; cbn [N.eqb is_digit Pos.eqb N.leb N.compare Pos.compare Pos.compare_cont andb];
      rewrite S; reflexivity.
Qed.

Lemma to_int_norm z : norm (Z.to_int z) = Z.to_int z.
Proof. rewrite <- DecimalZ.to_of, DecimalZ.of_to. reflexivity. Qed.

Lemma neg_norm d : norm (Decimal.Neg d) = Decimal.Neg d -> unorm d = d.
Proof.
  simpl. unfold unorm. destruct (nzhead d); intros H; try discriminate; congruence.
Qed.

Lemma pnum_neg s : pnum (45 :: s) =
  match punsigned s with
  | None => None
  | Some (ip, s2) =>
      let '(fp, s3) := pfrac s2 in let '(ep, s4) := pexp s3 in
      match fp ++ ep with
      | [] => Some (JInt (Z.of_int (Decimal.Neg (chars_uint ip))), s4)
      | fe => Some (JFloat (45 :: ip ++ fe), s4)
      end
  end.
Proof. reflexivity. Qed.

Lemma pnum_int z rest : num_stop rest = true -> pnum (string_of_Z z ++ rest) = Some (JInt z, rest).
Proof.
  intros R. unfold string_of_Z. pose proof (to_int_norm z) as Hn.
  pose proof (DecimalZ.of_to z) as Hz.
  destruct (Z.to_int z) as [d|d] eqn:E.
  - simpl in Hn. injection Hn as Hn.
    assert (P : pnum (uint_chars d ++ rest) =
                match punsigned (uint_chars d ++ rest) with
                | None => None
                | Some (ip, s2) =>
                    let '(fp, s3) := pfrac s2 in let '(ep, s4) := pexp s3 in
                    match fp ++ ep with
                    | [] => Some (JInt (Z.of_int (Decimal.Pos (chars_uint ip))), s4)
                    | fe => Some (JFloat (ip ++ fe), s4)
                    end
                end).
    { unfold pnum, pnum_body. destruct (unorm_fix d Hn) as [->|[_ Hnn]]; [reflexivity|].
      destruct d; try contradiction; reflexivity. }
    rewrite P, punsigned_norm, num_stop_frac, num_stop_exp by auto. simpl app.
    rewrite chars_uint_chars. rewrite Hz. reflexivity.
  - apply neg_norm in Hn. change ((45 :: uint_chars d) ++ rest) with (45 :: uint_chars d ++ rest).
    rewrite pnum_neg.
    rewrite punsigned_norm, num_stop_frac, num_stop_exp by auto. simpl app.
    rewrite chars_uint_chars. rewrite Hz. reflexivity.
Qed.

(** ** Float lexemes: a complete number token followed by a stopping character *)
Lemma span_digits_spec s d t : span_digits s = (d, t) ->
  s = d ++ t /\ Forall (fun c => is_digit c = true) d /\ match t with c :: _ => is_digit c = false | [] => True end.
Proof.
  revert d t; induction s as [|c s IH]; simpl; intros d t H.
  - injection H as <- <-. auto.
  - destruct (is_digit c) eqn:E.
    + destruct (span_digits s) as [d' t'] eqn:E2. injection H as <- <-.
      destruct (IH _ _ eq_refl) as (-> & ? & ?). auto.
    + injection H as <- <-. auto.
Qed.

Definition dstop (rest : pystr) : Prop := match rest with c :: _ => is_digit c = false | [] => True end.

Lemma span_ext s d t rest : span_digits s = (d, t) -> (t = [] -> dstop rest) ->
  span_digits (s ++ rest) = (d, t ++ rest).
Proof.
  intros H R. apply span_digits_spec in H as (-> & D & T).
  rewrite <- app_assoc. apply span_app; auto.
  destruct t as [|c t]; simpl; auto. exact (R eq_refl).
Qed.

Lemma pfrac_ext s f t rest : pfrac s = (f, t) -> num_stop rest = true ->
  pfrac (s ++ rest) = (f, t ++ rest) \/ (exists x, s = [46] /\ x = f).
Proof.
  intros H R. destruct s as [|c s].
  - simpl in H. injection H as <- <-. left. simpl. apply num_stop_frac; auto.
  - simpl in *. destruct (c =? 46) eqn:E; [|injection H as <- <-; left; reflexivity].
    destruct (span_digits s) as [d t'] eqn:S.
    rewrite (span_ext _ _ _ rest S) by (intros _; apply num_stop_digit; auto).
    destruct d as [|d0 d]; injection H as <- <-; left; reflexivity.
Qed.

Lemma pexp_ext s f rest : pexp s = (f, []) -> s <> [] -> num_stop rest = true ->
  pexp (s ++ rest) = (f, rest).
Proof.
  intros H N R. destruct s as [|c s]; [contradiction|]. simpl in *.
  destruct ((c =? 101) || (c =? 69)) eqn:E; [|discriminate].
  destruct s as [|g s]; [discriminate|]. simpl in *.
  destruct ((g =? 43) || (g =? 45)) eqn:G.
  - destruct (span_digits s) as [d t'] eqn:S.
    rewrite (span_ext _ _ _ rest S) by (intros _; apply num_stop_digit; auto).
    destruct d as [|d0 d]; [discriminate|]. injection H as <- ->. reflexivity.
  - assert (S' : exists d t', span_digits (g :: s) = (d, t')) by (destruct (span_digits (g :: s)); eauto).
    destruct S' as (d & t' & S).
    pose proof (span_ext _ _ _ rest S (fun _ => num_stop_digit _ R)) as S2.
    simpl in S, S2. rewrite S in H. rewrite S2.
    destruct d as [|d0 d]; [discriminate|]. injection H as <- ->. reflexivity.
Qed.

Lemma punsigned_ext s ip t rest : punsigned s = Some (ip, t) -> (t = [] -> dstop rest) ->
  punsigned (s ++ rest) = Some (ip, t ++ rest).
Proof.
  intros H R. destruct s as [|c s]; [discriminate|]. unfold punsigned in *.
  change ((c :: s) ++ rest) with (c :: (s ++ rest)). cbv iota beta in *.
  destruct (c =? 48); [inversion H; subst; reflexivity|].
  destruct (is_digit c) eqn:E; [|discriminate].
  assert (H' : span_digits (c :: s) = (ip, t)) by (inversion H; auto).
  rewrite <- (span_ext (c :: s) ip t rest); auto.
Qed.

Lemma pexp_nil_split s f t : pexp s = (f, t) -> f = [] -> t = s.
Proof.
  destruct s as [|c s]; simpl; [congruence|].
  destruct ((c =? 101) || (c =? 69)); [|congruence].
  destruct s as [|g s]; [congruence|].
  destruct ((g =? 43) || (g =? 45)).
  - destruct (span_digits s) as [d t']. destruct d; congruence.
  - destruct (span_digits (g :: s)) as [d t']. destruct d; congruence.
Qed.
Lemma pfrac_nil_split s f t : pfrac s = (f, t) -> f = [] -> t = s.
Proof.
  destruct s as [|c s]; simpl; [congruence|].
  destruct (c =? 46); [|congruence].
  destruct (span_digits s) as [d t']. destruct d; congruence.
Qed.

Lemma pnum_float_ext t rest : pnum t = Some (JFloat t, []) -> num_stop rest = true ->
  pnum (t ++ rest) = Some (JFloat t, rest).
Proof.
  intros H R. unfold pnum in *.
  assert (E : psign (t ++ rest) = (fst (psign t), snd (psign t) ++ rest)).
  { destruct t as [|c t]; [discriminate|]. change ((c :: t) ++ rest) with (c :: (t ++ rest)). unfold psign. cbv iota beta.
    destruct (c =? 45); reflexivity. }
  rewrite E. destruct (psign t) as [neg s1]. cbn [fst snd]. unfold pnum_body in *.
  destruct (punsigned s1) as [[ip s2]|] eqn:U; [|discriminate].
  rewrite (punsigned_ext _ _ _ rest U) by (intros _; apply num_stop_digit; auto).
  destruct (pfrac s2) as [fp s3] eqn:F.
  destruct (pexp s3) as [ep s4] eqn:X.
  assert (Hne : fp ++ ep <> []).
  { intros C. rewrite C in H. discriminate. }
  assert (s4 = []). { destruct (fp ++ ep); [contradiction|]. inversion H; auto. }
  subst s4.
  assert (F' : pfrac (s2 ++ rest) = (fp, s3 ++ rest)).
  { destruct (pfrac_ext _ _ _ rest F R) as [?|(x & -> & <-)]; auto.
    simpl in F. inversion F; subst. discriminate. }
  rewrite F'.
  destruct s3 as [|c3 s3].
  - simpl in X. inversion X; subst. cbn [Datatypes.app]. rewrite num_stop_exp by auto.
    destruct (fp ++ []); [contradiction|]. inversion H. reflexivity.
  - rewrite (pexp_ext _ _ rest X) by (auto; discriminate).
    destruct (fp ++ ep); [contradiction|]. inversion H. reflexivity.
Qed.

(** ** Strings *)
Lemma unhex_hexdigit n : n < 16 -> unhex (hexdigit n) = Some n.
Proof.
  intros H. unfold hexdigit, unhex, is_digit. destruct (n <? 10) eqn:E.
  - destruct ((48 <=? 48 + n) && (48 + n <=? 57)) eqn:E2; [f_equal; lia|lia].
  - destruct ((48 <=? 87 + n) && (87 + n <=? 57)) eqn:E2; [lia|].
    destruct ((97 <=? 87 + n) && (87 + n <=? 102)) eqn:E3; [f_equal; lia|lia].
Qed.

Lemma unhex4_hex4 n : n < 65536 ->
  unhex4 (hexdigit (n / 4096 mod 16)) (hexdigit (n / 256 mod 16)) (hexdigit (n / 16 mod 16)) (hexdigit (n mod 16)) = Some n.
Proof.
  intros H. unfold unhex4. rewrite !unhex_hexdigit by lia. f_equal. lia.
Qed.

Definition next_low (r2 : pystr) : bool :=
  match r2 with
  | x :: y :: b1 :: b2 :: b3 :: b4 :: _ =>
      (x =? 92) && (y =? 117) && match unhex4 b1 b2 b3 b4 with Some m => is_low m | None => true end
  | _ => false
  end.

Lemma pstr_u n r2 : n < 65536 -> is_high n && next_low r2 = false ->
  pstr (esc_u n ++ r2) = pcons n (pstr r2).
Proof.
  intros H L. unfold esc_u, hex4. cbn [Datatypes.app]. cbn [pstr]. 
  cbn [N.eqb Pos.eqb]. rewrite unhex4_hex4 by auto.
  destruct (is_high n); auto. simpl in L.
  destruct r2 as [|x [|y [|b1 [|b2 [|b3 [|b4 r3]]]]]]; auto.
  simpl in L. destruct ((x =? 92) && (y =? 117)); auto.
  destruct (unhex4 b1 b2 b3 b4); [|discriminate]. simpl in L. rewrite L. auto.
Qed.

Lemma pstr_pair h l r : is_high h = true -> is_low l = true ->
  pstr (esc_u h ++ esc_u l ++ r) = pcons (join_sur h l) (pstr r).
Proof.
  intros H L. unfold esc_u, hex4. cbn [Datatypes.app]. cbn [pstr]. cbn [N.eqb Pos.eqb andb].
  rewrite !unhex4_hex4; unfold is_high, is_low in *; try lia.
  destruct ((55296 <=? h) && (h <=? 56319)) eqn:E; [|lia].
  destruct ((56320 <=? l) && (l <=? 57343)) eqn:E2; [|lia]. reflexivity.
Qed.

(** The escape of [c2] does not look like a low surrogate escape unless [c2] is one. *)
Lemma next_low_esc c s rest : (match s with c2 :: _ => is_low c2 = false /\ c2 < 1114112 | [] => True end) ->
  c = 34 -> next_low (dump_body s ++ c :: rest) = false.
Proof.
  intros H ->. destruct s as [|c2 s].
  - simpl. destruct rest as [|? [|? [|? [|? [|? ?]]]]]; reflexivity.
  - destruct H as [HL HB]. unfold dump_body. cbn [flat_map]. rewrite <- app_assoc.
    generalize (flat_map esc_char s ++ 34 :: rest). intros tl. unfold esc_char.
    assert (Hcut : forall x y, (x =? 92) = false \/ (y =? 117) = false -> next_low (x :: y :: tl) = false).
    { intros x y Hxy. destruct tl as [|? [|? [|? [|? ?]]]]; try reflexivity. cbn [next_low].
      destruct Hxy as [-> | ->]; [|rewrite andb_false_r]; reflexivity. }
    destruct (c2 =? 34) eqn:?; [apply Hcut; auto|].
    destruct (c2 =? 92) eqn:?; [apply Hcut; auto|].
    destruct (c2 =? 10) eqn:?; [apply Hcut; auto|].
    destruct (c2 =? 13) eqn:?; [apply Hcut; auto|].
    destruct (c2 =? 9) eqn:?; [apply Hcut; auto|].
    destruct (c2 =? 8) eqn:?; [apply Hcut; auto|].
    destruct (c2 =? 12) eqn:?; [apply Hcut; auto|].
    destruct ((32 <=? c2) && (c2 <=? 126)) eqn:?.
    + cbn [Datatypes.app]. destruct tl as [|? [|? [|? [|? [|? ?]]]]]; try reflexivity.
      cbn [next_low]. replace (c2 =? 92) with false by auto. reflexivity.
    + destruct (c2 <? 65536) eqn:?.
      * unfold esc_u, hex4. cbn [Datatypes.app next_low N.eqb Pos.eqb andb]. rewrite unhex4_hex4 by lia. exact HL.
      * unfold esc_u at 1. unfold hex4 at 1. cbn [Datatypes.app next_low N.eqb Pos.eqb andb].
        rewrite unhex4_hex4 by lia. unfold is_low. lia.
Qed.

Lemma pstr_body s rest : str_ok s = true -> pstr (dump_body s ++ 34 :: rest) = Some (s, rest).
Proof.
  unfold str_ok. rewrite andb_true_iff. intros [HB HP].
  induction s as [|c s IH]; [reflexivity|].
  cbn [forallb] in HB. apply andb_true_iff in HB as [Hc HB].
  assert (HP' : no_pair s = true) by (simpl in HP; destruct s; auto; apply andb_true_iff in HP; tauto).
  specialize (IH HB HP').
  assert (HH : is_high c = true -> match s with c2 :: _ => is_low c2 = false /\ c2 < 1114112 | [] => True end).
  { intros Hh. destruct s as [|c2 s]; auto. cbn [no_pair] in HP. rewrite Hh in HP.
    cbn [forallb] in HB. apply andb_true_iff in HB as [HB _].
    destruct (is_low c2); [discriminate|]. split; auto. lia. }
  unfold dump_body in *. cbn [flat_map]. rewrite <- app_assoc.
  set (tl := flat_map esc_char s ++ 34 :: rest) in *.
  unfold esc_char.
  destruct (c =? 34) eqn:?; [cbn [Datatypes.app pstr N.eqb Pos.eqb simple_esc]; unfold simple_esc; cbn [N.eqb Pos.eqb]; rewrite IH; cbn; do 3 f_equal; lia|].
  destruct (c =? 92) eqn:?; [cbn [Datatypes.app pstr N.eqb Pos.eqb]; unfold simple_esc; cbn [N.eqb Pos.eqb]; rewrite IH; cbn; do 3 f_equal; lia|].
  destruct (c =? 10) eqn:?; [cbn [Datatypes.app pstr N.eqb Pos.eqb]; unfold simple_esc; cbn [N.eqb Pos.eqb]; rewrite IH; cbn; do 3 f_equal; lia|].
  destruct (c =? 13) eqn:?; [cbn [Datatypes.app pstr N.eqb Pos.eqb]; unfold simple_esc; cbn [N.eqb Pos.eqb]; rewrite IH; cbn; do 3 f_equal; lia|].
  destruct (c =? 9) eqn:?; [cbn [Datatypes.app pstr N.eqb Pos.eqb]; unfold simple_esc; cbn [N.eqb Pos.eqb]; rewrite IH; cbn; do 3 f_equal; lia|].
  destruct (c =? 8) eqn:?; [cbn [Datatypes.app pstr N.eqb Pos.eqb]; unfold simple_esc; cbn [N.eqb Pos.eqb]; rewrite IH; cbn; do 3 f_equal; lia|].
  destruct (c =? 12) eqn:?; [cbn [Datatypes.app pstr N.eqb Pos.eqb]; unfold simple_esc; cbn [N.eqb Pos.eqb]; rewrite IH; cbn; do 3 f_equal; lia|].
  destruct ((32 <=? c) && (c <=? 126)) eqn:?.
  - cbn [Datatypes.app pstr]. destruct (c =? 34) eqn:?; [discriminate|]. destruct (c =? 92) eqn:?; [discriminate|].
    destruct (c <? 32) eqn:?; [lia|]. rewrite IH. reflexivity.
  - destruct (c <? 65536) eqn:?.
    + rewrite pstr_u; [rewrite IH; reflexivity|lia|].
      destruct (is_high c) eqn:Hh; auto. exact (next_low_esc 34 s rest (HH eq_refl) eq_refl).
    + rewrite <- app_assoc. rewrite pstr_pair; unfold is_high, is_low; try lia.
      rewrite IH. cbn [pcons]. do 3 f_equal. unfold join_sur. lia.
Qed.

(** ** Documents *)
Fixpoint jfuel (j : json) : nat :=
  match j with
  | JList l => S (list_sum (map (fun x => S (jfuel x)) l))
  | JObj o => S (list_sum (map (fun kv => match kv with (k, v) => S (jfuel v) end) o))
  | _ => 1%nat
  end.

Lemma skip_ws_not c r : is_ws c = false -> skip_ws (c :: r) = c :: r.
Proof. simpl. intros ->. reflexivity. Qed.

(** First characters of a dumped document. *)
Definition starts_ok (s : pystr) : Prop :=
  match s with c :: _ => is_ws c = false /\ c <> 93 /\ c <> 125 /\ c <> 65279 | [] => False end.

Lemma uint_chars_nonnil d : d <> Decimal.Nil -> exists c r, uint_chars d = c :: r /\ is_digit c = true.
Proof. destruct d; intros H; try contradiction; simpl; eexists _, _; split; reflexivity. Qed.

Lemma string_of_Z_head z : exists c r, string_of_Z z = c :: r /\ (c = 45 \/ is_digit c = true).
Proof.
  unfold string_of_Z. pose proof (to_int_norm z) as Hn. destruct (Z.to_int z) as [d|d].
  - simpl in Hn. injection Hn as Hn.
    assert (d <> Decimal.Nil) by (intros ->; discriminate).
    destruct (uint_chars_nonnil d H) as (c & r & -> & ?). eauto 6.
  - eauto 6.
Qed.

Lemma starts_ok_app a b : starts_ok a -> starts_ok (a ++ b).
Proof. destruct a; simpl; [intros []|auto]. Qed.

Lemma float_head t : pnum t = Some (JFloat t, []) -> exists c r, t = c :: r /\ (c = 45 \/ is_digit c = true).
Proof.
  intros H. destruct t as [|c r]; [discriminate|]. exists c, r. split; auto.
  unfold pnum, psign in H. destruct (c =? 45) eqn:E; [left; lia|]. right.
  unfold pnum_body, punsigned in H. destruct (c =? 48) eqn:E2; [unfold is_digit; lia|].
  destruct (is_digit c); [auto|discriminate].
Qed.

Lemma dumps_starts j : jwf j = true -> starts_ok (dumps j).
Proof.
  destruct j as [|[]|z|t|s|l|o]; intros H; try (repeat split; discriminate).
  - cbn [dumps]. destruct (string_of_Z_head z) as (c & r & -> & [->|Hd]); repeat split; try discriminate;
      unfold is_digit, is_ws in *; lia.
  - cbn [dumps jwf] in *. unfold float_ok in H. rewrite !orb_true_iff in H.
    destruct H as [[[H|H]|H]|H]; try (apply seqb_eq in H; subst t; repeat split; discriminate).
    destruct (pnum t) as [[[] []]|] eqn:E; try discriminate. apply seqb_eq in H. subst tok.
    destruct (float_head _ E) as (c & r & -> & [->|Hd]); repeat split; try discriminate;
      unfold is_digit, is_ws in *; lia.
Qed.

Lemma pval_num n s c r : s = c :: r -> (c = 45 \/ is_digit c = true) -> prefixb (u "-Infinity") s = false ->
  pval (S n) s = pnum s.
Proof.
  intros -> Hc HI. cbn [pval].
  assert (D : (c =? 34) = false /\ (c =? 123) = false /\ (c =? 91) = false /\ (c =? 110) = false /\
              (c =? 116) = false /\ (c =? 102) = false /\ (c =? 78) = false /\ (c =? 73) = false).
  { unfold is_digit in Hc. repeat split; lia. }
  destruct D as (-> & -> & -> & -> & -> & -> & -> & ->).
  rewrite HI, andb_false_r. reflexivity.
Qed.

Lemma num_not_inf c r : (c = 45 -> match r with d :: _ => is_digit d = true | [] => True end) ->
  (c = 45 \/ is_digit c = true) -> prefixb (u "-Infinity") (c :: r) = false.
Proof.
  intros H Hc. change (u "-Infinity") with (45 :: 73 :: u "nfinity"). cbn [prefixb].
  destruct (45 =? c) eqn:E; auto. cbn [andb]. destruct r as [|d r]; auto.
  specialize (H ltac:(lia)). unfold is_digit in H. destruct (73 =? d) eqn:E2; auto. lia.
Qed.

Lemma pnum_head_digit s v t : pnum s = Some (v, t) -> forall c r, s = c :: r -> c = 45 ->
  match r with d :: _ => is_digit d = true | [] => False end.
Proof.
  intros H c r -> ->. unfold pnum, psign in H. cbn [N.eqb Pos.eqb] in H. unfold pnum_body, punsigned in H.
  destruct r as [|d r]; [discriminate|].
  destruct (d =? 48) eqn:E; [unfold is_digit; lia|]. destruct (is_digit d); [auto|discriminate].
Qed.

Lemma lit_app w v rest : lit w v (w ++ rest) = Some (v, rest).
Proof.
  unfold lit. rewrite prefixb_app. rewrite skipn_app, skipn_all, Nat.sub_diag. reflexivity.
Qed.

Ltac numhead := 
  match goal with H : pnum ?s = Some _ |- prefixb _ ?s = false => idtac end.

Lemma pval_dumps : forall j, jwf j = true -> forall n rest, (jfuel j <= n)%nat -> num_stop rest = true ->
  pval n (dumps j ++ rest) = Some (j, rest).
Proof.
  assert (NS : forall c r, c = 44 \/ c = 93 \/ c = 125 -> num_stop (c :: r) = true).
  { intros c r [H|[H|H]]; subst; reflexivity. }
  induction j as [|b|z|t|s|l IH|o IH] using json_ind'; intros W n rest F R;
    (destruct n as [|n]; [simpl in F; lia|]).
  - cbn [dumps]. change (u "null") with (110 :: u "ull"). exact (lit_app (u "null") JNull rest).
  - destruct b; [exact (lit_app (u "true") (JBool true) rest) | exact (lit_app (u "false") (JBool false) rest)].
  - cbn [dumps]. pose proof (pnum_int z rest R) as P.
    destruct (string_of_Z_head z) as (c & r & E & Hc).
    rewrite (pval_num n _ c (r ++ rest)); auto.
    + rewrite E; auto.
    + rewrite E. cbn [Datatypes.app]. apply num_not_inf; auto. intros ->.
      rewrite E in P. pose proof (pnum_head_digit _ _ _ P 45 (r ++ rest) eq_refl eq_refl).
      destruct (r ++ rest); auto.
  - cbn [dumps jwf] in *. unfold float_ok in W. rewrite !orb_true_iff in W.
    destruct W as [[[W|W]|W]|W].
    + apply seqb_eq in W. subst t. exact (lit_app (u "NaN") _ rest).
    + apply seqb_eq in W. subst t. exact (lit_app (u "Infinity") _ rest).
    + apply seqb_eq in W. subst t. exact (lit_app (u "-Infinity") _ rest).
    + destruct (pnum t) as [[[] []]|] eqn:E; try discriminate. apply seqb_eq in W. subst tok.
      pose proof (pnum_float_ext _ rest E R) as P.
      destruct (float_head _ E) as (c & r & -> & Hc).
      rewrite (pval_num n _ c (r ++ rest)); auto.
      cbn [Datatypes.app]. apply num_not_inf; auto. intros ->.
      pose proof (pnum_head_digit _ _ _ P 45 (r ++ rest) eq_refl eq_refl).
      destruct (r ++ rest); auto.
  - cbn [dumps jwf] in *. unfold dump_str. cbn [Datatypes.app pval N.eqb Pos.eqb].
    rewrite <- app_assoc. cbn [Datatypes.app]. rewrite pstr_body; auto.
  - (* list *)
    cbn [dumps app]. cbn [jwf] in W. cbn [jfuel] in F.
    destruct l as [|x l].
    + reflexivity.
    + set (body := intersperse COMMA (map dumps (x :: l))).
      assert (HE : forall n rest', (list_sum (map (fun x => S (jfuel x)) (x :: l)) <= n)%nat ->
                   pelems n (body ++ 93 :: rest') = Some (x :: l, rest')).
      { clear n rest F R. subst body. revert x IH W. induction l as [|y l IHl]; intros x IH W n rest' F.
        - inversion IH; subst. cbn [forallb] in W. rewrite andb_true_r in W.
          cbn [map list_sum fold_right] in F.
          destruct n as [|n]; [lia|]. cbn [pelems map intersperse].
          unfold list_sum in F. cbn [fold_right] in F.
          rewrite H1 by (auto; lia). rewrite skip_ws_not by reflexivity. reflexivity.
        - inversion IH; subst. cbn [forallb] in W. apply andb_true_iff in W as [W1 W2].
          assert (F' : (S (jfuel x) + list_sum (map (fun x => S (jfuel x)) (y :: l)) <= n)%nat) by exact F.
          destruct n as [|n]; [lia|]. cbn [pelems].
          replace (intersperse COMMA (map dumps (x :: y :: l)) ++ 93 :: rest') with
            (dumps x ++ 44 :: 32 :: intersperse COMMA (map dumps (y :: l)) ++ 93 :: rest')
            by (cbn [map intersperse]; rewrite <- !app_assoc; reflexivity).
          rewrite H1 by (auto; lia). rewrite skip_ws_not by reflexivity. cbn [N.eqb Pos.eqb].
          assert (SW : skip_ws (32 :: intersperse COMMA (map dumps (y :: l)) ++ 93 :: rest') =
                       intersperse COMMA (map dumps (y :: l)) ++ 93 :: rest').
          { change (skip_ws (32 :: ?a)) with (skip_ws a). 
            assert (S0 : starts_ok (intersperse COMMA (map dumps (y :: l)) ++ 93 :: rest')).
            { apply starts_ok_app. cbn [forallb] in W2. apply andb_true_iff in W2 as [W2 _].
              apply dumps_starts in W2. destruct l; cbn [map intersperse]; auto. apply starts_ok_app; auto. }
            destruct (intersperse COMMA (map dumps (y :: l)) ++ 93 :: rest') as [|c r]; [destruct S0|].
            destruct S0 as [S0 _]. apply skip_ws_not; auto. }
          rewrite SW, IHl; auto. lia. }
      change ((91 :: body ++ [93]) ++ rest) with (91 :: (body ++ [93]) ++ rest).
      cbn [pval N.eqb Pos.eqb].
      assert (S0 : starts_ok (body ++ [93])).
      { apply starts_ok_app. cbn [forallb] in W. apply andb_true_iff in W as [W _].
        apply dumps_starts in W. unfold body. destruct l; cbn [map intersperse]; auto. apply starts_ok_app; auto. }
      pose proof (HE n rest ltac:(lia)) as HE'.
      rewrite <- app_assoc. cbn [Datatypes.app] in *.
      destruct (body) as [|c r] eqn:EB; [cbn [Datatypes.app] in S0; destruct S0 as (_ & S0 & _); contradiction|].
      cbn [Datatypes.app] in *. destruct S0 as (S1 & S2 & _). rewrite skip_ws_not by auto.
      destruct (c =? 93) eqn:E93; [lia|]. rewrite HE'. reflexivity.
  - (* object *)
    cbn [dumps app]. cbn [jwf] in W. cbn [jfuel] in F. apply andb_true_iff in W as [WD W].
    apply nodupb_NoDup in WD.
    destruct o as [|[k v] o].
    + reflexivity.
    + set (mem := fun kv : pystr * json => match kv with (k, v) => dump_str k ++ 58 :: 32 :: dumps v end).
      set (fl := fun kv : pystr * json => match kv with (k, v) => S (jfuel v) end).
      set (body := intersperse COMMA (map mem ((k, v) :: o))).
      assert (SO : forall k v o, exists r, intersperse COMMA (map mem ((k, v) :: o)) = 34 :: r).
      { intros k' v' o'. destruct o'; cbn [map intersperse]; unfold mem at 1; unfold dump_str; eexists; reflexivity. }
      assert (SW : forall k v o rest, skip_ws (32 :: intersperse COMMA (map mem ((k, v) :: o)) ++ rest) =
                    intersperse COMMA (map mem ((k, v) :: o)) ++ rest).
      { intros k' v' o' rest'. destruct (SO k' v' o') as (r & ->). reflexivity. }
      assert (HE : forall n rest', (list_sum (map fl ((k, v) :: o)) <= n)%nat ->
                   pmembers n (body ++ 125 :: rest') = Some ((k, v) :: o, rest')).
      { clear n rest F R WD. subst body. revert k v IH W. induction o as [|[k2 v2] o IHo]; intros k v IH W n rest' F.
        - inversion IH; subst. cbn [forallb] in W. rewrite andb_true_r in W. apply andb_true_iff in W as [Wk Wv].
          unfold list_sum in F. cbn [map fold_right fl] in F.
          destruct n as [|n]; [lia|]. cbn [map intersperse]. unfold mem. unfold dump_str.
          cbn [Datatypes.app pmembers N.eqb Pos.eqb]. rewrite <- !app_assoc. cbn [Datatypes.app].
          rewrite pstr_body by auto. rewrite skip_ws_not by reflexivity. cbn [N.eqb Pos.eqb].
          assert (S0 : skip_ws (32 :: dumps v ++ 125 :: rest') = dumps v ++ 125 :: rest').
          { change (skip_ws (32 :: ?a)) with (skip_ws a). apply dumps_starts in Wv.
            destruct (dumps v) as [|c r]; [destruct Wv|]. destruct Wv as [Wv _]. apply skip_ws_not; auto. }
          rewrite S0. cbn [snd] in H1. rewrite H1 by (auto; lia). rewrite skip_ws_not by reflexivity. reflexivity.
        - inversion IH; subst. cbn [forallb] in W. apply andb_true_iff in W as [W1 W2].
          apply andb_true_iff in W1 as [Wk Wv].
          assert (F' : (S (jfuel v) + list_sum (map fl ((k2, v2) :: o)) <= n)%nat) by exact F.
          destruct n as [|n]; [lia|].
          replace (intersperse COMMA (map mem ((k, v) :: (k2, v2) :: o)) ++ 125 :: rest') with
            (34 :: dump_body k ++ 34 :: 58 :: 32 :: dumps v ++ 44 :: 32 :: intersperse COMMA (map mem ((k2, v2) :: o)) ++ 125 :: rest').
          2:{ change (intersperse COMMA (map mem ((k, v) :: (k2, v2) :: o))) with
                (mem (k, v) ++ COMMA ++ intersperse COMMA (map mem ((k2, v2) :: o))).
              generalize (intersperse COMMA (map mem ((k2, v2) :: o))). intros q.
              unfold mem, dump_str, COMMA. rewrite <- !app_assoc. cbn [Datatypes.app].
              rewrite <- !app_assoc. reflexivity. }
          cbn [pmembers N.eqb Pos.eqb].
          rewrite pstr_body by auto. rewrite skip_ws_not by reflexivity. cbn [N.eqb Pos.eqb].
          set (tl := 44 :: 32 :: intersperse COMMA (map mem ((k2, v2) :: o)) ++ 125 :: rest').
          assert (S0 : skip_ws (32 :: dumps v ++ tl) = dumps v ++ tl).
          { change (skip_ws (32 :: ?a)) with (skip_ws a). apply dumps_starts in Wv.
            destruct (dumps v) as [|c r]; [destruct Wv|]. destruct Wv as [Wv _]. apply skip_ws_not; auto. }
          rewrite S0. cbn [snd] in H1. unfold tl. rewrite H1 by (auto; lia).
          rewrite skip_ws_not by reflexivity. cbn [N.eqb Pos.eqb].
          rewrite SW, IHo; auto. lia. }
      change ((123 :: body ++ [125]) ++ rest) with (123 :: (body ++ [125]) ++ rest).
      cbn [pval N.eqb Pos.eqb].
      pose proof (HE n rest ltac:(unfold fl; lia)) as HE'.
      rewrite <- app_assoc. cbn [Datatypes.app] in *.
      destruct (SO k v o) as (r & EB). fold body in EB. rewrite EB in *. cbn [Datatypes.app] in *.
      rewrite skip_ws_not by reflexivity. cbn [N.eqb Pos.eqb]. rewrite HE'.
      rewrite sbuild_NoDup; auto.
Qed.

Lemma intersperse_length sep l : (list_sum (map (@length N) l) <= length (intersperse sep l))%nat.
Proof.
  induction l as [|x l IH]; [auto|]. destruct l as [|y l].
  - simpl. lia.
  - change (intersperse sep (x :: y :: l)) with (x ++ sep ++ intersperse sep (y :: l)).
    rewrite !app_length. unfold list_sum in *. cbn [map fold_right] in *. lia.
Qed.

Lemma jfuel_dumps j : jwf j = true -> (S (jfuel j) <= length (dumps j) + length (dumps j))%nat.
Proof.
  induction j as [|b|z|t|s|l IH|o IH] using json_ind'; intros W.
  - simpl; lia.
  - destruct b; simpl; lia.
  - apply dumps_starts in W. cbn [dumps jfuel] in *. destruct (string_of_Z z); [destruct W|]. simpl; lia.
  - apply dumps_starts in W. cbn [dumps jfuel] in *. destruct t; [destruct W|]. simpl; lia.
  - cbn [dumps jfuel]. unfold dump_str. simpl. lia.
  - cbn [dumps jfuel jwf] in *. simpl length. rewrite app_length. simpl length.
    pose proof (intersperse_length COMMA (map dumps l)) as L.
    assert ((list_sum (map (fun x => S (jfuel x)) l) <= list_sum (map (@length N) (map dumps l)) + list_sum (map (@length N) (map dumps l)))%nat).
    { clear L. unfold list_sum. induction IH as [|x l Hx IH IH2]; [simpl; lia|].
      cbn [forallb] in W. apply andb_true_iff in W as [W1 W2]. specialize (Hx W1). specialize (IH2 W2).
      cbn [map fold_right] in *. lia. }
    lia.
  - cbn [dumps jfuel jwf] in *. apply andb_true_iff in W as [_ W]. simpl length. rewrite app_length. simpl length.
    set (mem := fun kv : pystr * json => match kv with (k, v) => dump_str k ++ 58 :: 32 :: dumps v end).
    set (fl := fun kv : pystr * json => match kv with (k, v) => S (jfuel v) end).
    pose proof (intersperse_length COMMA (map mem o)) as L.
    assert ((list_sum (map fl o) <= list_sum (map (@length N) (map mem o)) + list_sum (map (@length N) (map mem o)))%nat).
    { clear L. unfold list_sum. induction IH as [|[k v] l Hx IH IH2]; [simpl; lia|].
      cbn [forallb] in W. apply andb_true_iff in W as [W1 W2]. apply andb_true_iff in W1 as [_ W1].
      cbn [snd] in Hx. specialize (Hx W1). specialize (IH2 W2).
      cbn [map fold_right] in *. unfold fl at 1. unfold mem at 1. unfold mem at 2. rewrite !app_length. simpl length. lia. }
    change (map (fun kv : pystr * json => let (k, v) := kv in
              34%N :: (dump_body k ++ [34%N]) ++ 58%N :: 32%N :: dumps v) o) with (map mem o).
    lia.
Qed.

Theorem loads_dumps j : jwf j = true -> loads (dumps j) = Some j.
Proof.
  intros W. pose proof (dumps_starts j W) as S0. pose proof (jfuel_dumps j W) as FL.
  pose proof (pval_dumps j W (S (length (dumps j) + length (dumps j))) [] ltac:(lia) eq_refl) as P.
  rewrite List.app_nil_r in P. unfold loads.
  destruct (dumps j) as [|c r] eqn:E; [destruct S0|]. destruct S0 as (S1 & _ & _ & S2).
  rewrite skip_ws_not by auto.
  assert (M : match c with 65279 => None | _ =>
      match pval (S (length (c :: r) + length (c :: r))) (c :: r) with
      | Some (v, t) => match skip_ws t with [] => Some v | _ => None end
      | None => None end end = Some j).
  { rewrite P. cbn [skip_ws]. destruct c; auto.
    repeat match goal with |- match ?p with _ => _ end = _ => destruct p; auto; try contradiction end. }
  exact M.
Qed.
