(** Every text of a document is read as that document. *)
From Verif Require Import PyStr Json JsonText JsonTextProofs SpecText.
From Coq Require Import ZifyBool ZifyN ZifyNat.
Open Scope N_scope.
Arguments N.div : simpl never.
Arguments N.modulo : simpl never.
Arguments N.mul : simpl never.
Arguments N.add : simpl never.
Arguments N.sub : simpl never.

Lemma blank_skip a s : blank a -> skip_ws (a ++ s) = skip_ws s.
Proof.
  induction 1 as [|c a C A IH]; [reflexivity|]. cbn [Datatypes.app skip_ws]. assert (W : is_ws c = true) by (unfold is_ws; cbn in C; lia).
  rewrite W. exact IH.
Qed.
Lemma hexv_unhex c n : hexv c n -> unhex c = Some n.
Proof.
  unfold hexv, unhex, is_digit. intros [[A ->]|[A [->| ->]]].
  - destruct ((48 <=? 48 + n) && (48 + n <=? 57)) eqn:E; [f_equal; lia|lia].
  - destruct ((48 <=? 87 + n) && (87 + n <=? 57)) eqn:E; [lia|]. destruct ((97 <=? 87 + n) && (87 + n <=? 102)) eqn:E2; [f_equal; lia|lia].
  - destruct ((48 <=? 55 + n) && (55 + n <=? 57)) eqn:E; [lia|]. destruct ((97 <=? 55 + n) && (55 + n <=? 102)) eqn:E2; [lia|].
    destruct ((65 <=? 55 + n) && (55 + n <=? 70)) eqn:E3; [f_equal; lia|lia].
Qed.
Lemma hexv_lt c n : hexv c n -> n < 16.
Proof. unfold hexv. lia. Qed.
Lemma uxxxx_form n e : uxxxx n e -> exists a b c d, e = [92; 117; a; b; c; d] /\ unhex4 a b c d = Some n /\ n < 65536.
Proof.
  intros [a b c d p q r s A B C D]. exists a, b, c, d. split; [reflexivity|].
  pose proof (hexv_lt _ _ A). pose proof (hexv_lt _ _ B). pose proof (hexv_lt _ _ C). pose proof (hexv_lt _ _ D).
  apply hexv_unhex in A, B, C, D. unfold unhex4. rewrite A, B, C, D. split; [f_equal; lia|lia].
Qed.
Lemma short_esc e c : In (e, c) shorts -> simple_esc e = Some c /\ e <> 117.
Proof. intros I. cbn in I. repeat (destruct I as [I|I]; [injection I as <- <-; split; [reflexivity|discriminate]|]). destruct I. Qed.

(** what follows a high surrogate *)
Lemma chars_next s t rest : chars s t -> ~ (exists m e' r, low m /\ uxxxx m e' /\ t = e' ++ r) -> next_low (t ++ 34 :: rest) = false.
Proof.
  intros C N. destruct C as [|c s t A B D C|e c s t I C|c e s t U _ C|m n e e' s t H L U U' C]; cbn [Datatypes.app].
  - destruct rest as [|? [|? [|? [|? [|? ?]]]]]; reflexivity.
  - destruct (t ++ 34 :: rest) as [|? [|? [|? [|? [|? ?]]]]]; try reflexivity. cbn [next_low]. replace (c =? 92) with false by lia. reflexivity.
  - destruct (short_esc _ _ I) as [_ E]. destruct (t ++ 34 :: rest) as [|? [|? [|? [|? ?]]]]; try reflexivity. cbn [next_low].
    replace (e =? 117) with false by lia. rewrite andb_false_r. reflexivity.
  - destruct (uxxxx_form _ _ U) as (a & b & c' & d & -> & X & _). cbn [Datatypes.app next_low N.eqb Pos.eqb andb]. rewrite X.
    destruct (is_low c) eqn:L; [|reflexivity]. exfalso. apply N. exists c, [92; 117; a; b; c'; d], t. split; [unfold low, is_low in *; lia|]. split; [exact U|reflexivity].
  - destruct (uxxxx_form _ _ U) as (a & b & c' & d & -> & X & _). cbn [Datatypes.app next_low N.eqb Pos.eqb andb]. rewrite X.
    unfold is_low. unfold high in H. lia.
Qed.
Lemma chars_read s t rest : chars s t -> pstr (t ++ 34 :: rest) = Some (s, rest).
Proof.
  induction 1 as [|c s t A B D C IH|e c s t I C IH|c e s t U N C IH|m n e e' s t H L U U' C IH]; [reflexivity|..].
  - cbn [Datatypes.app pstr]. replace (c =? 34) with false by lia. replace (c =? 92) with false by lia. replace (c <? 32) with false by lia.
    rewrite IH. reflexivity.
  - destruct (short_esc _ _ I) as [S E]. cbn [Datatypes.app pstr]. cbn [N.eqb Pos.eqb]. replace (e =? 117) with false by lia. rewrite S, IH. reflexivity.
  - destruct (uxxxx_form _ _ U) as (a & b & c' & d & -> & X & LT). cbn [Datatypes.app pstr]. cbn [N.eqb Pos.eqb]. rewrite X.
    destruct (is_high c) eqn:HI; [|rewrite IH; reflexivity].
    assert (NL : next_low (t ++ 34 :: rest) = false).
    { eapply chars_next; [exact C|]. intros Y. apply N. split; [unfold high, is_high in *; lia|exact Y]. }
    destruct (t ++ 34 :: rest) as [|x [|y [|b1 [|b2 [|b3 [|b4 r3]]]]]]; try (rewrite IH; reflexivity).
    cbn [next_low] in NL. destruct ((x =? 92) && (y =? 117)); [|rewrite IH; reflexivity]. cbn [andb] in NL.
    destruct (unhex4 b1 b2 b3 b4) as [z|]; [|discriminate]. rewrite NL, IH. reflexivity.
  - destruct (uxxxx_form _ _ U) as (a & b & c' & d & -> & X & LT). destruct (uxxxx_form _ _ U') as (a2 & b2 & c2 & d2 & -> & X2 & LT2).
    cbn [Datatypes.app pstr]. cbn [N.eqb Pos.eqb andb]. rewrite X. replace (is_high m) with true by (unfold high, is_high in *; lia).
    rewrite X2. replace (is_low n) with true by (unfold low, is_low in *; lia). rewrite IH. unfold join_sur. reflexivity.
Qed.

Lemma blank_stop b c r : blank b -> num_stop (c :: r) = true -> num_stop (b ++ c :: r) = true.
Proof.
  intros B S. destruct B as [|x b X B]; [exact S|]. cbn [Datatypes.app num_stop]. cbn in X. unfold is_digit. lia.
Qed.
Lemma text_starts j t : text_of j t -> starts_ok t.
Proof.
  destruct 1; try (repeat split; discriminate).
  - exact (dumps_starts (JInt z) eq_refl).
  - apply (dumps_starts (JFloat t)). assumption.
Qed.
Lemma starts_skip t s : starts_ok t -> skip_ws (t ++ s) = t ++ s.
Proof. destruct t as [|c t]; [intros []|]. intros (A & _). apply skip_ws_not. exact A. Qed.
Definition P_text (j : json) (t : pystr) : Prop :=
  forall n rest, (length t + length t <= n)%nat -> num_stop rest = true -> pval n (t ++ rest) = Some (j, rest).
Definition P_items (l : list json) (t : pystr) : Prop :=
  forall n rest, (length t + length t < n)%nat ->
    pelems n (skip_ws (t ++ 93 :: rest)) = Some (l, rest) /\ exists c r, skip_ws (t ++ 93 :: rest) = c :: r /\ c <> 93.
Definition P_members (o : list (pystr * json)) (t : pystr) : Prop :=
  forall n rest, (length t + length t < n)%nat ->
    pmembers n (skip_ws (t ++ 125 :: rest)) = Some (o, rest) /\ exists r, skip_ws (t ++ 125 :: rest) = 34 :: r.
Lemma text_read :
  (forall j t, text_of j t -> P_text j t) /\ (forall l t, items_of l t -> P_items l t) /\ (forall o t, members_of o t -> P_members o t).
Proof.
  apply text_ind; unfold P_text, P_items, P_members.
  - intros n rest F R. destruct n as [|n]; [cbn in F; lia|]. exact (lit_app (u "null") JNull rest).
  - intros n rest F R. destruct n as [|n]; [cbn in F; lia|]. exact (lit_app (u "true") (JBool true) rest).
  - intros n rest F R. destruct n as [|n]; [cbn in F; lia|]. exact (lit_app (u "false") (JBool false) rest).
  - intros z n rest F R. apply (pval_dumps (JInt z)); auto. cbn [jfuel]. pose proof (dumps_starts (JInt z) eq_refl) as X. cbn [dumps] in X.
    destruct (string_of_Z z); [destruct X|]. cbn [length] in F. lia.
  - intros t W n rest F R. apply (pval_dumps (JFloat t)); auto. cbn [jfuel]. pose proof (dumps_starts (JFloat t) W) as X. cbn [dumps] in X.
    destruct t; [destruct X|]. cbn [length] in F. lia.
  - intros s t C n rest F R. destruct n as [|n]; [cbn in F; lia|]. cbn [Datatypes.app]. rewrite <- app_assoc. cbn [Datatypes.app].
    cbn [pval]. cbn [N.eqb Pos.eqb]. rewrite (chars_read s t rest C). reflexivity.
  - intros a B n rest F R. destruct n as [|n]; [cbn in F; lia|]. cbn [Datatypes.app]. rewrite <- app_assoc. cbn [Datatypes.app].
    cbn [pval]. cbn [N.eqb Pos.eqb]. rewrite blank_skip by exact B. rewrite skip_ws_not by reflexivity. reflexivity.
  - intros l t I IH n rest F R. destruct n as [|n]; [cbn in F; lia|]. cbn [Datatypes.app]. rewrite <- app_assoc. cbn [Datatypes.app].
    cbn [length] in F. rewrite app_length in F. cbn [length] in F. destruct (IH n rest) as (E & c & r & S & N); [lia|].
    cbn [pval]. cbn [N.eqb Pos.eqb]. rewrite S in *. replace (c =? 93) with false by lia. rewrite E. reflexivity.
  - intros a B n rest F R. destruct n as [|n]; [cbn in F; lia|]. cbn [Datatypes.app]. rewrite <- app_assoc. cbn [Datatypes.app].
    cbn [pval]. cbn [N.eqb Pos.eqb]. rewrite blank_skip by exact B. rewrite skip_ws_not by reflexivity. reflexivity.
  - intros o t I IH ND n rest F R. destruct n as [|n]; [cbn in F; lia|]. cbn [Datatypes.app]. rewrite <- app_assoc. cbn [Datatypes.app].
    cbn [length] in F. rewrite app_length in F. cbn [length] in F. destruct (IH n rest) as (E & r & S); [lia|].
    cbn [pval]. cbn [N.eqb Pos.eqb]. rewrite S in *. cbn [N.eqb Pos.eqb]. rewrite E. rewrite sbuild_NoDup by exact ND. reflexivity.
  - intros j a t b A T IH B n rest F. rewrite !app_length in F. pose proof (text_starts j t T) as S0.
    rewrite <- !app_assoc. rewrite (blank_skip a) by exact A. rewrite starts_skip by exact S0.
    assert (L : (0 < length t)%nat) by (destruct t; [destruct S0|cbn; lia]).
    split.
    + destruct n as [|n]; [lia|]. cbn [pelems]. rewrite IH by first [lia | apply blank_stop; [exact B|reflexivity]].
      rewrite blank_skip by exact B. rewrite skip_ws_not by reflexivity. reflexivity.
    + destruct t as [|c t]; [destruct S0|]. destruct S0 as (_ & X & _). cbn [Datatypes.app]. eauto.
  - intros j a t b l r A T IH B I IHI n rest F. rewrite !app_length in F. cbn [length] in F. pose proof (text_starts j t T) as S0.
    rewrite <- !app_assoc. rewrite (blank_skip a) by exact A. rewrite starts_skip by exact S0.
    split.
    + destruct n as [|n]; [lia|]. cbn [pelems]. cbn [Datatypes.app]. rewrite IH by first [lia | apply blank_stop; [exact B|reflexivity]].
      rewrite blank_skip by exact B. rewrite skip_ws_not by reflexivity. cbn [N.eqb Pos.eqb].
      destruct (IHI n rest) as (E & _); [lia|]. rewrite E. reflexivity.
    + destruct t as [|c t]; [destruct S0|]. destruct S0 as (_ & X & _). cbn [Datatypes.app]. eauto.
  - intros k v a tk b c t d A K B C T IH D n rest F. repeat (rewrite ?app_length in F; cbn [length] in F). pose proof (text_starts v t T) as S0.
    repeat (rewrite <- ?app_assoc; cbn [Datatypes.app]). rewrite (blank_skip a) by exact A. rewrite skip_ws_not by reflexivity.
    split; [|eauto]. destruct n as [|n]; [lia|]. cbn [pmembers]. cbn [N.eqb Pos.eqb]. rewrite (chars_read k tk _ K).
    rewrite (blank_skip b) by exact B. rewrite skip_ws_not by reflexivity. cbn [N.eqb Pos.eqb]. rewrite (blank_skip c) by exact C. rewrite starts_skip by exact S0.
    rewrite IH by first [lia | apply blank_stop; [exact D|reflexivity]]. rewrite (blank_skip d) by exact D. rewrite skip_ws_not by reflexivity. reflexivity.
  - intros k v a tk b c t d o r A K B C T IH D I IHI n rest F. repeat (rewrite ?app_length in F; cbn [length] in F). pose proof (text_starts v t T) as S0.
    repeat (rewrite <- ?app_assoc; cbn [Datatypes.app]). rewrite (blank_skip a) by exact A. rewrite skip_ws_not by reflexivity.
    split; [|eauto]. destruct n as [|n]; [lia|]. cbn [pmembers]. cbn [N.eqb Pos.eqb]. rewrite (chars_read k tk _ K).
    rewrite (blank_skip b) by exact B. rewrite skip_ws_not by reflexivity. cbn [N.eqb Pos.eqb]. rewrite (blank_skip c) by exact C. rewrite starts_skip by exact S0.
    rewrite IH by first [lia | apply blank_stop; [exact D|reflexivity]]. rewrite (blank_skip d) by exact D. rewrite skip_ws_not by reflexivity. cbn [N.eqb Pos.eqb].
    destruct (IHI n rest) as (E & _); [lia|]. rewrite E. reflexivity.
Qed.
Lemma blank_all b : blank b -> skip_ws b = [].
Proof. intros B. rewrite <- (app_nil_r b), blank_skip by exact B. reflexivity. Qed.
Theorem text_loads j a t b : blank a -> text_of j t -> blank b -> loads (a ++ t ++ b) = Some j.
Proof.
  intros A T B. pose proof (text_starts j t T) as S0. destruct text_read as (R & _).
  assert (P : pval (S (length (a ++ t ++ b) + length (a ++ t ++ b))) (skip_ws (a ++ t ++ b)) = Some (j, b)).
  { rewrite blank_skip by exact A. rewrite starts_skip by exact S0. apply (R j t T); [rewrite !app_length; lia|].
    destruct B as [|x b X B]; [reflexivity|]. cbn in X. cbn [num_stop]. unfold is_digit. lia. }
  assert (H : match a ++ t ++ b with c :: _ => c <> 65279 | [] => True end).
  { destruct a as [|c a]; cbn [Datatypes.app].
    - destruct t as [|c t]; [destruct S0|]. cbn [Datatypes.app]. apply S0.
    - inversion A as [|? ? X ?]; subst. cbn in X. lia. }
  unfold loads. destruct (a ++ t ++ b) as [|c r]; [discriminate P|]. rewrite P, blank_all by exact B.
  destruct c; auto. repeat match goal with |- match ?p with _ => _ end = _ => destruct p; auto; try contradiction end.
Qed.
