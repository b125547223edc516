(** What the writer writes is a text of the document. *)
From Verif Require Import PyStr Json JsonText JsonTextProofs Writer SpecText TextProofs.
From Coq Require Import ZifyBool ZifyN ZifyNat.
Open Scope N_scope.
Arguments N.div : simpl never.
Arguments N.modulo : simpl never.
Arguments N.mul : simpl never.
Arguments N.add : simpl never.
Arguments N.sub : simpl never.

(** ** Strings *)
Lemma hexdigit_hexv n : n < 16 -> hexv (hexdigit n) n.
Proof. intros L. unfold hexv, hexdigit. destruct (n <? 10) eqn:E; lia. Qed.
Lemma uxxxx_esc n : n < 65536 -> uxxxx n (esc_u n).
Proof.
  intros L. set (p := n / 4096 mod 16). set (q := n / 256 mod 16). set (r := n / 16 mod 16). set (s := n mod 16).
  assert (E : n = p * 4096 + q * 256 + r * 16 + s).
  { unfold p, q, r, s. pose proof (N.div_mod n 16 ltac:(lia)) as A. pose proof (N.div_mod (n / 16) 16 ltac:(lia)) as B.
    pose proof (N.div_mod (n / 256) 16 ltac:(lia)) as C. replace (n / 16 / 16) with (n / 256) in B by (rewrite N.div_div by lia; reflexivity).
    replace (n / 256 / 16) with (n / 4096) in C by (rewrite N.div_div by lia; reflexivity).
    assert (D : n / 4096 mod 16 = n / 4096) by (apply N.mod_small; apply N.div_lt_upper_bound; lia). rewrite D. lia. }
  rewrite E at 1. unfold esc_u, hex4. fold p q r s. apply ux; apply hexdigit_hexv; unfold p, q, r, s; apply N.mod_lt; lia.
Qed.
(** the text that follows begins with an escaped low surrogate only if the string begins so *)
Definition starts_low (t : pystr) : Prop := exists m e' r, low m /\ uxxxx m e' /\ t = e' ++ r.
Lemma chars_low s t : chars s t -> starts_low t -> exists m s', s = m :: s' /\ low m.
Proof.
  intros C (m & e' & r & L & U & E). destruct (uxxxx_form _ _ U) as (a & b & c & d & -> & X & _). cbn [Datatypes.app] in E.
  destruct C as [|c0 s t A B D C|e c0 s t I C|c0 e s t V N C|h l e e2 s t H L2 V V2 C].
  - discriminate.
  - injection E as -> _. contradiction D. reflexivity.
  - destruct (short_esc _ _ I) as [_ F]. injection E as -> _. contradiction F. reflexivity.
  - destruct (uxxxx_form _ _ V) as (a' & b' & c' & d' & -> & Y & _). cbn [Datatypes.app] in E. injection E as -> -> -> -> _.
    rewrite X in Y. injection Y as ->. eauto.
  - destruct (uxxxx_form _ _ V) as (a' & b' & c' & d' & -> & Y & _). cbn [Datatypes.app] in E. injection E as -> -> -> -> _.
    rewrite X in Y. injection Y as ->. unfold high, low in *. lia.
Qed.
Lemma ch_unit c s t : c < 65536 -> chars s t -> (high c -> forall m s', s = m :: s' -> ~ low m) -> chars (c :: s) (esc_u c ++ t).
Proof.
  intros L C N. apply ch_u; [apply uxxxx_esc; exact L| |exact C]. intros [H SL]. destruct (chars_low s t C SL) as (m & s' & E & LM). exact (N H m s' E LM).
Qed.
Lemma ch_units c s t : 65536 <= c < 1114112 -> chars s t ->
  chars (c :: s) (esc_u (55296 + (c - 65536) / 1024 mod 1024) ++ esc_u (56320 + (c - 65536) mod 1024) ++ t).
Proof.
  intros L C. set (v := c - 65536). pose proof (N.mod_lt v 1024 ltac:(lia)). pose proof (N.mod_lt (v / 1024) 1024 ltac:(lia)).
  assert (D : v / 1024 mod 1024 = v / 1024) by (apply N.mod_small; apply N.div_lt_upper_bound; lia).
  pose proof (N.div_mod v 1024 ltac:(lia)) as M.
  replace c with (65536 + (55296 + v / 1024 mod 1024 - 55296) * 1024 + (56320 + v mod 1024 - 56320)) at 1 by lia.
  apply ch_pair; [unfold high; lia|unfold low; lia|apply uxxxx_esc; lia|apply uxxxx_esc; lia|exact C].
Qed.
Ltac short := cbn [Datatypes.app]; match goal with |- chars (?c :: _) (92 :: ?e :: _) => apply ch_short; [cbn; tauto|assumption] end.
Lemma body_chars s : str_ok s = true -> chars s (dump_body s).
Proof.
  unfold str_ok. rewrite andb_true_iff. intros [HB HP]. induction s as [|c s IH]; [constructor|].
  cbn [forallb] in HB. apply andb_true_iff in HB. destruct HB as [B HB].
  assert (HP' : no_pair s = true). { cbn [no_pair] in HP. destruct s; [reflexivity|]. apply andb_true_iff in HP. apply HP. }
  specialize (IH HB HP'). change (dump_body (c :: s)) with (esc_char c ++ dump_body s). unfold esc_char.
  destruct (c =? 34) eqn:E1; [apply N.eqb_eq in E1; subst; short|].
  destruct (c =? 92) eqn:E2; [apply N.eqb_eq in E2; subst; short|].
  destruct (c =? 10) eqn:E3; [apply N.eqb_eq in E3; subst; short|].
  destruct (c =? 13) eqn:E4; [apply N.eqb_eq in E4; subst; short|].
  destruct (c =? 9) eqn:E5; [apply N.eqb_eq in E5; subst; short|].
  destruct (c =? 8) eqn:E6; [apply N.eqb_eq in E6; subst; short|].
  destruct (c =? 12) eqn:E7; [apply N.eqb_eq in E7; subst; short|].
  destruct ((32 <=? c) && (c <=? 126)) eqn:E8; [apply ch_plain; try lia; exact IH|].
  destruct (c <? 65536) eqn:E9.
  - apply ch_unit; [lia|exact IH|]. intros H m s' -> LM. cbn [no_pair] in HP. apply andb_true_iff in HP. destruct HP as [HP _].
    unfold is_high, is_low, high, low in *. lia.
  - cbv zeta. rewrite <- app_assoc. apply ch_units; [lia|exact IH].
Qed.
Lemma raw_chars s : chars s (flat_map esc_raw s).
Proof.
  induction s as [|c s IH]; [constructor|]. cbn [flat_map]. unfold esc_raw at 1.
  destruct (c =? 34) eqn:E1; [apply N.eqb_eq in E1; subst; short|].
  destruct (c =? 92) eqn:E2; [apply N.eqb_eq in E2; subst; short|].
  destruct (c =? 10) eqn:E3; [apply N.eqb_eq in E3; subst; short|].
  destruct (c =? 13) eqn:E4; [apply N.eqb_eq in E4; subst; short|].
  destruct (c =? 9) eqn:E5; [apply N.eqb_eq in E5; subst; short|].
  destruct (c =? 8) eqn:E6; [apply N.eqb_eq in E6; subst; short|].
  destruct (c =? 12) eqn:E7; [apply N.eqb_eq in E7; subst; short|].
  destruct (c <? 32) eqn:E8.
  - apply ch_unit; [lia|exact IH|]. unfold high. lia.
  - apply ch_plain; [lia|lia|lia|exact IH].
Qed.

(** ** Documents *)
Lemma write_chars b s : implb b (str_ok s) = true -> chars s (write_body b s).
Proof. destruct b; cbn [implb write_body]; intros; [apply body_chars; assumption|apply raw_chars]. Qed.
Lemma jwf_writable b j : jwf j = true -> writable b j = true.
Proof.
  induction j as [| | | | |l IH|o IH] using json_ind'; cbn [jwf writable]; auto.
  - intros ->. destruct b; reflexivity.
  - rewrite !forallb_forall. rewrite Forall_forall in IH. auto.
  - rewrite !andb_true_iff, !forallb_forall. rewrite Forall_forall in IH. intros [N W]. split; [exact N|]. intros [k v] I.
    specialize (W _ I). cbn beta iota in W. apply andb_true_iff in W. destruct W as [W1 W2]. rewrite W1, implb_true_r. apply (IH (k, v) I W2).
Qed.

Lemma blank_app a b : blank a -> blank b -> blank (a ++ b).
Proof. intros A B. apply Forall_app. split; assumption. Qed.
Lemma blank_nl y lvl : layout_ok y -> blank (newline y lvl).
Proof.
  intros (_ & _ & I). unfold newline. destruct (w_indent y) as [i|]; [|constructor]. constructor; [cbn; tauto|].
  induction lvl as [|lvl IH]; [constructor|]. cbn [times]. apply blank_app; assumption.
Qed.
Lemma items_written (f : json -> pystr) sep a z l : parted 44 sep -> blank a -> blank z -> l <> [] ->
  (forall j, In j l -> text_of j (f j)) -> items_of l (a ++ intersperse sep (map f l) ++ z).
Proof.
  intros (p & q & P & Q & ->) A B N T. revert a A. induction l as [|j l IH]; [contradiction N; reflexivity|]. intros a A. destruct l as [|j2 l].
  - cbn [map intersperse]. apply it_last; auto. apply T. left. reflexivity.
  - change (intersperse (p ++ 44 :: q) (map f (j :: j2 :: l))) with (f j ++ (p ++ 44 :: q) ++ intersperse (p ++ 44 :: q) (map f (j2 :: l))).
    repeat (rewrite <- ?app_assoc; cbn [Datatypes.app]). apply it_more; auto; [apply T; left; reflexivity|].
    apply IH; [discriminate|intros; apply T; right; assumption|exact Q].
Qed.
Lemma members_written b (f : json -> pystr) sep ks a z o : parted 44 sep -> parted 58 ks -> blank a -> blank z -> o <> [] ->
  (forall k j, In (k, j) o -> chars k (write_body b k) /\ text_of j (f j)) ->
  members_of o (a ++ intersperse sep (map (fun kv => match kv with (k, v) => (34 :: write_body b k ++ [34]) ++ ks ++ f v end) o) ++ z).
Proof.
  intros (p & q & P & Q & ->) (p2 & q2 & P2 & Q2 & ->) A B N T. set (g := fun kv : pystr * json => match kv with (k, v) => (34 :: write_body b k ++ [34]) ++ (p2 ++ 58 :: q2) ++ f v end).
  revert a A. induction o as [|[k j] o IH]; [contradiction N; reflexivity|]. intros a A. destruct (T k j (or_introl eq_refl)) as [K J]. destruct o as [|kv o].
  - cbn [map intersperse]. unfold g.
    replace (a ++ ((34 :: write_body b k ++ [34]) ++ (p2 ++ 58 :: q2) ++ f j) ++ z) with (a ++ (34 :: write_body b k ++ [34]) ++ p2 ++ 58 :: q2 ++ f j ++ z)
      by (repeat (rewrite <- ?app_assoc; cbn [Datatypes.app]); reflexivity).
    apply me_last; assumption.
  - change (intersperse (p ++ 44 :: q) (map g ((k, j) :: kv :: o))) with (g (k, j) ++ (p ++ 44 :: q) ++ intersperse (p ++ 44 :: q) (map g (kv :: o))).
    unfold g at 1.
    replace (a ++ (((34 :: write_body b k ++ [34]) ++ (p2 ++ 58 :: q2) ++ f j) ++ (p ++ 44 :: q) ++ intersperse (p ++ 44 :: q) (map g (kv :: o))) ++ z)
      with (a ++ (34 :: write_body b k ++ [34]) ++ p2 ++ 58 :: q2 ++ f j ++ p ++ 44 :: (q ++ intersperse (p ++ 44 :: q) (map g (kv :: o)) ++ z))
      by (repeat (rewrite <- ?app_assoc; cbn [Datatypes.app]); reflexivity).
    apply me_more; try assumption. apply IH; [discriminate|intros; apply T; right; assumption|exact Q].
Qed.
Lemma parted_nl y lvl : layout_ok y -> parted 44 (w_item y ++ newline y lvl).
Proof.
  intros OK. pose proof (blank_nl y lvl OK) as B. destruct OK as ((p & q & P & Q & ->) & _). exists p, (q ++ newline y lvl). split; [exact P|].
  split; [apply blank_app; assumption|]. rewrite <- app_assoc. reflexivity.
Qed.
Theorem write_text y : layout_ok y -> forall j lvl, writable (w_ascii y) j = true -> text_of j (write y lvl j).
Proof.
  intros OK. induction j as [|b| | | |l IH|o IH] using json_ind'; intros lvl W.
  - exact tx_null.
  - destruct b; [exact tx_true|exact tx_false].
  - apply tx_int.
  - apply tx_float. exact W.
  - apply tx_str. apply write_chars. exact W.
  - destruct l as [|j l]; [apply (tx_nolist []); constructor|].
    change (write y lvl (JList (j :: l))) with (91 :: newline y (S lvl) ++ intersperse (w_item y ++ newline y (S lvl)) (map (write y (S lvl)) (j :: l)) ++ newline y lvl ++ [93]).
    replace (newline y (S lvl) ++ intersperse (w_item y ++ newline y (S lvl)) (map (write y (S lvl)) (j :: l)) ++ newline y lvl ++ [93])
      with ((newline y (S lvl) ++ intersperse (w_item y ++ newline y (S lvl)) (map (write y (S lvl)) (j :: l)) ++ newline y lvl) ++ [93]) by (rewrite <- !app_assoc; reflexivity).
    apply tx_list. apply items_written; [apply parted_nl; exact OK|apply blank_nl; exact OK|apply blank_nl; exact OK|discriminate|].
    intros x I. rewrite Forall_forall in IH. apply IH; [exact I|]. cbn [writable] in W. rewrite forallb_forall in W. apply W. exact I.
  - destruct o as [|kv o]; [apply (tx_noobj []); constructor|].
    set (g := fun kv : pystr * json => match kv with (k, v) => write_str y k ++ w_key y ++ write y (S lvl) v end).
    change (write y lvl (JObj (kv :: o))) with (123 :: newline y (S lvl) ++ intersperse (w_item y ++ newline y (S lvl)) (map g (kv :: o)) ++ newline y lvl ++ [125]).
    replace (newline y (S lvl) ++ intersperse (w_item y ++ newline y (S lvl)) (map g (kv :: o)) ++ newline y lvl ++ [125])
      with ((newline y (S lvl) ++ intersperse (w_item y ++ newline y (S lvl)) (map g (kv :: o)) ++ newline y lvl) ++ [125]) by (rewrite <- !app_assoc; reflexivity).
    cbn [writable] in W. apply andb_true_iff in W. destruct W as [ND W]. rewrite forallb_forall in W. rewrite Forall_forall in IH.
    apply tx_obj; [|apply nodupb_NoDup; exact ND].
    apply (members_written (w_ascii y) (write y (S lvl))); [apply parted_nl; exact OK|apply OK|apply blank_nl; exact OK|apply blank_nl; exact OK|discriminate|].
    intros k v I. specialize (W _ I). cbn beta iota in W. apply andb_true_iff in W. destruct W as [W1 W2]. split; [apply write_chars; exact W1|].
    apply (IH (k, v) I). exact W2.
Qed.
