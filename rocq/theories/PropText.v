(** C66: the layout of the text and the spelling of its strings do not matter to [decode]. *)
From Verif Require Import PyStr Tags Json JsonText JsonTextProofs Base Heap Registry LoadClass Pickler Unpickler SpecGraph Writer SpecText.
From Verif Require Import WP PTerm RTBase RTStep RTPure RTCont RTLate RTMain RTProps TextProofs WriterProofs Samples PropRoundtrip.
From Coq Require Import List ZArith Lia.
Import ListNotations.
Open Scope nat_scope.
Local Open Scope monad_scope.

(** Every text of a document is read as that document. *)
Theorem C66_read : forall j a t b, blank a -> text_of j t -> blank b -> loads (a ++ t ++ b) = Some j.
Proof. exact text_loads. Qed.
Print Assumptions C66_read.
(** So [decode] cannot tell two texts of one document apart, whatever the options and the document. *)
Theorem C66_decode : forall w uo m classes j a t b a' t' b' s,
  blank a -> text_of j t -> blank b -> blank a' -> text_of j t' -> blank b' ->
  decode w uo m classes (a ++ t ++ b) s = decode w uo m classes (a' ++ t' ++ b') s.
Proof. intros. unfold decode. rewrite (text_loads j a t b), (text_loads j a' t' b') by assumption. reflexivity. Qed.
Print Assumptions C66_decode.
(** What is written with any indentation, separators and escaping is such a text. *)
Theorem C66_write : forall y j, layout_ok y -> writable (w_ascii y) j = true -> text_of j (write y 0 j).
Proof. intros y j OK W. apply write_text; assumption. Qed.
Print Assumptions C66_write.
Theorem C66_write_read : forall y j, layout_ok y -> writable (w_ascii y) j = true -> loads (write y 0 j) = Some j.
Proof.
  intros y j OK W. rewrite <- (app_nil_r (write y 0 j)). apply (text_loads j [] (write y 0 j) []); [constructor|apply write_text; assumption|constructor].
Qed.
Print Assumptions C66_write_read.
(** In terms of the options: any indentation by blanks, any separators that are a comma and a
    colon with blanks around, and ensure_ascii as given, which is what escapes. *)
Theorem C66_options : forall indent seps ascii j,
  match indent with None => True | Some i => blank i end ->
  match seps with None => True | Some (i, k) => parted 44 i /\ parted 58 k end ->
  writable ascii j = true -> layout_ok (layout_of indent seps ascii) /\ loads (write (layout_of indent seps ascii) 0 j) = Some j.
Proof.
  intros indent seps ascii j I S W. assert (OK : layout_ok (layout_of indent seps ascii)).
  { assert (B : blank []) by constructor. assert (B2 : blank [32%N]) by (constructor; [left; reflexivity|constructor]).
    destruct seps as [[i k]|]; cbn in *; (split; [|split]); try tauto; cbn.
    - destruct indent; [exists [], []|exists [], [32%N]]; repeat split; auto.
    - exists [], [32%N]. repeat split; auto. }
  split; [exact OK|]. apply C66_write_read; [exact OK|]. destruct seps as [[i k]|]; exact W.
Qed.
Print Assumptions C66_options.

(** The options of [encode] left alone give [dumps]. *)
Lemma write_default j : forall lvl, write (layout_of None None true) lvl j = dumps j.
Proof.
  induction j as [|b| | | |l IH|o IH] using json_ind'; intros lvl; try reflexivity.
  - rewrite Forall_forall in IH. destruct l as [|x l]; [reflexivity|].
    change (write (layout_of None None true) lvl (JList (x :: l))) with (91%N :: intersperse COMMA (map (write (layout_of None None true) (S lvl)) (x :: l)) ++ [93%N]).
    cbn [dumps]. do 3 f_equal. apply map_ext_in. intros y I. apply IH. exact I.
  - rewrite Forall_forall in IH. destruct o as [|x o]; [reflexivity|].
    change (write (layout_of None None true) lvl (JObj (x :: o))) with (123%N :: intersperse COMMA (map (fun kv => match kv with (k, v) => dump_str k ++ 58%N :: 32%N :: write (layout_of None None true) (S lvl) v end) (x :: o)) ++ [125%N]).
    cbn [dumps]. do 3 f_equal. apply map_ext_in. intros [k v] I. do 3 f_equal. apply (IH (k, v) I).
Qed.
Theorem C66_default : forall w k o n v s, encode_with (layout_of None None true) w k o n v s = encode w k o n v s.
Proof.
  intros. unfold encode_with, encode, bind. destruct (pickle w k o n true v s) as [[j|e|] s']; try reflexivity. unfold ret. rewrite write_default. reflexivity.
Qed.
Print Assumptions C66_default.

(** The document that [encode] writes. *)
Lemma rt_doc w k po uo classes h n v s j s' : rt_options po uo -> supported w k (po_keys po) (class_table w classes) h v -> p_heap s = h ->
  pickle w k po n true v s = (Ret j, s') -> jwf j = true.
Proof.
  intros (O1 & O2 & O3 & O4 & O5 & O6 & O7 & O8) SU HP E. set (cl := class_table w classes) in *.
  assert (TOP : wp (flatten w k po n v) (p_reset_st s) (fun j s' => p_heap s' = h /\ exists s1,
      delivers w k (po_keys po) cl h 0 po uo (2 * n) v (start h []) (mkUst [] [] [] [] [] cl []) j s1)).
  { eapply (rt_top w k (po_keys po) cl h); eauto. constructor; simpl; auto; try lia; try constructor.
    - discriminate.
    - destruct n0; discriminate. }
  unfold pickle, pflatten in E. rewrite O6 in E. rewrite (bind_eq _ _ s tt (p_reset_st s)) in E by reflexivity.
  rewrite (bind_eq _ _ (p_reset_st s) tt (p_reset_st s)) in E by reflexivity. unfold wp in TOP. rewrite E in TOP.
  destruct TOP as (_ & s1 & W & _). exact W.
Qed.
(** Together with C01: written with any such options, padded with blanks, the object comes back. *)
Theorem C66_roundtrip : forall w k po uo classes h dm N v, rt_case w k po uo classes h dm N v ->
  exists n0 m0, forall y, layout_ok y -> exists text,
    (forall n s, n0 <= n -> p_heap s = h -> exists s', encode_with y w k po n v s = (Ret text, s') /\ p_heap s' = h) /\
    forall m t a b, m0 <= m -> blank a -> blank b -> exists v' t', decode w uo m classes (a ++ text ++ b) t = (Ret v', t') /\
      is_copy w k (po_keys po) h (u_heap t') (length (u_heap t)) v v'.
Proof.
  intros w k po uo classes h dm N v (O & SU & FG & G). destruct (roundtrip_total w k po uo classes h dm N v O SU FG G) as (text & n0 & m0 & EN & DE).
  assert (DOC : exists j, jwf j = true /\ dumps j = text /\ forall n s, n0 <= n -> p_heap s = h -> exists s', pickle w k po n true v s = (Ret j, s') /\ p_heap s' = h).
  { assert (ONE : forall n s, n0 <= n -> p_heap s = h -> exists j s', pickle w k po n true v s = (Ret j, s') /\ p_heap s' = h /\ jwf j = true /\ dumps j = text).
    { intros n s L HP. destruct (EN n s L HP) as (s' & E & H'). unfold encode, bind in E.
      destruct (pickle w k po n true v s) as [[j|e|] s1] eqn:P; try discriminate E.
      pose proof (f_equal fst E) as E1. pose proof (f_equal snd E) as E2. cbn in E1, E2. exists j, s1.
      split; [reflexivity|]. split; [congruence|]. split; [exact (rt_doc w k po uo classes h n v s j s1 O SU HP P)|congruence]. }
    destruct (ONE n0 (new_pickler h) (le_n _) eq_refl) as (j & s0 & _ & _ & W & D). exists j. split; [exact W|]. split; [exact D|].
    intros n s L HP. destruct (ONE n s L HP) as (j2 & s2 & P2 & H2 & W2 & D2). exists s2. split; [|exact H2].
    assert (j2 = j). { apply loads_dumps in W, W2. rewrite D in W. rewrite D2 in W2. congruence. } subst j2. exact P2. }
  destruct DOC as (j & W & D & P). exists n0, m0. intros y OK. exists (write y 0 j). split.
  - intros n s L HP. destruct (P n s L HP) as (s' & E & H'). exists s'. split; [|exact H']. unfold encode_with. rewrite (bind_eq _ _ _ _ _ E). reflexivity.
  - intros m t a b L A B. destruct (DE m t L) as (v' & t' & E & C & _). exists v', t'. split; [|exact C]. rewrite <- E, <- D.
    unfold decode. rewrite (text_loads j a (write y 0 j) b A (write_text y OK j 0 (jwf_writable _ j W)) B), (loads_dumps j W). reflexivity.
Qed.
Print Assumptions C66_roundtrip.

(** Four spaces, the most compact separators, no escaping: three texts of one document. *)
Definition four : layout := layout_of (Some (u "    ")) None true.
Definition compact : layout := layout_of None (Some (u ",", u ":")) false.
Example C66_layouts : layout_ok four /\ layout_ok compact.
Proof.
  assert (B : forall s, forallb (fun c => existsb (N.eqb c) [32; 9; 10; 13]%N) s = true -> blank s).
  { intros s H. apply Forall_forall. intros c I. rewrite forallb_forall in H. specialize (H c I). apply existsb_exists in H. destruct H as (x & IX & EX).
    apply N.eqb_eq in EX. subst. exact IX. }
  split; (split; [|split]).
  - exists [], []. repeat split; apply B; reflexivity.
  - exists [], [32%N]. repeat split; apply B; reflexivity.
  - apply B. reflexivity.
  - exists [], []. repeat split; apply B; reflexivity.
  - exists [], []. repeat split; apply B; reflexivity.
  - exact I.
Qed.
Example C66_case :
  let j := JObj [(u "a", JList [JInt 1; JStr [233%N]]); (u "b", JObj [])] in
  write four 0 j = 123%N :: 10%N :: u "    ""a"": [" ++ 10%N :: u "        1," ++ 10%N :: u "        ""\u00e9""" ++ 10%N :: u "    ]," ++ 10%N :: u "    ""b"": {}" ++ 10%N :: u "}" /\
  write compact 0 j = u "{""a"":[1,""" ++ 233%N :: u """],""b"":{}}" /\
  loads (write four 0 j) = Some j /\ loads (write compact 0 j) = Some j.
Proof. vm_compute. auto. Qed.
(** A string that holds two halves of a surrogate pair as separate characters survives only
    without ensure_ascii: escaped, the halves are read as one character. *)
Theorem C66_escaping_refuted : exists j, loads (write compact 0 j) = Some j /\ loads (write four 0 j) <> Some j.
Proof. exists (JStr [55357; 56832]%N). split; [vm_compute; reflexivity|vm_compute; discriminate]. Qed.
Print Assumptions C66_escaping_refuted.
