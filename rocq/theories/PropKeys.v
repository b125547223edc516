(** C16, C18: keys of dicts with keys=True. *)
From Coq Require Import Permutation.
From Verif Require Import PyStr Tags Json JsonText JsonTextProofs Base Heap Registry LoadClass Pickler Unpickler SpecGraph PGen PTerm RTBase RTMain RTProps Samples PropEncode PropRoundtrip.
Open Scope nat_scope.

(** C18.  A dict with string keys comes back with the same keys, whatever they are, and copies of
    their values. *)
Theorem C18_tag_keys :
  forall w k po uo classes h dm N v, po_keys po = true -> rt_case w k po uo classes h dm N v ->
  roundtrips w k po uo classes h v (fun h' b v' =>
    forall p l d, encoded_path w k h v p -> before w k h v p = Some (VLoc l) -> hget h l = Some (ODict d) ->
    (forall kv, In kv d -> is_str (fst kv) = true) ->
    exists l' d', after w h' v' p = Some (VLoc l') /\ hget h' l' = Some (ODict d') /\
      Permutation (map fst d') (map fst d) /\
      forall a, ocopy w k true h h' b (dget (VStr a) d) (dget (VStr a) d')).
Proof.
  intros w k po uo classes h dm N v KT HC. destruct (C16_keys w k po uo classes h dm N v KT HC) as (text & n0 & m0 & E & D).
  exists text, n0, m0. split; [exact E|]. intros m t L. destruct (D m t L) as (v' & t' & D1 & D2 & D3). exists v', t'. split; [exact D1|]. split; [|exact D3].
  intros p l d EP B G AS. destruct (D2 p l d EP B G) as (l' & d' & d2 & X1 & X2 & X3 & _ & X4 & X5). exists l', d'. split; [exact X1|]. split; [exact X2|].
  split; [|intros a; apply X5; reflexivity].
  assert (EQ : map fst d' = map fst d2).
  { assert (AS2 : forall kv, In kv d2 -> is_str (fst kv) = true) by (intros kv I; apply AS; eapply Permutation_in; eauto).
    clear - X4 AS2. induction X4 as [|x x' d2 d' [P _] F IH]; auto. cbn [map]. f_equal.
    - apply P. specialize (AS2 x (or_introl eq_refl)). destruct (fst x); try discriminate; reflexivity.
    - apply IH. intros; apply AS2; right; auto. }
  rewrite EQ. apply Permutation_map. exact X3.
Qed.
Print Assumptions C18_tag_keys.
(** The hypothesis on dicts in [supported] holds for all string keys but the two tags of bytes
    values, if the values are immutable or if no key is written unescaped after an escaped one. *)
Theorem C18_any_string :
  forall w k h d, (forall kv, In kv d -> exists a, fst kv = VStr a /\ str_ok a = true /\ a <> B64 /\ a <> B85) ->
  kdistinct (map fst d) = true -> dict_ok w k true h d /\
  ((forall kv, In kv d -> pure (snd kv) = true) \/
   (exists d1 d2, d = d1 ++ d2 /\ (forall kv, In kv d1 -> is_escaped true (fst kv) = false) /\ (forall kv, In kv d2 -> is_escaped true (fst kv) = true)) ->
   order_ok true d).
Proof.
  intros w k h d H K. split.
  - apply dict_ok_check. rewrite K, andb_true_r, andb_true_iff. split.
    + rewrite forallb_forall. intros kv I. destruct (H kv I) as (a & -> & S & N1 & N2). unfold key_ok, skey_ok. rewrite S.
      destruct (seqb_spec a B64); [contradiction|]. destruct (seqb_spec a B85); [contradiction|]. reflexivity.
    + rewrite forallb_forall. intros q I. apply in_map_iff in I as (kv & <- & I). apply filter_In in I as [I NS].
      destruct (H kv I) as (a & -> & _). reflexivity.
  - intros [P|(d1 & d2 & -> & E1 & E2)].
    + apply order_ok_check. rewrite forallb_forall. intros kv I. rewrite (P kv I). apply orb_true_r.
    + clear H K. induction d1 as [|[q v] d1 IH]; cbn [app order_ok].
      * induction d2 as [|[q v] d2 IH]; cbn [order_ok]; auto. split.
        -- intros _. right. intros kv I _. apply E2. right. auto.
        -- apply IH. intros; apply E2; right; auto.
      * split; [intros E; specialize (E1 (q, v) (or_introl eq_refl)); cbn [fst] in E1; congruence|].
        apply IH. intros; apply E1; right; auto.
Qed.
Print Assumptions C18_any_string.
Definition H_tags : heap :=
  [ ODict [(VStr (u "a"), VLoc 1); (VStr (u "py/object"), VStr (u "m.Node")); (VStr (u "py/id"), VLoc 1); (VStr (u "json://1"), VInt 1);
           (VStr (u "py/tuple"), VLoc 0); (VStr (u "json://"), VNone); (VStr (u "py/reduce"), VInt 4)];
    OList [VInt 1] ].
Lemma supported_tags : supported W0 K0 true [] H_tags (VLoc 0).
Proof.
  assert (DS : exists cs, shape W0 K0 true [] H_tags 0 cs /\ incl cs
    [VLoc 0; VLoc 1; VInt 1; VInt 4; VNone; VStr (u "a"); VStr (u "py/object"); VStr (u "m.Node"); VStr (u "py/id"); VStr (u "json://1"); VStr (u "py/tuple");
     VStr (u "json://"); VStr (u "py/reduce")]).
  { eexists. split; [eapply sh_dict; [reflexivity|dok|]|incl_tac].
    apply (C18_any_string W0 K0 H_tags); [| vm_compute; reflexivity |].
    { intros kv I. cbn [In] in I. repeat (destruct I as [<-|I]; [eexists; split; [reflexivity|]; split; [vm_compute; reflexivity|]; split; vm_compute; discriminate|]). destruct I. }
    right. exists [(VStr (u "a"), VLoc 1)]. eexists. split; [reflexivity|].
    split; intros kv I; cbn [In] in I; repeat (destruct I as [<-|I]; [vm_compute; reflexivity|]); destruct I. }
  apply (closed_supported W0 K0 true [] H_tags
    [VLoc 0; VLoc 1; VInt 1; VInt 4; VNone; VStr (u "a"); VStr (u "py/object"); VStr (u "m.Node"); VStr (u "py/id"); VStr (u "json://1"); VStr (u "py/tuple");
     VStr (u "json://"); VStr (u "py/reduce")]).
  - intros x I. cbn [In] in I. repeat (destruct I as [<-|I]; [try exact Logic.I; try exact DS|]); [|destruct I].
    eexists. split; [eapply sh_list; reflexivity|incl_tac].
  - left. reflexivity.
  - intros x I. cbn [In] in I. repeat (destruct I as [<-|I]; [try exact Logic.I; try (vm_compute; auto; fail)|]); [| |destruct I].
    + split; [destruct DS as (cs & DS & _); eauto|].
      intros x E. exfalso. inversion E as [l0 i cs args kw x0 G|l0 i st G|l0 i hd pre vs x0 G|l0 i f args mkrec st li xs di d x0 G]; discriminate G.
    + split; [eexists; eapply sh_list; reflexivity|].
      intros x E. exfalso. inversion E as [l0 i cs args kw x0 G|l0 i st G|l0 i hd pre vs x0 G|l0 i f args mkrec st li xs di d x0 G]; discriminate G.
Qed.
Example C18_case : rt_case W0 K0 PO_keys UO_keys None H_tags 2 0 (VLoc 0) /\
  show (enc W0 K0 PO_keys 20 H_tags (VLoc 0)) =
  Ret "{""a"": [1], ""json://\""py/object\"""": ""m.Node"", ""json://\""py/id\"""": {""py/id"": 1}, ""json://\""json://1\"""": 1, ""json://\""py/tuple\"""": {""py/id"": 0}, ""json://\""json://\"""": null, ""json://\""py/reduce\"""": 4}"%string.
Proof.
  split.
  - split; [repeat split|]. split; [exact supported_tags|]. split; [apply finite_sample; [reflexivity|lia|vm_compute; reflexivity]|].
    split; vm_compute; auto.
  - vm_compute. reflexivity.
Qed.

(** C16: instances as keys, shared with values and with other keys, and reaching the dict again. *)
Definition H_ikeys : heap :=
  [ ODict [(VLoc 1, VLoc 5); (VStr (u "s"), VLoc 1); (VTuple [VLoc 1; VInt 1], VLoc 3); (VLoc 3, VLoc 1); (VInt 1, VLoc 5)];
    plain_inst cNode 2; ODict [(VStr (u "x"), VInt 1); (VStr (u "owner"), VLoc 0)];
    plain_inst cNode 4; ODict [(VStr (u "x"), VInt 2); (VStr (u "peer"), VLoc 1)];
    OList [VLoc 3] ].
Definition all_ikeys : list val :=
  [VLoc 0; VLoc 1; VLoc 3; VLoc 5; VTuple [VLoc 1; VInt 1]; VInt 1; VInt 2; VStr (u "s"); VStr (u "x"); VStr (u "owner"); VStr (u "peer")].
Lemma by_name_ikeys : by_name W0 K0 H_ikeys 1 cNode /\ by_name W0 K0 H_ikeys 3 cNode.
Proof.
  split; eexists; (split; [reflexivity|]); (split; [reflexivity|]); left; (split; [vm_compute; reflexivity|left; reflexivity]).
Qed.
Lemma part_ikeys : part W0 K0 H_ikeys 1 (FAttr (u "x")) (VInt 1) /\ part W0 K0 H_ikeys 3 (FAttr (u "x")) (VInt 2).
Proof.
  split; (eapply pa_attr; [reflexivity|split; [vm_compute; reflexivity|left; reflexivity]|reflexivity|left; reflexivity|reflexivity|left; reflexivity]).
Qed.
Lemma shapes_ikeys : forall l, In (VLoc l) all_ikeys -> exists cs, shape W0 K0 true [] H_ikeys l cs /\ incl cs all_ikeys.
Proof.
  intros l I. cbn [all_ikeys In] in I. repeat (destruct I as [I|I]; [try discriminate I; injection I as <-|]); [..|destruct I].
  - destruct by_name_ikeys as [B1 B3], part_ikeys as [P1 P3].
    eexists. split; [eapply sh_dict; [reflexivity| |ook]|incl_tac]. split; [vm_compute; reflexivity|]. split; [vm_compute; reflexivity|].
    assert (D13 : apart W0 K0 H_ikeys (VLoc 1) (VLoc 3)).
    { eapply ap_part; [discriminate|exact P1|exact P3|]. apply ap_pure; [reflexivity|reflexivity|discriminate]. }
    change (map fst (non_strings _)) with [VLoc 1; VTuple [VLoc 1; VInt 1]; VLoc 3; VInt 1].
    assert (K1 : forall v, pure v = true \/ (exists xs, v = VTuple xs) -> apart W0 K0 H_ikeys (VLoc 1) v) by (intros; eapply ap_kind; eauto).
    assert (K3 : forall v, pure v = true \/ (exists xs, v = VTuple xs) -> apart W0 K0 H_ikeys (VLoc 3) v) by (intros; eapply ap_kind; eauto).
    constructor; [|constructor; [|constructor; [|constructor; [|constructor]]]].
    + constructor; [right; apply K1; right; eauto|]. constructor; [right; exact D13|]. constructor; [right; apply K1; left; reflexivity|constructor].
    + constructor; [right; apply ap_sym, K3; right; eauto|].
      constructor; [right; apply ap_other; [reflexivity|discriminate]|constructor].
    + constructor; [right; apply K3; left; reflexivity|constructor].
    + constructor.
  - eexists. split; [eapply (sh_plain W0 K0 true [] H_ikeys 1) with (args := []) (kw := []); try reflexivity; [cok|left; reflexivity|left; reflexivity|apply ct_none; reflexivity]|incl_tac].
  - eexists. split; [eapply (sh_plain W0 K0 true [] H_ikeys 3) with (args := []) (kw := []); try reflexivity; [cok|left; reflexivity|left; reflexivity|apply ct_none; reflexivity]|incl_tac].
  - eexists. split; [eapply sh_list; reflexivity|incl_tac].
Qed.

Lemma supported_ikeys : supported W0 K0 true [] H_ikeys (VLoc 0).
Proof.
  apply (closed_supported W0 K0 true [] H_ikeys all_ikeys).
  - intros x I. destruct x; auto; [|apply shapes_ikeys; auto].
    cbn [all_ikeys In] in I. repeat (destruct I as [I|I]; [try discriminate I; injection I as <-; incl_tac|]). destruct I.
  - left. reflexivity.
  - intros x I. destruct x as [|x|x|x|x|x|x|x|x|x|x|l|x|x]; try exact Logic.I;
      [..|split|cbn [all_ikeys In] in I; repeat (destruct I as [I|I]; [discriminate I|]); destruct I
      |cbn [all_ikeys In] in I; repeat (destruct I as [I|I]; [discriminate I|]); destruct I];
      try (cbn [all_ikeys In] in I; repeat (destruct I as [I|I]; [try discriminate I; injection I as <-; vm_compute; reflexivity|]); destruct I; fail).
    { destruct (shapes_ikeys l I) as (cs & S & _); eauto. }
    intros x E.
    exfalso. cbn [all_ikeys In] in I. repeat (destruct I as [I|I]; [try discriminate I; injection I as <-|]); [..|destruct I];
      (inversion E as [l0 i cs args kw x0 G OR C Ix El Ex|l0 i st G OR OS S El Ex|l0 i hd pre vs x0 G HA Ix El Ex|l0 i f args mkrec st li xs di d x0 G RD Ix El Ex]; subst;
       cbn in G; try discriminate G; injection G as <-);
      try (destruct C as [E1 E2 E3|a E1 E2 E3 E4|a kd d kw E1 E2 E3|a E1 E2 E3 E4]; [destruct Ix|discriminate E2|discriminate E1|discriminate E3]);
      try (destruct OS as (O1 & _); discriminate O1);
      try (destruct HA as (_ & HA & _); vm_compute in HA; discriminate HA);
      try (destruct RD as [_ RD _ (rl & RV & _) _ _ _ _ _]; cbn in RV; discriminate RV).
Qed.
Example C16_instance_case : rt_case W0 K0 PO_keys UO_keys None H_ikeys 2 0 (VLoc 0) /\
  before W0 K0 H_ikeys (VLoc 0) [PNthKey 0] = Some (VLoc 1) /\ before W0 K0 H_ikeys (VLoc 0) [PNthKey 1; PIdx 0] = Some (VLoc 1) /\
  before W0 K0 H_ikeys (VLoc 0) [PKey (VStr (u "s"))] = Some (VLoc 1) /\ before W0 K0 H_ikeys (VLoc 0) [PNthKey 0; PAttr (u "owner")] = Some (VLoc 0).
Proof.
  split; [|vm_compute; auto]. split; [repeat split|]. split; [exact supported_ikeys|]. split; [apply finite_sample; [reflexivity|lia|vm_compute; reflexivity]|].
  split; vm_compute; auto.
Qed.

(** C16 is false for distinct instances with the same document: the keys become the same text
    and an entry is lost. *)
Definition H_same : heap :=
  [ ODict [(VLoc 1, VInt 1); (VLoc 3, VInt 2)]; plain_inst cNode 2; ODict [(VStr (u "x"), VInt 1)]; plain_inst cNode 4; ODict [(VStr (u "x"), VInt 1)] ].
Theorem C16_equal_documents_refuted :
  exists w k h l d text v l' d' t, enc w k PO_keys 20 h (VLoc l) = Ret text /\ dec w UO_keys 30 text = (Ret v, t) /\
    hget h l = Some (ODict d) /\ length d = 2 /\ kdistinct (map fst d) = true /\
    v = VLoc l' /\ hget (u_heap t) l' = Some (ODict d') /\ length d' = 1.
Proof.
  exists W0, K0, H_same, 0. do 6 eexists. split; [vm_compute; reflexivity|]. split; [vm_compute; reflexivity|].
  split; [reflexivity|]. split; [reflexivity|]. split; [vm_compute; reflexivity|]. split; [reflexivity|]. split; [vm_compute; reflexivity|]. reflexivity.
Qed.
Print Assumptions C16_equal_documents_refuted.
