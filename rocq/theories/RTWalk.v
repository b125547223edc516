(** Round trip, part 5b: the references in a document, as the parts of the document are put together. *)
From Verif Require Import PyStr Tags Json JsonText JsonTextProofs SpecRefs CodecProofs PlainProofs.
From Coq Require Import List.
Import ListNotations.
Open Scope nat_scope.
Local Open Scope list_scope.

Lemma objects_app a b : objects (a ++ b) = objects a + objects b.
Proof. induction a as [|[|z] a IH]; simpl; auto. Qed.

(** Starting after [n] objects the events [tr] lead to [n'] objects, with all references backward. *)
Definition counts (n : nat) (tr : list event) (n' : nat) : Prop :=
  n' = n + objects tr /\ forall pre z post, tr = pre ++ Ref z :: post -> (0 <= z < Z.of_nat (n + objects pre))%Z.
Lemma counts_nil n : counts n [] n.
Proof. split; [simpl; lia|]. intros [|] z post E; discriminate. Qed.
Lemma counts_app n a n1 b n2 : counts n a n1 -> counts n1 b n2 -> counts n (a ++ b) n2.
Proof.
  intros [-> A] [-> B]. split; [rewrite objects_app; lia|]. intros pre z post E.
  assert (X : (exists r, a = pre ++ Ref z :: r) \/ exists r, pre = a ++ r /\ b = r ++ Ref z :: post).
  { clear A B. revert pre E. induction a as [|x a IH]; intros pre E; [right; exists pre; auto|].
    destruct pre as [|y pre]; cbn [app] in E; injection E as -> E; [left; exists a; reflexivity|].
    destruct (IH pre E) as [[r ->]|(r & -> & ->)]; [left; exists r; reflexivity | right; exists r; auto]. }
  destruct X as [[r X]|(r & -> & X)]; [eauto|]. apply B in X. rewrite objects_app. lia.
Qed.
Lemma counts_obj n tr n' : counts (S n) tr n' -> counts n (Obj :: tr) n'.
Proof. intros H. apply (counts_app n [Obj] (S n) tr n'); auto. split; [simpl; lia|]. intros [|? [|]] z post E; discriminate. Qed.
Lemma counts_ref n z : (0 <= z < Z.of_nat n)%Z -> counts n [Ref z] n.
Proof.
  intros H. split; [simpl; lia|]. intros [|y pre] z' post E; [injection E as <- <-; simpl; lia|].
  injection E as _ E. destruct pre; discriminate.
Qed.
Lemma counts_backward tr n : counts 0 tr n -> n = objects tr /\ backward tr.
Proof. intros [-> H]. split; auto. Qed.

Section walk.
  Variable keys : bool.
  Definition walk (n : nat) (j : json) (n' : nat) : Prop := exists tr, events keys j tr /\ counts n tr n'.
  Definition walks (n : nat) (js : list json) (n' : nat) : Prop := exists tr, events_all keys js tr /\ counts n tr n'.
  Definition walkf (n : nat) (d : jobj) (n' : nat) : Prop := exists tr, events_of keys d tr /\ counts n tr n'.

  Lemma walk_scalar n j : scalar j = true -> walk n j n.
  Proof. intros H. exists []. split; [constructor; auto|apply counts_nil]. Qed.
  Lemma walk_list n js n' : walks (S n) js n' -> walk n (JList js) n'.
  Proof. intros (tr & A & B). exists (Obj :: tr). split; [constructor; auto|apply counts_obj; auto]. Qed.
  Lemma walk_ref n i : i < n -> walk n (JObj [(ID, JInt (Z.of_nat i))]) n.
  Proof. intros H. eexists. split; [apply ev_ref|]. apply counts_ref. lia. Qed.
  Lemma walk_leaf n tg j : In tg leaf_tags -> leaf_content j = true -> walk n (JObj [(tg, j)]) n.
  Proof. intros H L. exists []. split; [apply ev_leaf; auto|apply counts_nil]. Qed.
  Lemma walk_module n s : walk n (JObj [(MODULE, JStr s)]) (S n).
  Proof. eexists. split; [apply ev_module|]. apply counts_obj, counts_nil. Qed.
  Lemma walk_group n tg js n' : In tg group_tags -> walks n js n' -> walk n (JObj [(tg, JList js)]) n'.
  Proof. intros H (tr & A & B). exists tr. split; auto. apply ev_group; auto. Qed.
  Lemma walk_object n d n' : (forall tg, In tg special_tags -> sget tg d = None) -> walkf (S n) d n' -> walk n (JObj d) n'.
  Proof. intros H (tr & A & B). exists (Obj :: tr). split; [apply ev_object; auto|apply counts_obj; auto]. Qed.
  Lemma walks_nil n : walks n [] n.
  Proof. exists []. split; [constructor|apply counts_nil]. Qed.
  Lemma walks_cons n j n1 js n2 : walk n j n1 -> walks n1 js n2 -> walks n (j :: js) n2.
  Proof. intros (t1 & A & B) (t2 & C & D). exists (t1 ++ t2). split; [constructor; auto|eapply counts_app; eauto]. Qed.
  Lemma walkf_nil n : walkf n [] n.
  Proof. exists []. split; [constructor|apply counts_nil]. Qed.
  Lemma walkf_bare n tg js n1 d n2 : In tg bare_tags -> walks n js n1 -> walkf n1 d n2 -> walkf n ((tg, JList js) :: d) n2.
  Proof. intros H (t1 & A & B) (t2 & C & D). exists (t1 ++ t2). split; [constructor; auto|eapply counts_app; eauto]. Qed.
  Lemma walkf_key n jq n1 j n2 d n3 : keys = true -> jwf jq = true -> walk n jq n1 -> walk n1 j n2 -> walkf n2 d n3 ->
    walkf n ((JSON_KEY ++ dumps jq, j) :: d) n3.
  Proof.
    intros K W (t0 & A0 & B0) (t1 & A & B) (t2 & C & D). exists (t0 ++ t1 ++ t2).
    split; [apply eo_key with (jq := jq); auto; apply loads_dumps; auto|]. eapply counts_app; eauto. eapply counts_app; eauto.
  Qed.
  Lemma walkf_value n a j n1 d n2 : ~ In a bare_tags -> (keys = true -> prefixb JSON_KEY a = false) -> walk n j n1 -> walkf n1 d n2 ->
    walkf n ((a, j) :: d) n2.
  Proof. intros H K (t1 & A & B) (t2 & C & D). exists (t1 ++ t2). split; [apply eo_value; auto|eapply counts_app; eauto]. Qed.
  Lemma walkf_app n d1 n1 d2 n2 : walkf n d1 n1 -> walkf n1 d2 n2 -> walkf n (d1 ++ d2) n2.
  Proof.
    intros (t1 & A & B) (t2 & C & D). exists (t1 ++ t2). split; [|eapply counts_app; eauto]. clear B D.
    revert t1 A. induction d1 as [|kv d1 IH]; intros t1 A; inversion A; subst; cbn [app]; auto.
    - rewrite <- app_assoc. constructor; auto.
    - rewrite <- !app_assoc. eapply eo_key; eauto.
    - rewrite <- app_assoc. apply eo_value; auto.
  Qed.
End walk.

(** ** The events are determined by the document *)
Scheme events_mut := Induction for events Sort Prop
  with events_all_mut := Induction for events_all Sort Prop
  with events_of_mut := Induction for events_of Sort Prop.
Combined Scheme events_all_ind3 from events_mut, events_all_mut, events_of_mut.

Lemma bare_not_json tg text : In tg bare_tags -> tg <> JSON_KEY ++ text.
Proof. intros [<-|[<-|[<-|[<-|[]]]]] E; discriminate. Qed.
Lemma json_prefix text : prefixb JSON_KEY (JSON_KEY ++ text) = true.
Proof. reflexivity. Qed.

Lemma events_det3 keys :
  (forall j tr, events keys j tr -> forall tr', events keys j tr' -> tr = tr') /\
  (forall js tr, events_all keys js tr -> forall tr', events_all keys js tr' -> tr = tr') /\
  (forall d tr, events_of keys d tr -> forall tr', events_of keys d tr' -> tr = tr').
Proof.
  assert (SP : forall tg d (x : json), In tg special_tags -> sget tg ((tg, x) :: d) <> None).
  { intros tg d x _. cbn [sget]. rewrite seqb_refl. discriminate. }
  apply events_all_ind3.
  - intros j S tr' H. inversion H; subst; auto; discriminate.
  - intros js tr A IH tr' H. inversion H; subst; [discriminate|]. f_equal; auto.
  - intros z tr' H. inversion H as [? S| |?|tg j L LC'| |tg js ? L|? ? N]; subst; auto; try discriminate.
    + exfalso. eapply SP; [|apply N]; [|left; reflexivity]; left; reflexivity.
  - intros tg j L LC tr' H. inversion H as [? S| |?|tg' j' L' LC'|? E|tg' js ? L' ? E|? ? N]; subst; auto; try discriminate.
    + exfalso. destruct L as [C|[C|[C|[C|[C|[]]]]]]; discriminate.
    + exfalso. assert (IN : In tg special_tags) by (right; right; apply in_or_app; auto). eapply SP; [exact IN|apply N; exact IN].
  - intros j tr' H. inversion H as [? S| |?|tg' j' L' LC'|? E|tg' js ? L' ? E|? ? N]; subst; auto; try discriminate.
    + exfalso. destruct L' as [C|[C|[C|[C|[C|[]]]]]]; discriminate.
    + exfalso. assert (IN : In MODULE special_tags) by (right; left; auto). eapply SP; [exact IN|apply N; exact IN].
  - intros tg js tr L A IH tr' H. inversion H as [? S| |?|tg' j' L' LC'|? E|tg' js' ? L' ? E|? ? N]; subst; auto; try discriminate.
    + exfalso. assert (IN : In tg special_tags) by (right; right; apply in_or_app; auto). eapply SP; [exact IN|apply N; exact IN].
  - intros d tr N A IH tr' H. inversion H as [? S| |?|tg' j' L' LC'|? E|tg' js' ? L' ? E|? ? N']; subst; try discriminate.
    + exfalso. eapply SP; [|apply (N ID)]; left; reflexivity.
    + exfalso. assert (IN : In tg' special_tags) by (right; right; apply in_or_app; auto). eapply SP; [exact IN|apply N; exact IN].
    + exfalso. assert (IN : In MODULE special_tags) by (right; left; auto). eapply SP; [exact IN|apply N; exact IN].
    + exfalso. assert (IN : In tg' special_tags) by (right; right; apply in_or_app; auto). eapply SP; [exact IN|apply N; exact IN].
    + f_equal; auto.
  - intros tr' H. inversion H; auto.
  - intros j js t1 t2 A IH1 B IH2 tr' H. inversion H; subst. f_equal; auto.
  - intros tr' H. inversion H; auto.
  - intros tg js d t1 t2 L A IH1 B IH2 tr' H. inversion H as [|tg' js' ? u1 u2 L' A' B'|text jq' ? ? u0 u1 u2 K L' A0 A' B' E|a j' ? u1 u2 N' K' A' B']; subst.
    + f_equal; auto.
    + exfalso. exact (bare_not_json _ text L eq_refl).
    + contradiction.
  - intros text jq j d t0 t1 t2 K L A0 IH0 A IH1 B IH2 tr' H.
    inversion H as [|tg' js' ? u1 u2 L' A' B'|text' jq' ? ? u0 u1 u2 K' L' A0' A' B' E|a j' ? u1 u2 N' K' A' B']; subst.
    + exfalso. exact (bare_not_json _ text L' eq_refl).
    + assert (jq' = jq) by congruence. subst jq'.
      f_equal; auto. f_equal; auto.
    + specialize (K' eq_refl). change (prefixb JSON_KEY (JSON_KEY ++ text) = false) in K'. rewrite json_prefix in K'. discriminate.
  - intros a j d t1 t2 N K A IH1 B IH2 tr' H.
    inversion H as [|tg' js' ? u1 u2 L' A' B'|text jq' ? ? u0 u1 u2 K' L' A0' A' B' E|a' j' ? u1 u2 N' K' A' B']; subst.
    + contradiction.
    + specialize (K eq_refl). change (prefixb JSON_KEY (JSON_KEY ++ text) = false) in K. rewrite json_prefix in K. discriminate.
    + f_equal; auto.
Qed.
Lemma occurs_all keys z :
  (forall j tr, events keys j tr -> occurs keys z j -> In (Ref z) tr) /\
  (forall js tr, events_all keys js tr -> forall j, In j js -> occurs keys z j -> In (Ref z) tr) /\
  (forall d tr, events_of keys d tr ->
     (forall a j, In (a, j) d -> occurs keys z j -> In (Ref z) tr) /\
     (forall text jq j, keys = true -> In (JSON_KEY ++ text, j) d -> loads text = Some jq -> occurs keys z jq -> In (Ref z) tr)).
Proof.
  assert (SC : forall j, scalar j = true -> ~ occurs keys z j) by (intros j S O; inversion O; subst; discriminate).
  assert (KT : forall tg text, In tg (special_tags ++ bare_tags) -> tg <> JSON_KEY ++ text).
  { intros tg text I E. assert (X : forallb (fun x => negb (prefixb JSON_KEY x)) (special_tags ++ bare_tags) = true) by reflexivity.
    rewrite forallb_forall in X. apply X in I. rewrite E in I. rewrite json_prefix in I. discriminate. }
  assert (KO : forall d, (forall tg, In tg special_tags -> sget tg d = None) -> occurs keys z (JObj d) ->
    (exists a j, In (a, j) d /\ occurs keys z j) \/ (exists text jq j, keys = true /\ In (JSON_KEY ++ text, j) d /\ loads text = Some jq /\ occurs keys z jq)).
  { intros d N O. inversion O as [E|?|a j ? I O'|text jq j ? K I L O' E]; subst.
    - specialize (N ID (or_introl eq_refl)). discriminate N.
    - left. eauto.
    - right. exists text, jq, j. auto. }
  assert (K1 : forall tg j, In tg special_tags -> tg <> ID -> occurs keys z (JObj [(tg, j)]) -> occurs keys z j).
  { intros tg j I NI O. inversion O as [E|?|a j' ? I' O'|text jq j' ? K I' L O' E]; subst.
    - exfalso. apply NI. reflexivity.
    - destruct I' as [E|[]]. injection E as <- <-. exact O'.
    - exfalso. destruct I' as [E|[]]. apply (f_equal fst) in E. revert E. apply KT. apply in_or_app. auto. }
  apply events_all_ind3.
  - intros j S O. exfalso. eapply SC; eauto.
  - intros js tr A IH O. right. inversion O; subst; eauto.
  - intros z' O. inversion O as [E|?|a j ? I O'|text jq j ? K I L O' E]; subst.
    + left. reflexivity.
    + exfalso. destruct I as [E|[]]. injection E as <- <-. eapply SC; [|exact O']. reflexivity.
    + exfalso. destruct I as [E|[]]. apply (f_equal fst) in E. revert E. apply KT. left. reflexivity.
  - intros tg j L LC O. exfalso. apply K1 in O; [|right; right; apply in_or_app; auto|].
    2: { intros ->. destruct L as [C|[C|[C|[C|[C|[]]]]]]; discriminate. }
    destruct j as [| | | |s|js|d]; try discriminate; [inversion O|].
    destruct d as [|[tg2 [| | | |s| |]] [|]]; try discriminate. cbn [leaf_content] in LC. apply smem_In in LC.
    apply K1 in O; [inversion O| |].
    + destruct LC as [<-|[<-|[]]]; right; right; apply in_or_app; right; simpl; tauto.
    + intros ->. destruct LC as [C|[C|[]]]; discriminate.
  - intros s O. exfalso. apply K1 in O; [inversion O|right; left; auto|discriminate].
  - intros tg js tr L A IH O. apply K1 in O; [|right; right; apply in_or_app; auto|intros ->; destruct L as [C|[C|[]]]; discriminate].
    inversion O; subst. eauto.
  - intros d tr N A [IH1 IH2] O. right. destruct (KO d N O) as [(a & j & I & O')|(text & jq & j & K & I & L & O')]; eauto.
  - intros j [].
  - intros j js t1 t2 A IH1 B IH2 j0 [->|I] O; apply in_or_app; eauto.
  - split; [intros a j []|intros text jq j K []].
  - intros tg js d t1 t2 L A IH1 B [IH2 IH3]. split.
    + intros a j [E|I] O; apply in_or_app; [|eauto]. injection E as <- <-. left. inversion O; subst. eauto.
    + intros text jq j K [E|I] LO O; apply in_or_app; [|eauto]. exfalso. apply (f_equal fst) in E. revert E. apply KT. apply in_or_app; auto.
  - intros text jq j d t0 t1 t2 K L A0 IH0 A IH1 B [IH2 IH3]. split.
    + intros a j0 [E|I] O; rewrite !in_app_iff; [|eauto]. injection E as <- <-. auto.
    + intros text' jq' j0 _ [E|I] LO O; rewrite !in_app_iff; [|eauto]. pose proof (f_equal snd E) as E2. apply (f_equal fst) in E. cbn [fst snd] in E, E2. subst j0.
      apply app_inv_head in E. subst text'. assert (jq' = jq) by congruence. subst. auto.
  - intros a j d t1 t2 N K A IH1 B [IH2 IH3]. split.
    + intros a' j0 [E|I] O; apply in_or_app; [|eauto]. injection E as <- <-. auto.
    + intros text jq j0 EK [E|I] LO O; apply in_or_app; [|eauto]. exfalso. apply (f_equal fst) in E. cbn [fst] in E. rewrite E in K.
      specialize (K EK). rewrite json_prefix in K. discriminate.
Qed.
Theorem events_det keys j tr tr' : events keys j tr -> events keys j tr' -> tr = tr'.
Proof. intros A B. eapply (proj1 (events_det3 keys)); eauto. Qed.

Lemma walk_det keys n j n1 n2 : walk keys n j n1 -> walk keys n j n2 -> n1 = n2.
Proof. intros (t1 & A & [-> _]) (t2 & B & [-> _]). rewrite (events_det keys j t1 t2); auto. Qed.
Lemma walkf_det keys n d n1 n2 : walkf keys n d n1 -> walkf keys n d n2 -> n1 = n2.
Proof. intros (t1 & A & [-> _]) (t2 & B & [-> _]). rewrite (proj2 (proj2 (events_det3 keys)) d t1 A t2); auto. Qed.
Lemma counts_split n a b n2 : counts n (a ++ b) n2 -> counts n a (n + objects a) /\ counts (n + objects a) b n2.
Proof.
  intros [-> H]. split; (split; [rewrite ?objects_app; lia|]); intros pre z post E.
  - apply (H pre z (post ++ b)). rewrite E, <- app_assoc. reflexivity.
  - rewrite <- Nat.add_assoc, <- objects_app. apply (H (a ++ pre) z post). rewrite E, <- app_assoc. reflexivity.
Qed.
Lemma walks_nulls keys n js q n2 : walks keys n (js ++ repeat JNull q) n2 -> walks keys n js n2.
Proof.
  revert n. induction js as [|j js IH]; intros n (tr & A & B); cbn [app] in A.
  - replace tr with (@nil event) in B; [exists []; split; [constructor|exact B]|]. clear B. revert tr A.
    induction q as [|q IHq]; intros tr A; cbn [repeat] in A; inversion A as [|? ? t1 t2 A1 A2]; subst; auto.
    rewrite <- (IHq _ A2), app_nil_r. apply (events_det keys JNull); auto. apply ev_scalar. reflexivity.
  - inversion A as [|? ? t1 t2 A1 A2]; subst. apply counts_split in B as [B1 B2].
    eapply walks_cons; [exists t1; split; eauto|]. apply IH. exists t2. split; auto.
Qed.
Lemma walkf_split keys n d1 d2 n2 : walkf keys n (d1 ++ d2) n2 -> exists n1, walkf keys n d1 n1 /\ walkf keys n1 d2 n2.
Proof.
  revert n. induction d1 as [|kv d1 IH]; intros n (tr & A & B); cbn [app] in A.
  - exists n. split; [apply walkf_nil|exists tr; auto].
  - inversion A as [|tg js d t1 t2 L A1 A2|text jq j d t0 t1 t2 K L A0 A1 A2|a j d t1 t2 N K A1 A2]; subst.
    + apply counts_split in B as [B1 B2]. destruct (IH (n + objects t1)) as (n1 & X & Y); [exists t2; auto|].
      exists n1. split; auto. eapply walkf_bare; [exact L| |exact X]. exists t1; auto.
    + apply counts_split in B as [B0 B2]. apply counts_split in B2 as [B1 B2].
      destruct (IH (n + objects t0 + objects t1)) as (n1 & (t3 & X1 & X2) & Y); [exists t2; auto|].
      exists n1. split; auto. exists (t0 ++ t1 ++ t3). split; [eapply eo_key; eauto|]. eapply counts_app; eauto. eapply counts_app; eauto.
    + apply counts_split in B as [B1 B2]. destruct (IH (n + objects t1)) as (n1 & X & Y); [exists t2; auto|].
      exists n1. split; auto. eapply walkf_value; [exact N|exact K| |exact X]. exists t1; auto.
Qed.
