(** C81 inside the attributes, states and arguments of instances. *)
From Verif Require Import PyStr Tags Json JsonText Base Heap Registry LoadClass Unpickler SpecHoles SpecProps SpecTagOrder SpecTagPlaces.
From Verif Require Import PropsProofs PropTagOrder Samples.
From Coq Require Import List Relations. Import ListNotations.
Open Scope nat_scope.
Local Open Scope monad_scope.

Lemma rest_alike w cl ob t v : counts t ob -> t <> u "py/object" -> t <> u "py/type" -> NoDup (map fst ob) -> In (t, v) ob ->
  alike w cl (JObj ob) (JObj [(t, v)]).
Proof.
  intros C NO NT ND I. apply al_step; [destruct ob; [destruct I|discriminate]|discriminate|].
  intros o rec s _. apply (step_rest w o rec ob t v s C NO NT). apply present; auto.
Qed.
Lemma object_alike w cl ob : counts (u "py/object") ob -> class_there w cl ob -> alike w cl (JObj ob) (JObj (without_behind ob)).
Proof.
  intros C Ct. destruct (sget (u "py/object") ob) as [j|] eqn:G.
  - destruct (Ct j G) as (name & c & -> & LC & R & Bl). apply al_step.
    + intros ->. discriminate G.
    + intros E. assert (X : sget (u "py/object") (without_behind ob) = None) by (rewrite E; reflexivity).
      rewrite not_behind_sget in X by reflexivity. congruence.
    + intros o rec s E. apply (step_object w o rec ob name c s); auto. rewrite E. exact LC.
  - exfalso. apply sget_None in G. destruct C as (? & ? & _ & I & _). contradiction.
Qed.
Lemma type_alike w cl ob name v : counts (u "py/type") ob -> sget (u "py/type") ob = Some (JStr name) ->
  loadclass w cl (JStr name) = Ret v -> v <> VNone -> alike w cl (JObj ob) (JObj [(u "py/type", JStr name)]).
Proof.
  intros C G LC Nv. apply al_step; [intros ->; discriminate G|discriminate|].
  intros o rec s E. apply (step_type w o rec ob name v s); auto. rewrite E. exact LC.
Qed.
Fixpoint leaner_alike w cl j j' (H : leaner w cl j j') : alike w cl j j' :=
  match H with
  | ln_same _ _ j => al_same w cl j
  | ln_list _ _ l l' F => al_list w cl l l' ((fix go l l' (F : Forall2 (leaner w cl) l l') : Forall2 (alike w cl) l l' :=
      match F with Forall2_nil _ => Forall2_nil _ | Forall2_cons x y a r => Forall2_cons x y (leaner_alike w cl x y a) (go _ _ r) end) l l' F)
  | ln_obj _ _ ob ob' P F => al_obj w cl ob ob' P ((fix go l l' (F : Forall2 (leaner_entry w cl) l l') : Forall2 (alike_entry w cl) l l' :=
      match F with Forall2_nil _ => Forall2_nil _ | Forall2_cons x y a r => Forall2_cons x y (lentry_alike w cl x y a) (go _ _ r) end) ob ob' F)
  | ln_rest _ _ ob t v C NO NT ND In1 => rest_alike w cl ob t v C NO NT ND In1
  | ln_object _ _ ob C Ct => object_alike w cl ob C Ct
  | ln_type _ _ ob name v C G LC Nv => type_alike w cl ob name v C G LC Nv
  end
with lentry_alike w cl e e' (H : leaner_entry w cl e e') : alike_entry w cl e e' :=
  match H with
  | le_list _ _ t l l' F => ae_list w cl t l l' ((fix go l l' (F : Forall2 (leaner w cl) l l') : Forall2 (alike w cl) l l' :=
      match F with Forall2_nil _ => Forall2_nil _ | Forall2_cons x y a r => Forall2_cons x y (leaner_alike w cl x y a) (go _ _ r) end) l l' F)
  | le_other _ _ t j j' D W => ae_other w cl t j j' D (leaner_alike w cl j j' W)
  end.

Lemma lean_restore w o n cl j j' : uo_keys o = false -> clos_refl_trans json (leaner w cl) j j' ->
  forall s, u_classes s = cl -> restore w o n j s = restore w o n j' s.
Proof.
  intros Uk H. induction H as [a b H|a|a b c _ IH1 _ IH2]; intros s C.
  - destruct (alike_same w o cl Uk n a b (leaner_alike w cl a b H) s C) as (E1 & _ & E2).
    destruct (restore w o n a s) as [r s1], (restore w o n b s) as [r' s2]. cbn [fst snd] in *. subst s2.
    destruct r, r'; cbn in E2; try (destruct E2; fail); subst; reflexivity.
  - reflexivity.
  - rewrite IH1 by exact C. apply IH2. exact C.
Qed.

(** C81, any number of entries left out one after the other at places inside lists, dicts and objects. *)
Theorem C81_places :
  forall w o n cl text text' j j' s, uo_keys o = false -> loads text = Some j -> loads text' = Some j' ->
  clos_refl_trans json (leaner w (match cl with Some a => register_classes w a [] | None => [] end)) j j' ->
  decode w o n cl text s = decode w o n cl text' s.
Proof.
  intros w o n cl text text' j j' s Uk L L' F. unfold decode. rewrite L, L'.
  apply bind_ext; [|reflexivity]. unfold unpickle.
  set (T := match cl with Some a => register_classes w a [] | None => [] end) in *.
  set (s1 := mkUst (u_heap s) [] [] (u_prox s) [] T (u_log s)).
  assert (X : forall (f : unit -> MU val), bind u_reset (fun _ => bind (match cl with
      | Some c => modify (fun s => us_classes (register_classes w c (u_classes s)) s) | None => ret tt end) f) s = f tt s1)
    by (intros f; unfold s1, T; destruct cl; reflexivity).
  rewrite !X. apply bind_ext; [|reflexivity]. apply (lean_restore w o n T); auto.
Qed.
Print Assumptions C81_places.

(** An instance in the attribute of which there are a tuple with further tags and an instance with py/type. *)
Definition c81_node (l : jobj) : json := JObj ((u "py/object", JStr (u "m.Node")) :: l).
Definition c81_far : json :=
  c81_node [(u "a", JObj [(u "py/set", JList [JInt 2]); (u "py/tuple", JList [JInt 1]); (u "x", JNull)]);
            (u "b", c81_node [(u "py/type", JStr (u "os.system"))])].
Definition c81_far' : json := c81_node [(u "a", JObj [(u "py/tuple", JList [JInt 1])]); (u "b", c81_node [])].
Example C81_places_case :
  loads (dumps c81_far) = Some c81_far /\ loads (dumps c81_far') = Some c81_far' /\
  clos_refl_trans json (leaner W0 []) c81_far c81_far' /\
  exists l s', decode W0 UO (length (dumps c81_far)) None (dumps c81_far) (new_unpickler []) = (Ret (VLoc l), s').
Proof.
  assert (Ct : forall r, class_there W0 [] ((u "py/object", JStr (u "m.Node")) :: r)).
  { intros r j E. change (Some (JStr (u "m.Node")) = Some j) in E. injection E as <-.
    exists (u "m.Node"), cNode. split; [reflexivity|]. split; [vm_compute; reflexivity|]. split; vm_compute; reflexivity. }
  split; [vm_compute; reflexivity|]. split; [vm_compute; reflexivity|]. split.
  - apply rt_step. apply ln_obj.
    + split; [apply Ct|]. intros t H. cbn [In] in H. repeat (destruct H as [<-|H]; [vm_compute; reflexivity|]). destruct H.
    + constructor; [apply le_other; [right; reflexivity|apply ln_same]|].
      constructor; [apply le_other; [left; reflexivity|]|constructor; [apply le_other; [left; reflexivity|]|constructor]].
      * apply (ln_rest _ _ _ (u "py/tuple") (JList [JInt 1])).
        -- exists [], (tl ranked). split; [reflexivity|]. split; [right; left; reflexivity|]. intros x [].
        -- discriminate.
        -- discriminate.
        -- repeat constructor; cbn; intuition discriminate.
        -- right. left. reflexivity.
      * change (leaner W0 [] (c81_node [(u "py/type", JStr (u "os.system"))])
                  (JObj (without_behind [(u "py/object", JStr (u "m.Node")); (u "py/type", JStr (u "os.system"))]))).
        apply ln_object; [|apply Ct].
        exists (firstn 7 ranked), (skipn 8 ranked). split; [reflexivity|]. split; [left; reflexivity|].
        cbn. intros x H. intuition subst; discriminate.
  - do 2 eexists. vm_compute. reflexivity.
Qed.
