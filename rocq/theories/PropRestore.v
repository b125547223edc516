(** C04, C07, C08, C09 (decoder), C22, C23, C40: decoding arbitrary documents. *)
From Verif Require Import PyStr Tags Json JsonText B64 B85 Base Heap Registry LoadClass Unpickler UGen SpecJson RestoreProofs PlainProofs MissingProofs Samples.
Open Scope nat_scope.
Local Open Scope monad_scope.

(** C04.  The number of nested steps is bounded by the length of the text: with that much fuel
    decode never runs out, for any text, options, classes and decoder state.  User code
    (imports, attribute access, calls) is assumed to return, and custom handlers to ask for the
    restoration of parts of the document they are given only. *)
Theorem C04_decode_terminates :
  forall w o n cl text s, no_oof w ->
  (forall h ctx ob, script_in sm_w (JObj ob) (w_hrest w h ctx ob)) ->
  length text <= n -> fst (decode w o n cl text s) <> OOF.
Proof. intros w o n cl text s H1 H2 H3. exact (decode_halts w o H1 H2 n cl text H3 s). Qed.
Print Assumptions C04_decode_terminates.
Example C04_world_ok : no_oof W0 /\ forall h ctx ob, script_in sm_w (JObj ob) (w_hrest W0 h ctx ob).
Proof.
  split; [|intros; exact I]. unfold no_oof. split; [|split; [|split]].
  - intros s. change (w_import W0 s) with (if seqb s (u "m") then Ret (VMod 0) else Exc EImportError).
    destruct (seqb s (u "m")); discriminate.
  - intros s. change (w_import_top W0 s) with (if seqb s (u "m") then Ret (VMod 0) else Exc EImportError).
    destruct (seqb s (u "m")); discriminate.
  - intros v a. change (w_getattr W0 v a) with (sample_getattr v a). unfold sample_getattr.
    destruct v; try discriminate. destruct m; [|discriminate]. destruct (seqb a (u "f")); [discriminate|].
    generalize 0. induction sample_classes as [|c l IH]; intros n; cbn [find_class]; [discriminate|].
    destruct (seqb (c_qualname c) a); [discriminate|auto].
  - discriminate.
Qed.

(** C07.  A text whose document uses no tag as a key decodes to the tree of the document, in
    distinct new containers; nothing is looked up, imported, called or evaluated, and no object
    that existed before is changed. *)
Theorem C07_plain_json :
  forall w o n cl text j s, loads text = Some j -> tag_free j = true ->
  (uo_keys o = true -> no_json_keys j = true) -> length text <= n ->
  exists v ls s', decode w o n cl text s = (Ret v, s') /\ tree (u_heap s') j v ls /\ NoDup ls /\
    (forall l, In l ls -> length (u_heap s) <= l) /\
    (forall l, l < length (u_heap s) -> hget (u_heap s') l = hget (u_heap s) l) /\ u_log s' = u_log s.
Proof.
  intros w o n cl text j s L T K F. pose proof (loads_jw _ _ L) as Jw.
  destruct (unpickle_tag_free w o n cl j s T K ltac:(lia)) as (v & ls & s' & R & Tr & ND & Fr & _ & Old & Lg).
  exists v, ls, (mkUst (u_heap s') [] [] (u_prox s') [] [] (u_log s')). split; [|auto 10].
  unfold decode. rewrite L, (bind_eq _ _ _ _ _ R). reflexivity.
Qed.
Print Assumptions C07_plain_json.
Definition c07_doc : json :=
  JObj [(u "a", JList [JInt 1; JNull; JObj []]); (u "py/unknown", JStr (u "x")); (u "json://1", JBool true)].
Example C07_case : loads (dumps c07_doc) = Some c07_doc /\ tag_free c07_doc = true /\ no_json_keys c07_doc = false.
Proof. vm_compute. auto. Qed.

(** C08.  A history of calls on one decoder with safe=True never evaluates anything. *)
Inductive ucall : Type := UCall (reset : bool) (cl : option carg) (fuel : nat) (j : json).
Fixpoint run_calls (w : world) (o : uopts) (l : list ucall) (s : ust) : ust :=
  match l with
  | [] => s
  | UCall r cl n j :: rest => run_calls w o rest (snd (unpickle w o n r cl j s))
  end.
Theorem C08_safe_never_evaluates :
  forall w o calls h x, uo_safe o = true -> ~ In (EvEval x) (u_log (run_calls w o calls (new_unpickler h))).
Proof.
  intros w o calls h x F.
  assert (G : forall s, grows no_eval s (run_calls w o calls s)).
  { induction calls as [|[r cl n j] calls IH]; intros s; simpl; [apply grows_refl|].
    eapply grows_trans; [apply unpickle_safe; exact F|apply IH]. }
  destruct (G (new_unpickler h)) as (es & E & Fa). rewrite E. simpl. intros I.
  rewrite Forall_forall in Fa. exact (Fa _ I).
Qed.
Print Assumptions C08_safe_never_evaluates.
Theorem C08_safe_decode :
  forall w o n cl text h x, uo_safe o = true -> ~ In (EvEval x) (u_log (snd (decode w o n cl text (new_unpickler h)))).
Proof.
  intros w o n cl text h x F. destruct (decode_safe w o n cl text (new_unpickler h) F) as (es & E & Fa).
  rewrite E. simpl. intros I. rewrite Forall_forall in Fa. exact (Fa _ I).
Qed.
Print Assumptions C08_safe_decode.
(** With safe=False only documents containing a py/repr object evaluate ... *)
Theorem C08_only_repr_evaluates :
  forall w o n reset cl j s x, (forall h ctx ob, script_in part (JObj ob) (w_hrest w h ctx ob)) ->
  ~ has_part_repr j -> ~ In (EvEval x) (u_log s) -> ~ In (EvEval x) (u_log (snd (unpickle w o n reset cl j s))).
Proof.
  intros w o n reset cl j s x Hh Nr Ns. destruct (unpickle_norepr w o n reset cl j s Hh Nr) as (es & -> & Fa).
  intros I. apply in_app_iff in I. destruct I as [I|I]; [auto|]. rewrite Forall_forall in Fa. exact (Fa _ I).
Qed.
Print Assumptions C08_only_repr_evaluates.
(** A simple sufficient condition, and a document meeting it. *)
Fixpoint repr_free (j : json) : bool :=
  match j with
  | JList l => forallb repr_free l
  | JObj ob => negb (shas REPR ob) &&
               forallb (fun kv => match kv with (k, x) => negb (prefixb JSON_KEY k) && repr_free x end) ob
  | _ => true
  end.
Lemma repr_free_part a b : part a b -> repr_free b = true -> repr_free a = true.
Proof.
  induction 1; intros F; auto.
  - cbn [repr_free] in F. rewrite forallb_forall in F. auto.
  - cbn [repr_free] in F. apply andb_true_iff in F. destruct F as [_ F]. rewrite forallb_forall in F.
    specialize (F _ H). cbv beta iota in F. apply andb_true_iff in F. apply F.
  - cbn [repr_free] in F. apply andb_true_iff in F. destruct F as [_ F]. rewrite forallb_forall in F.
    unfold keys in H. apply in_map_iff in H. destruct H as ([k' x] & E & I). simpl in E. subst k'.
    specialize (F _ I). cbv beta iota in F. rewrite H0 in F. discriminate.
Qed.
Lemma repr_free_ok j : repr_free j = true -> ~ has_part_repr j.
Proof.
  intros F (ob & H & Hr). assert (G : repr_free (JObj ob) = true).
  { destruct H as [->|H]; auto. eapply repr_free_part; eauto. }
  cbn [repr_free] in G. rewrite Hr in G. discriminate.
Qed.
Example C08_norepr_case :
  ~ has_part_repr (JObj [(u "py/object", JStr (u "m.Node")); (u "x", JList [JInt 1; JObj [(u "py/repr2", JNull)]])]).
Proof. apply repr_free_ok. vm_compute. reflexivity. Qed.
(** ... and a py/repr object does. *)
Theorem C08_repr_evaluates :
  forall w o n ob a b s, uo_safe o = false ->
  (forall t, In t dispatch_tags -> t <> u "py/repr" -> sget t ob = None) ->
  sget (u "py/repr") ob = Some (JStr (a ++ 47%N :: b)) -> ~ In 47%N a -> ~ In 47%N b ->
  In (EvEval (a ++ 47%N :: b)) (u_log (snd (restore w o (S n) (JObj ob) s))).
Proof.
  intros w o n ob a b s F U G Na Nb.
  assert (D : forall t, In t dispatch_tags -> t <> u "py/repr" -> shas t ob = false).
  { intros t I N. unfold shas. rewrite (U t I N). reflexivity. }
  cbn [restore restore_step].
  rewrite (D TUPLE), (D SET_), (D B64), (D B85), (D BYTEARRAY), (D ID), (D ITERATOR), (D OBJECT), (D TYPE_),
    (D REDUCE), (D FUNCTION), (D MODULE); try discriminate.
  2-13: vm_compute; auto 20.
  replace (shas REPR ob) with true by (unfold shas; change REPR with (u "py/repr"); rewrite G; reflexivity).
  rewrite F. unfold restore_repr, jfield. change REPR with (u "py/repr"). rewrite G.
  change SLASH with 47%N. rewrite split_on_app_sep, split_on_clean by auto.
  unfold bind, log, modify, lift. destruct (w_eval w (a ++ 47%N :: b)); cbn;
    try (unfold umkref; destruct (idx_get _ _); cbn); repeat (apply in_or_app; (right; left; reflexivity) || left).
Qed.
Print Assumptions C08_repr_evaluates.
Example C08_repr_case :
  let ob := [(u "py/repr", JStr (u "m/m.X()"))] in
  (forall t, In t dispatch_tags -> t <> u "py/repr" -> sget t ob = None) /\
  sget (u "py/repr") ob = Some (JStr (u "m" ++ 47%N :: u "m.X()")).
Proof.
  split; [|reflexivity]. intros t I N. vm_compute in I.
  repeat (destruct I as [<-|I]; [try reflexivity; exfalso; apply N; reflexivity|]). destruct I.
Qed.
(** safe=True does not prevent calling importable callables. *)
Theorem C08_safe_still_calls :
  exists w o text s, uo_safe o = true /\ decode w o (length text) None text (new_unpickler []) = s /\
    In (EvCall (VFun 0) [VInt 1]) (u_log (snd s)).
Proof.
  exists W0, UO, (dumps (JObj [(REDUCE, JList [JObj [(FUNCTION, JStr (u "m.f"))]; JObj [(TUPLE, JList [JInt 1])]])])).
  eexists. split; [reflexivity|]. split; [reflexivity|]. vm_compute. auto 10.
Qed.
Print Assumptions C08_safe_still_calls.

(** C09, decoder half.  A call with reset=True in any state of the decoder (left by any earlier
    calls, complete or interrupted) gives the value, the heap and the events that a decoder
    without history gives in the same memory; the event log is appended to. *)
Theorem C09_decoder_history :
  forall w o n cl j s,
  let s0 := mkUst (u_heap s) [] [] (u_prox s) [] [] [] in
  let r := unpickle w o n true cl j s in let r0 := unpickle w o n true cl j s0 in
  fst r = fst r0 /\ u_heap (snd r) = u_heap (snd r0) /\ u_objs (snd r) = u_objs (snd r0) /\
  u_classes (snd r) = u_classes (snd r0) /\ u_log (snd r) = u_log s ++ u_log (snd r0).
Proof.
  intros w o n cl j s s0 r r0. subst r r0. rewrite (unpickle_history w o n cl j s). cbn. auto.
Qed.
Print Assumptions C09_decoder_history.

(** C22.  A document describing an object whose class cannot be found, anywhere in a
    document, in any state of the decoder: what each policy does. *)
Theorem C22_ignore :
  forall w o n ob name s, object_doc ob name -> missing_name w (u_classes s) name ->
  reg_get_name (w_reg w) name = None -> uo_missing o = MIgnore \/ uo_missing o = MOther ->
  exists v ls s', restore w o (S n) (JObj ob) s = (Ret v, s') /\ tree (u_heap s') (JObj ob) v ls /\ NoDup ls /\
    (forall l, In l ls -> length (u_heap s) <= l) /\
    u_log s' = u_log s ++ [EvLoad name; EvImport name].
Proof.
  intros w o n ob name s D Ms R P. pose proof (missing_run w o n ob name s D Ms R) as H.
  destruct P as [P|P]; rewrite P in H; cbn [policy_effect fst snd] in H;
    destruct H as (v & ls & s' & A & B & C & D' & _ & G); exists v, ls, s'; auto 10.
Qed.
Print Assumptions C22_ignore.
Theorem C22_warn :
  forall w o n ob name s, object_doc ob name -> missing_name w (u_classes s) name ->
  reg_get_name (w_reg w) name = None -> uo_missing o = MWarn ->
  exists v ls s', restore w o (S n) (JObj ob) s = (Ret v, s') /\ tree (u_heap s') (JObj ob) v ls /\ NoDup ls /\
    (forall l, In l ls -> length (u_heap s) <= l) /\
    u_log s' = u_log s ++ [EvLoad name; EvImport name; EvWarn name].
Proof.
  intros w o n ob name s D Ms R P. pose proof (missing_run w o n ob name s D Ms R) as H.
  rewrite P in H; cbn [policy_effect fst snd] in H;
    destruct H as (v & ls & s' & A & B & C & D' & _ & G); exists v, ls, s'; auto 10.
Qed.
Print Assumptions C22_warn.
Theorem C22_error :
  forall w o n ob name s, object_doc ob name -> missing_name w (u_classes s) name ->
  reg_get_name (w_reg w) name = None -> uo_missing o = MError ->
  exists s', restore w o (S n) (JObj ob) s = (Exc EClassNotFound, s').
Proof.
  intros w o n ob name s D Ms R P. pose proof (missing_run w o n ob name s D Ms R) as H.
  rewrite P in H. exact H.
Qed.
Print Assumptions C22_error.
(** The exception leaves decode, wherever in a document the object is: no handler of the
    decoder catches it.  Here: as the document itself. *)
Theorem C22_error_decode :
  forall w o n cl text ob name h, loads text = Some (JObj ob) -> object_doc ob name ->
  missing_name w (match cl with Some c => register_classes w c [] | None => [] end) name ->
  reg_get_name (w_reg w) name = None -> uo_missing o = MError ->
  fst (decode w o (S n) cl text (new_unpickler h)) = Exc EClassNotFound.
Proof.
  intros w o n cl text ob name h L D Ms R P. unfold decode. rewrite L. unfold unpickle.
  set (s1 := mkUst h [] [] [] [] (match cl with Some c => register_classes w c [] | None => [] end) []).
  destruct (C22_error w o n ob name s1 D Ms R P) as (s' & E).
  unfold bind at 1 2. cbn [u_reset modify].
  unfold bind at 1.
  replace (match cl with Some c => modify (fun s => us_classes (register_classes w c (u_classes s)) s) | None => ret tt end
            (mkUst (u_heap (new_unpickler h)) [] [] (u_prox (new_unpickler h)) [] [] (u_log (new_unpickler h))))
    with (@Ret unit tt, s1) by (unfold s1; destruct cl; reflexivity).
  rewrite (bind_exc _ _ _ _ _ E). reflexivity.
Qed.
Print Assumptions C22_error_decode.
Theorem C22_callback :
  forall w o n ob name s f, object_doc ob name -> missing_name w (u_classes s) name ->
  reg_get_name (w_reg w) name = None -> uo_missing o = MCall f -> f name = None ->
  exists v ls s', restore w o (S n) (JObj ob) s = (Ret v, s') /\ tree (u_heap s') (JObj ob) v ls /\ NoDup ls /\
    (forall l, In l ls -> length (u_heap s) <= l) /\
    u_log s' = u_log s ++ [EvLoad name; EvImport name; EvMissing name].
Proof.
  intros w o n ob name s f D Ms R P F. pose proof (missing_run w o n ob name s D Ms R) as H.
  rewrite P in H; cbn [policy_effect fst snd] in H. rewrite F in H.
  destruct H as (v & ls & s' & A & B & C & D' & _ & G); exists v, ls, s'; auto 10.
Qed.
Print Assumptions C22_callback.
(** Policy strings: letter case does not matter. *)
Theorem C22_case_insensitive :
  forall a b, map lower a = map lower b -> missing_of_string a = missing_of_string b.
Proof. intros a b E. unfold missing_of_string. rewrite E. reflexivity. Qed.
Print Assumptions C22_case_insensitive.
(** The three words, each letter in either case. *)
Definition spells (word s : pystr) : Prop :=
  Forall2 (fun c x => x = c \/ (x + 32 = c)%N) word s.
Theorem C22_policy_strings :
  forall s, (spells (u "ignore") s -> missing_of_string s = MIgnore) /\
            (spells (u "warn") s -> missing_of_string s = MWarn) /\
            (spells (u "error") s -> missing_of_string s = MError) /\
            (~ spells (u "ignore") s -> ~ spells (u "warn") s -> ~ spells (u "error") s -> missing_of_string s = MOther).
Proof.
  assert (L : forall word s, forallb (fun c => (97 <=? c) && (c <=? 122))%N word = true ->
              (map Unpickler.lower s = word <-> spells word s)).
  { intros word s Hw. rewrite forallb_forall in Hw. unfold spells. split.
    - intros <-. induction s as [|x s IH]; cbn [map]; constructor.
      + unfold Unpickler.lower. destruct ((65 <=? x)%N && (x <=? 90)%N); auto.
      + apply IH. intros c I. apply Hw. right. exact I.
    - intros F. induction F as [|c x word s [->|E] F IH]; auto; cbn [map]; f_equal; try (apply IH; intros y I; apply Hw; right; exact I).
      + specialize (Hw c (or_introl eq_refl)). apply andb_true_iff in Hw. destruct Hw as [H1 H2]. apply N.leb_le in H1, H2.
        unfold Unpickler.lower. replace (c <=? 90)%N with false by (symmetry; apply N.leb_gt; lia). rewrite andb_false_r. auto.
      + specialize (Hw c (or_introl eq_refl)). apply andb_true_iff in Hw. destruct Hw as [H1 H2]. apply N.leb_le in H1, H2.
        unfold Unpickler.lower. replace (65 <=? x)%N with true by (symmetry; apply N.leb_le; lia).
        replace (x <=? 90)%N with true by (symmetry; apply N.leb_le; lia). cbn [andb]. lia. }
  assert (Li := fun s => L (u "ignore") s eq_refl). assert (Lw := fun s => L (u "warn") s eq_refl). assert (Le := fun s => L (u "error") s eq_refl).
  intros s. unfold missing_of_string. cbv zeta. repeat split.
  - intros H. apply Li in H. rewrite H. reflexivity.
  - intros H. apply Lw in H. rewrite H. reflexivity.
  - intros H. apply Le in H. rewrite H. reflexivity.
  - intros N1 N2 N3. assert (X : forall a b, a <> b -> seqb a b = false).
    { intros a b N. destruct (seqb a b) eqn:E; auto. apply seqb_eq in E. contradiction. }
    rewrite !X; auto; intros E; [apply N3, Le|apply N2, Lw|apply N1, Li]; exact E.
Qed.
Print Assumptions C22_policy_strings.
Example C22_strings :
  missing_of_string (u "IgnorE") = MIgnore /\ missing_of_string (u "WARN") = MWarn /\
  missing_of_string (u "Error") = MError /\ missing_of_string (u "errors") = MOther.
Proof. vm_compute. auto. Qed.
Example C22_case :
  object_doc [(u "py/object", JStr (u "m.Gone")); (u "x", JList [JInt 1])] (u "m.Gone") /\
  missing_name W0 [] (u "m.Gone") /\ reg_get_name (w_reg W0) (u "m.Gone") = None.
Proof.
  repeat split; try reflexivity.
  - intros t I. vm_compute in I. repeat (destruct I as [<-|I]; [reflexivity|]). destruct I.
  - discriminate.
  - intros i Hi. change (length (split_on DOT (u "m.Gone"))) with 2 in Hi. assert (i = 1) as -> by lia.
    exists EAttributeError. split; reflexivity.
Qed.

(** C23, whole runs.  No name found in the table of supplied classes is imported, in any
    document; and the supplied class is the one used. *)
Theorem C23_no_import :
  forall w o n c j h name, In (EvImport name) (u_log (snd (unpickle w o n true (Some c) j (new_unpickler h)))) ->
  sget name (register_classes w c []) = None.
Proof.
  intros w o n c j h name I.
  destruct (unpickle_table w o n c j (new_unpickler h) name (u_log (snd (unpickle w o n true (Some c) j (new_unpickler h))))) as [A _]; auto.
Qed.
Print Assumptions C23_no_import.
Theorem C23_type_document :
  forall w o n c name v s, sget name (register_classes w c []) = Some v -> v <> VNone ->
  exists s', unpickle w o (S n) true (Some c) (JObj [(u "py/type", JStr name)]) s = (Ret v, s') /\
    u_log s' = u_log s ++ [EvLoad name].
Proof. exact supplied_type. Qed.
Print Assumptions C23_type_document.
Theorem C23_object_document :
  forall w o n c name cn s,
  sget name (register_classes w c []) = Some (VType cn) -> reg_lookup (w_sub w) (w_reg w) cn name = None ->
  c_kind (w_cls w cn) <> KTuple -> c_deffac (w_cls w cn) = false -> w_new w (u_heap s) cn [] [] = CInst cn ->
  exists l i s', unpickle w o (S n) true (Some c) (JObj [(u "py/object", JStr name)]) s = (Ret (VLoc l), s') /\
    hget (u_heap s') l = Some (OInst i) /\ i_cls i = cn /\ length (u_heap s) <= l /\
    u_log s' = u_log s ++ [EvLoad name; EvNew cn [] []].
Proof. exact supplied_object. Qed.
Print Assumptions C23_object_document.
Example C23_case :
  let c := CASeq [CAOne cOther; CASeq [CADict [(inl (u "gone.Name"), VType cNode)]]] in
  sget (u "gone.Name") (register_classes W0 c []) = Some (VType cNode) /\
  reg_lookup (w_sub W0) (w_reg W0) cNode (u "gone.Name") = None /\ c_kind (w_cls W0 cNode) <> KTuple /\
  c_deffac (w_cls W0 cNode) = false /\ w_new W0 [] cNode [] [] = CInst cNode.
Proof. vm_compute. repeat split; try reflexivity. discriminate. Qed.

(** C40.  Lists and dicts nested in any way, in which values of the form {"py/id": v} stand
    with v not a number, or a number outside the range of the objects of the document: the
    result is the document with these values replaced by None. *)
Theorem C40_malformed_reference :
  forall w o n cl text j s, loads text = Some j ->
  plain_doc (uo_keys o) (numbered (uo_v1 o) j) j = true -> length text <= n ->
  exists v ls s', decode w o n cl text s = (Ret v, s') /\
    tree (u_heap s') (nullify (numbered (uo_v1 o) j) j) v ls /\ NoDup ls /\
    (forall l, In l ls -> length (u_heap s) <= l) /\ u_log s' = u_log s.
Proof.
  intros w o n cl text j s L P F. pose proof (loads_jw _ _ L) as Jw.
  destruct (unpickle_plain w o n cl j s P ltac:(lia)) as (v & ls & s' & R & Tr & ND & Fr & _ & Old & Lg).
  exists v, ls, (mkUst (u_heap s') [] [] (u_prox s') [] [] (u_log s')). split; [|auto 10].
  unfold decode. rewrite L, (bind_eq _ _ _ _ _ R). reflexivity.
Qed.
Print Assumptions C40_malformed_reference.
Definition c40_doc : json :=
  JObj [(u "a", JList [JInt 1; JObj [(u "py/id", JInt 7)]; JObj [(u "py/id", JStr (u "x"))]]);
        (u "b", JObj [(u "py/id", JInt (-3))]); (u "c", JObj [(u "py/id", JList [])])].
Example C40_case :
  loads (dumps c40_doc) = Some c40_doc /\ plain_doc false (numbered false c40_doc) c40_doc = true /\
  nullify (numbered false c40_doc) c40_doc =
    JObj [(u "a", JList [JInt 1; JNull; JNull]); (u "b", JNull); (u "c", JNull)].
Proof. vm_compute. auto. Qed.
(** The claim fails with keys=True in dicts (the placeholder object is left in the result), at
    the top of a document, and for negative numbers inside the range (counted from the end). *)
Theorem C40_keys_refuted :
  exists text l s', decode W0 UO_keys (length text) None text (new_unpickler []) = (Ret (VLoc l), s') /\
    hget (u_heap s') l = Some (ODict [(VStr (u "a"), VIDProxy 7)]).
Proof.
  exists (dumps (JObj [(u "a", JObj [(u "py/id", JInt 7)])])). do 2 eexists. split; vm_compute; reflexivity.
Qed.
Print Assumptions C40_keys_refuted.
Theorem C40_top_refuted :
  exists text, fst (decode W0 UO (length text) None text (new_unpickler [])) = Ret (VIDProxy 7).
Proof. exists (dumps (JObj [(u "py/id", JInt 7)])). vm_compute. reflexivity. Qed.
Print Assumptions C40_top_refuted.
Theorem C40_negative_refuted :
  exists text l s', decode W0 UO (length text) None text (new_unpickler []) = (Ret (VLoc l), s') /\
    hget (u_heap s') l = Some (OList [VLoc l]).
Proof.
  exists (dumps (JList [JObj [(u "py/id", JInt (-1))]])). do 2 eexists. split; vm_compute; reflexivity.
Qed.
Print Assumptions C40_negative_refuted.
