(** C71: decode looks up only what the document names.  C72: documents without names are data. *)
From Verif Require Import PyStr Tags Json JsonText Base Heap Registry LoadClass Unpickler UGen RestoreProofs CongProofs SpecNames NameProofs SpecTame TameProofs Samples.
Open Scope nat_scope.

(** C71.  For every text, all options and all environments whose handlers restore only parts of the
    object they are given: what decode asks of class lookup, the import system, [eval], warnings and
    on_missing are strings that stand in the document under the tag in question. *)
Theorem C71_named :
  forall w o n classes text j h,
  part_handlers w -> loads text = Some j ->
  forall e, In e (u_log (snd (decode w o n classes text (new_unpickler h)))) -> told_by j (uo_safe o) e.
Proof.
  intros w o n cl text j h H L e I. pose proof (decode_told w o n cl text j h H L) as F.
  rewrite Forall_forall in F. auto.
Qed.
Print Assumptions C71_named.

(** The value, the heap, the log and the exception are the same under any other import system and
    [eval] that agree on the module parts of the names in the document. *)
Theorem C71_imports :
  forall w o imp top ev n classes text j s,
  part_handlers w -> loads text = Some j -> agree_on j (uo_safe o) w imp top ev ->
  decode (with_imports w imp top ev) o n classes text s = decode w o n classes text s.
Proof. intros w o imp top ev n cl text j s H L A. eapply decode_imports; eauto. Qed.
Print Assumptions C71_imports.

(** In particular a document that names nothing is decoded alike when nothing can be imported. *)
Theorem C71_nothing :
  forall w o n classes text j,
  part_handlers w -> loads text = Some j -> names_nothing j ->
  (forall imp top ev s, decode (with_imports w imp top ev) o n classes text s = decode w o n classes text s) /\
  (forall h e, In e (u_log (snd (decode w o n classes text (new_unpickler h)))) ->
     match e with EvLoad _ | EvImport _ | EvModule _ | EvEval _ | EvWarn _ | EvMissing _ => False | _ => True end).
Proof.
  intros w o n cl text j H L N.
  assert (D : forall s, ~ dotted_in j s).
  { intros s (ob & t & I & T & M). apply (N ob t _ I M). destruct T as [->|[->| ->]]; cbn [In]; auto 10. }
  assert (V : forall t x, In t [u "py/object"; u "py/mod"; u "py/repr"] -> ~ value_in t j x).
  { intros t x T (ob & I & M). apply (N ob t x I M). simpl in T. destruct T as [<-|[<-|[<-|[]]]]; cbn [In]; auto 10. }
  split.
  - intros imp top ev s. eapply C71_imports; eauto. repeat split.
    + intros s0 p K. exfalso. eapply D; eauto.
    + intros s0 m [K|[_ K]]; exfalso; eapply V; eauto; simpl; auto.
    + intros s0 _ K. exfalso. eapply V; eauto; simpl; auto.
  - intros h e I. pose proof (C71_named w o n cl text j h H L e I) as K.
    destruct e; auto; simpl in K.
    + eapply D; eauto.
    + eapply D; eauto.
    + destruct K as [K|[_ K]]; eapply V; eauto; simpl; auto.
    + destruct K as [_ K]. eapply V; eauto; simpl; auto.
    + eapply V; eauto; simpl; auto.
    + eapply V; eauto; simpl; auto.
Qed.
Print Assumptions C71_nothing.

(** More fuel than the length of the text changes nothing: the model of decode is a function of the
    text. *)
Theorem C71_fuel :
  forall w o n m classes text s,
  part_handlers w -> length text <= n -> n <= m -> decode w o n classes text s = decode w o m classes text s.
Proof. intros w o n m cl text s H L M. apply decode_fuel; auto. Qed.
Print Assumptions C71_fuel.

(** A case: class, type, function and module names, in an attribute and in a key. *)
Definition names_text : pystr :=
  u "{""py/object"": ""m.Node"", ""a"": {""py/type"": ""m.Point""}, ""b"": {""py/mod"": ""m/m""}, ""c"": ""os.system"", ""json://{\""py/type\"": \""gone.K\""}"": 1}".
Definition asked (L : list event) : list string :=
  flat_map (fun e => match e with EvImport s => [asc s] | EvModule (JStr s) => [asc s] | _ => [] end) L.
Example C71_case :
  part_handlers W0 /\
  asked (u_log (snd (dec W0 UO_keys 400 names_text))) = ["m.Node"; "m.Point"; "m/m"; "gone.K"]%string /\
  asked (u_log (snd (dec W0 UO 400 names_text))) = ["m.Node"; "m.Point"; "m/m"]%string.
Proof. split; [intros h ctx ob; exact I|]. split; vm_compute; reflexivity. Qed.
(** The agreement cannot be dropped: without the module m the result is another one. *)
Definition broken : pystr -> res val := fun _ => Exc EImportError.
Example C71_case_named :
  fst (dec W0 UO 400 names_text) <> fst (dec (with_imports W0 broken broken broken) UO 400 names_text).
Proof. vm_compute. discriminate. Qed.
(** An import system that differs only on names that are not in the document. *)
Definition no_os : pystr -> res val := fun s => if seqb s (u "os") then Ret (VMod 7) else w_import W0 s.
Example C71_case_other :
  dec (with_imports W0 no_os no_os broken) UO_keys 400 names_text = dec W0 UO_keys 400 names_text.
Proof. vm_compute. reflexivity. Qed.

(** C72.  A document without py/object, py/type, py/function, py/mod and py/repr (whatever else it
    contains: py/reduce, py/id, py/set, keys with documents) runs no code of the program: no import,
    no call of a class, function, handler or __setstate__.  The value and all objects that were
    created are built-in data; objects that existed before are unchanged. *)
Theorem C72_data :
  forall w o n classes text j h,
  loads text = Some j -> names_nothing j ->
  let r := decode w o n classes text (new_unpickler h) in
  u_log (snd r) = [] /\ only_data h (u_heap (snd r)) /\ (forall v, fst r = Ret v -> data (length h) v).
Proof.
  intros w o n cl text j h L N r.
  assert (I : Inv h (new_unpickler h)).
  { split; cbn; auto.
    - split; auto. intros l ob K G. apply hget_lt in G. lia.
    - intros v []. }
  destruct (t_decode w o h n cl text j L N _ I) as (A & B & C). split; [exact B|]. split; [apply A|exact C].
Qed.
Print Assumptions C72_data.

(** A case that would like to call: py/reduce and py/newobj with strings for functions. *)
Definition nameless_text : pystr :=
  u "{""a"": {""py/reduce"": [""os.system"", {""py/tuple"": [""ls""]}]}, ""b"": {""py/reduce"": [{""py/set"": [1]}, []]}, ""c"": {""py/id"": 0}, ""d"": {""py/iterator"": [1]}, ""json://{\""py/tuple\"": [1, 2]}"": {""py/b64"": ""aGk=""}}".
Definition newobj_text : pystr := u "{""py/reduce"": [""py/newobj"", {""py/tuple"": [""os.system""]}]}".
Example C72_case :
  u_log (snd (dec W0 UO_keys 400 nameless_text)) = [] /\
  fst (dec W0 UO_keys 400 nameless_text) = Ret (VLoc 0) /\
  hget (u_heap (snd (dec W0 UO_keys 400 nameless_text))) 0 =
    Some (ODict [(VStr (u "a"), VLoc 1); (VStr (u "b"), VLoc 4); (VStr (u "c"), VLoc 0); (VStr (u "d"), VLoc 6);
                 (VTuple [VInt 1; VInt 2], VBytes ["h"; "i"]%char)]).
Proof. split; [vm_compute; reflexivity|]. split; [vm_compute; reflexivity|]. vm_compute. reflexivity. Qed.
Example C72_newobj : dec W0 UO 100 newobj_text = (Exc ETypeError, snd (dec W0 UO 100 newobj_text)) /\ u_log (snd (dec W0 UO 100 newobj_text)) = [].
Proof. split; [vm_compute; reflexivity|]. vm_compute. reflexivity. Qed.
(** With a name code runs. *)
Definition named_text : pystr := u "{""py/reduce"": [{""py/type"": ""m.Node""}, {""py/tuple"": []}]}".
Example C72_named : existsb (fun e => match e with EvCall (VType _) _ => true | _ => false end) (u_log (snd (dec W0 UO 100 named_text))) = true.
Proof. vm_compute. reflexivity. Qed.
