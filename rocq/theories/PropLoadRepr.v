(** Property theorems about py/repr: C84. *)
From Verif Require Import PyStr Json Base Tags Heap LoadClass Unpickler LoadRepr SpecJson SpecNames Samples BackendProofs.
Open Scope nat_scope.

Lemma split_length c s : length (split_on c s) = S (count_occ N.eq_dec s c).
Proof.
  induction s as [|x s IH]; auto. cbn [split_on count_occ]. destruct (N.eqb_spec x c) as [->|Ne].
  - destruct (N.eq_dec c c); [cbn [length]; rewrite IH; auto|contradiction].
  - destruct (N.eq_dec x c); [contradiction|]. pose proof (split_on_nonnil c s). destruct (split_on c s); [contradiction|]. exact IH.
Qed.

(** [c] is the first part of the dotted name [a]. *)
Definition first_part (c a : pystr) : Prop := ~ In 46%N c /\ (a = c \/ exists r, a = c ++ 46%N :: r).
Lemma localname_first c a : first_part c a -> localname a = c.
Proof.
  intros (N & [-> |(r & ->)]); unfold localname.
  - destruct (existsb (N.eqb 46) c) eqn:E; auto. apply existsb_exists in E as (x & I1 & E). apply N.eqb_eq in E. subst. contradiction.
  - replace (existsb (N.eqb 46) (c ++ 46%N :: r)) with true.
    + rewrite split_on_app_sep; auto.
    + symmetry. apply existsb_exists. exists 46%N. split; auto. apply in_app_iff. right. left. auto.
Qed.

(** What the names of the expression mean: the top package under its own name; the text and its two
    parts under three names of loadrepr; nothing else. *)
Definition means {mdl} (c text a b : pystr) (m : mdl) (n : pystr) : option (bound mdl) :=
  if seqb n c then Some (BModule m)
  else if seqb n (u "reprstr") then Some (BText text)
  else if seqb n (u "module") then Some (BText a)
  else if seqb n (u "evalstr") then Some (BText b)
  else None.

(** C84: a text with one slash: the module before it is imported, and then the expression behind it
    evaluated, each once; without the module nothing is evaluated. *)
Theorem C84_one_slash : forall mdl V (import_ : pystr -> res mdl) (evaluate : pystr -> list (pystr * bound mdl) -> res V) a b c s,
  ~ In 47%N a -> ~ In 47%N b -> first_part c a ->
  let text := a ++ 47%N :: b in
  match import_ a with
  | Ret m => exists names, loadrepr import_ evaluate text s = (evaluate b names, s ++ [Imports a; Evaluates b names]) /\
               (forall n, sget n names = means c text a b m n)
  | Exc x => loadrepr import_ evaluate text s = (Exc x, s ++ [Imports a])
  | OOF => loadrepr import_ evaluate text s = (OOF, s ++ [Imports a])
  end.
Proof.
  intros mdl V im ev a b c s Na Nb FP text. unfold loadrepr, text. rewrite split_on_app_sep, split_on_clean by auto.
  unfold bind, does. destruct (im a) as [m|x|]; auto. rewrite (localname_first _ _ FP), <- app_assoc.
  eexists. split; [reflexivity|]. intros n. rewrite sget_sset. unfold means. destruct (seqb n c); auto.
Qed.
Print Assumptions C84_one_slash.

(** C84: any other text is a ValueError, and nothing is imported or evaluated. *)
Theorem C84_slashes : forall mdl V (import_ : pystr -> res mdl) (evaluate : pystr -> list (pystr * bound mdl) -> res V) text s,
  count_occ N.eq_dec text 47%N <> 1 -> loadrepr import_ evaluate text s = (Exc EValueError, s).
Proof.
  intros mdl V im ev text s N. pose proof (split_length 47 text) as L. unfold loadrepr.
  destruct (split_on 47 text) as [|x [|y [|z r]]]; try reflexivity. cbn in L. congruence.
Qed.
Print Assumptions C84_slashes.

(** C84: so in a document: py/repr with a slash in the expression cannot be decoded, and nothing happens. *)
Theorem C84_document : forall w o n ob text s, uo_safe o = false ->
  (forall t, In t dispatch_tags -> t <> u "py/repr" -> sget t ob = None) ->
  sget (u "py/repr") ob = Some (JStr text) -> count_occ N.eq_dec text 47%N <> 1 ->
  restore w o (S n) (JObj ob) s = (Exc EValueError, s).
Proof.
  intros w o n ob text s F U G NC.
  assert (D : forall t, In t dispatch_tags -> t <> u "py/repr" -> shas t ob = false).
  { intros t I1 N. unfold shas. rewrite (U t I1 N). reflexivity. }
  cbn [restore restore_step].
  rewrite (D TUPLE), (D SET_), (D B64), (D B85), (D BYTEARRAY), (D ID), (D ITERATOR), (D OBJECT), (D TYPE_),
    (D REDUCE), (D FUNCTION), (D MODULE); try discriminate.
  2-13: vm_compute; auto 20.
  replace (shas REPR ob) with true by (unfold shas; change REPR with (u "py/repr"); rewrite G; reflexivity).
  rewrite F. unfold restore_repr, jfield. change REPR with (u "py/repr"). rewrite G. change SLASH with 47%N.
  pose proof (split_length 47 text) as L. destruct (split_on 47 text) as [|x [|y [|z r]]]; try reflexivity. cbn in L. congruence.
Qed.
Print Assumptions C84_document.

(** C84: and with one slash the document is what loadrepr gives, value or exception. *)
Theorem C84_value : forall mdl (import_ : pystr -> res mdl) evaluate w o n ob a b s, uo_safe o = false ->
  (forall text, w_eval w text = fst (loadrepr import_ evaluate text [])) ->
  (forall t, In t dispatch_tags -> t <> u "py/repr" -> sget t ob = None) ->
  sget (u "py/repr") ob = Some (JStr (a ++ 47%N :: b)) -> ~ In 47%N a -> ~ In 47%N b ->
  fst (restore w o (S n) (JObj ob) s) = fst (loadrepr import_ evaluate (a ++ 47%N :: b) []).
Proof.
  intros mdl im ev w o n ob a b s F WE U G Na Nb. rewrite <- WE.
  assert (D : forall t, In t dispatch_tags -> t <> u "py/repr" -> shas t ob = false).
  { intros t I1 N. unfold shas. rewrite (U t I1 N). reflexivity. }
  cbn [restore restore_step].
  rewrite (D TUPLE), (D SET_), (D B64), (D B85), (D BYTEARRAY), (D ID), (D ITERATOR), (D OBJECT), (D TYPE_),
    (D REDUCE), (D FUNCTION), (D MODULE); try discriminate.
  2-13: vm_compute; auto 20.
  replace (shas REPR ob) with true by (unfold shas; change REPR with (u "py/repr"); rewrite G; reflexivity).
  rewrite F. unfold restore_repr, jfield. change REPR with (u "py/repr"). rewrite G. change SLASH with 47%N.
  rewrite split_on_app_sep, split_on_clean by auto.
  unfold bind, log, modify, lift. destruct (w_eval w (a ++ 47%N :: b)); cbn; auto.
  unfold umkref. destruct (idx_get _ _); reflexivity.
Qed.
Print Assumptions C84_value.

(** ** Cases *)
(** Modules are numbers; the expression is a name that is looked up. *)
Definition imp0 (n : pystr) : res nat := if seqb n (u "os.path") then Ret 7 else if seqb n (u "json") then Ret 8 else Exc EImportError.
Definition eval0 (x : pystr) (names : list (pystr * bound nat)) : res (bound nat) :=
  match sget x names with Some v => Ret v | None => Exc EValueError end.
Example C84_case :
  fst (loadrepr imp0 eval0 (u "os.path/os") []) = Ret (BModule 7) /\
  fst (loadrepr imp0 eval0 (u "json/json") []) = Ret (BModule 8) /\
  fst (loadrepr imp0 eval0 (u "json/os") []) = Exc EValueError /\
  loadrepr imp0 eval0 (u "no/no") [] = (Exc EImportError, [Imports (u "no")]) /\
  loadrepr imp0 eval0 (u "json/1/2") [] = (Exc EValueError, []).
Proof. vm_compute. repeat split. Qed.
Example C84_case_first : first_part (u "os") (u "os.path").
Proof. split; [vm_compute; intros [H|[H|[]]]; discriminate|]. right. exists (u "path"). reflexivity. Qed.
(** An expression with a slash in it: PosixPath('/tmp'). *)
Example C84_document_case :
  let ob := [(u "py/repr", JStr (u "pathlib/pathlib.PosixPath('/tmp')"))] in
  (forall t, In t dispatch_tags -> t <> u "py/repr" -> sget t ob = None) /\
  count_occ N.eq_dec (u "pathlib/pathlib.PosixPath('/tmp')") 47%N = 2.
Proof.
  split; [|reflexivity]. intros t I1 N. vm_compute in I1.
  repeat (destruct I1 as [<-|I1]; [try reflexivity; exfalso; apply N; reflexivity|]). destruct I1.
Qed.
(** The same module and lookup in the decoder: json/evalstr gives the string evalstr. *)
Definition eval1 (x : pystr) (names : list (pystr * bound nat)) : res val :=
  match sget x names with Some (BText t) => Ret (VStr t) | Some (BModule m) => Ret (VInt (Z.of_nat m)) | None => Exc EValueError end.
Definition W84 : world := with_imports W0 (w_import W0) (w_import_top W0) (fun text => fst (loadrepr imp0 eval1 text [])).
Example C84_value_case :
  fst (restore W84 (mkUopts false false false MIgnore false None) 3 (JObj [(u "py/repr", JStr (u "os.path/os"))]) (new_unpickler [])) = Ret (VInt 7) /\
  fst (restore W84 (mkUopts false false false MIgnore false None) 3 (JObj [(u "py/repr", JStr (u "no/os"))]) (new_unpickler [])) = Exc EImportError.
Proof. vm_compute. auto. Qed.
(** C84 in general is false: that the expression sees nothing but the module.  Here [eval0] only looks
    names up, and the name module gives the text. *)
Theorem C84_names_refuted : fst (loadrepr imp0 eval0 (u "json/module") []) = Ret (BText (u "json")).
Proof. vm_compute. reflexivity. Qed.
Print Assumptions C84_names_refuted.
