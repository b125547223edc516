(** Property theorems about name resolution: C23, C24. *)
From Verif Require Import PyStr Tags Json JsonText Base Heap Registry LoadClass Pickler Unpickler Samples LoadClassProofs.
Open Scope nat_scope.

(** C24: the name written for an importable class resolves to that class. *)
Theorem C24_class_name_resolves : forall w classes c,
  c_types_name (w_cls w c) = None ->
  importable w (c_module (w_cls w c)) (c_qualname (w_cls w c)) (VType c) ->
  from_classes classes (importable_name (w_cls w c)) = None ->
  loadclass w classes (JStr (importable_name (w_cls w c))) = Ret (VType c).
Proof. exact loadclass_importable_class. Qed.
Print Assumptions C24_class_name_resolves.

Theorem C24_function_name_resolves : forall w classes f,
  importable w (f_module (w_fun w f)) (f_qualname (w_fun w f)) (VFun f) ->
  from_classes classes (importable_fname (w_fun w f)) = None ->
  loadclass w classes (JStr (importable_fname (w_fun w f))) = Ret (VFun f).
Proof. exact loadclass_importable_fun. Qed.
Print Assumptions C24_function_name_resolves.

(** C24: only dotted prefixes of the name are imported: the outcome is the same in two worlds whose
    import systems agree on those prefixes, whatever they do on any other name. *)
Theorem C24_only_prefixes_imported : forall w1 w2 classes s,
  (forall i, 1 <= i < length (split_on DOT s) ->
     w_import w1 (translate_module_name (join_with DOT (firstn i (split_on DOT s)))) =
     w_import w2 (translate_module_name (join_with DOT (firstn i (split_on DOT s))))) ->
  w_getattr w1 = w_getattr w2 -> w_nonetype w1 = w_nonetype w2 ->
  loadclass w1 classes (JStr s) = loadclass w2 classes (JStr s).
Proof. exact loadclass_prefixes. Qed.
Print Assumptions C24_only_prefixes_imported.

(** C24: a module is named by its dotted path, written twice with a slash between.  The path
    leads back to the module if importing it gives its top package ([__import__]) and the
    attributes lead from there to the module. *)
Theorem C24_module_name_resolves : forall w first rest top v,
  Forall (fun x => ~ In 46%N x /\ ~ In 47%N x) (first :: rest) ->
  let name := join_with 46%N (first :: rest) in
  w_import_top w name = Ret top -> follows (w_getattr w) top rest v ->
  loadmodule w (JStr (name ++ 47%N :: name)) = Ret v.
Proof.
  intros w first rest top v F name HI HF.
  assert (Nd : Forall (fun x => ~ In 46%N x) (first :: rest)) by (eapply Forall_impl; [|exact F]; intros ? [? ?]; assumption).
  assert (Ns : ~ In 47%N name).
  { unfold name. clear - F. induction F as [|x l [_ Hx] F IH]; cbn [join_with]; [intros []|].
    destruct l as [|y l]; auto. intros I. apply in_app_or in I. destruct I as [I|[I|I]]; [tauto|discriminate|tauto]. }
  cbn [loadmodule]. change SLASH with 47%N. rewrite split_on_app_sep, split_on_clean by auto. rewrite HI.
  unfold name at 1. change DOT with 46%N. rewrite split_join by (auto; discriminate).
  replace (negb (seqb first name) && negb (prefixb (first ++ [46%N]) name)) with false.
  - clear - HF. induction HF as [|a n r b c G HF IH]; cbn [mod_attrs]; auto. rewrite G. exact IH.
  - symmetry. apply andb_false_iff. rewrite !negb_false_iff. unfold name. destruct rest as [|y r].
    + left. apply seqb_refl.
    + right. change (join_with 46%N (first :: y :: r)) with (first ++ [46%N] ++ join_with 46%N (y :: r)).
      rewrite app_assoc. apply prefixb_app.
Qed.
Print Assumptions C24_module_name_resolves.
(** What is not below the imported module's top package is not looked up. *)
Theorem C24_module_of_other_package : forall w first rest other orest top,
  Forall (fun x => ~ In 46%N x /\ ~ In 47%N x) (first :: rest) -> Forall (fun x => ~ In 46%N x /\ ~ In 47%N x) (other :: orest) ->
  w_import_top w (join_with 46%N (first :: rest)) = Ret top -> other <> first ->
  loadmodule w (JStr (join_with 46%N (first :: rest) ++ 47%N :: join_with 46%N (other :: orest))) = Ret VNone.
Proof.
  intros w first rest other orest top F Fo HI Ne.
  assert (Nd : forall l, Forall (fun x => ~ In 46%N x /\ ~ In 47%N x) l -> Forall (fun x => ~ In 46%N x) l)
    by (intros l G; eapply Forall_impl; [|exact G]; intros ? [? ?]; assumption).
  assert (Ns : forall l, Forall (fun x => ~ In 46%N x /\ ~ In 47%N x) l -> ~ In 47%N (join_with 46%N l)).
  { clear. intros l F. induction F as [|x l [_ Hx] F IH]; cbn [join_with]; [intros []|].
    destruct l as [|y l]; auto. intros I. apply in_app_or in I. destruct I as [I|[I|I]]; [tauto|discriminate|tauto]. }
  cbn [loadmodule]. change SLASH with 47%N. rewrite split_on_app_sep, split_on_clean by auto. rewrite HI.
  change DOT with 46%N. rewrite split_join by (discriminate || exact (Nd _ Fo)).
  replace (seqb other (join_with 46%N (first :: rest))) with false; [|symmetry].
  - replace (prefixb (other ++ [46%N]) (join_with 46%N (first :: rest))) with false; [reflexivity|symmetry].
    apply not_true_iff_false. intros P. apply prefixb_inv in P. destruct P as (r & E).
    apply (f_equal (split_on 46%N)) in E. rewrite split_join in E by (discriminate || exact (Nd _ F)).
    rewrite <- app_assoc in E. cbn [app] in E. rewrite split_on_app_sep in E by (inversion Fo; tauto). inversion E. congruence.
  - apply not_true_iff_false. intros P. apply seqb_eq in P. apply (f_equal (split_on 46%N)) in P.
    rewrite split_join in P by (discriminate || exact (Nd _ F)).
    rewrite split_on_clean in P by (inversion Fo; tauto). inversion P. congruence.
Qed.
Print Assumptions C24_module_of_other_package.

(** A path that leads nowhere gives None, whether a module or an attribute is missing; other errors
    of the import are reported. *)
Theorem C24_module_missing : forall w first rest p n q top v,
  Forall (fun x => ~ In 46%N x /\ ~ In 47%N x) (first :: rest) ->
  let name := join_with 46%N (first :: rest) in
  (w_import_top w name = Exc EImportError -> loadmodule w (JStr (name ++ 47%N :: name)) = Ret VNone) /\
  (forall e, w_import_top w name = Exc e -> is_ImportError e = false -> loadmodule w (JStr (name ++ 47%N :: name)) = Exc e) /\
  (w_import_top w name = Ret top -> rest = p ++ n :: q -> follows (w_getattr w) top p v -> w_getattr w v n = Exc EAttributeError ->
   loadmodule w (JStr (name ++ 47%N :: name)) = Ret VNone).
Proof.
  intros w first rest p n q top v F name.
  assert (Nd : Forall (fun x => ~ In 46%N x) (first :: rest)) by (eapply Forall_impl; [|exact F]; intros ? [? ?]; assumption).
  assert (Ns : ~ In 47%N name).
  { unfold name. clear - F. induction F as [|x l [_ Hx] F IH]; cbn [join_with]; [intros []|].
    destruct l as [|y l]; auto. intros I. apply in_app_or in I. destruct I as [I|[I|I]]; [tauto|discriminate|tauto]. }
  cbn [loadmodule]. change SLASH with 47%N. rewrite split_on_app_sep, split_on_clean by auto. repeat split.
  - intros ->. reflexivity.
  - intros e -> ->. reflexivity.
  - intros -> E HF G. unfold name at 1. change DOT with 46%N. rewrite split_join by (auto; discriminate).
    destruct (negb (seqb first name) && negb (prefixb (first ++ [46%N]) name)); [reflexivity|].
    rewrite E. clear - HF G. induction HF as [|a x r b c H HF IH]; cbn [mod_attrs app].
    + rewrite G. reflexivity.
    + rewrite H. apply IH. exact G.
Qed.
Print Assumptions C24_module_missing.
(** A name of which no split denotes anything resolves to None. *)
Theorem C24_class_missing : forall w classes s,
  from_classes classes s = None -> s <> u "builtins.NoneType" ->
  (forall i, 1 <= i < length (split_on 46%N s) -> absent w (split_on 46%N s) i) ->
  loadclass w classes (JStr s) = Ret VNone.
Proof.
  intros w classes s Fc Ne A. cbn [loadclass]. unfold loadclass_str. rewrite Fc. change DOT with 46%N.
  assert (G : forall n, n < length (split_on 46%N s) -> load_splits w (split_on 46%N s) n = Ret None).
  { induction n as [|n IH]; intros Ln; [reflexivity|]. cbn [load_splits].
    destruct (try_absent w _ (S n) (A (S n) ltac:(lia))) as (e & -> & ->). apply IH. lia. }
  rewrite G.
  - destruct (seqb s (u "builtins.NoneType")) eqn:E; [apply seqb_eq in E; contradiction|reflexivity].
  - destruct (split_on 46%N s) eqn:E; [|cbn [length]; lia]. exfalso. exact (split_on_nonnil _ _ E).
Qed.
Print Assumptions C24_class_missing.

(** C23: the classes argument of decode; later registrations win. *)
Theorem C23_later_registration_wins : forall w arg n,
  sget n (register_classes w arg []) = last_binding n (bindings w arg).
Proof. exact register_classes_last. Qed.
Print Assumptions C23_later_registration_wins.

(** C23: a supplied class is used for its name; [wi] is any other import system. *)
Theorem C23_supplied_class_used : forall w wi arg n v,
  last_binding n (bindings w arg) = Some v ->
  loadclass wi (register_classes w arg []) (JStr n) = Ret v.
Proof. exact classes_win. Qed.
Print Assumptions C23_supplied_class_used.

(** A world with pkg.mod.Outer.Inner (class 0) and Outer (class 1). *)
Definition nested_cls (n : nat) : cinfo :=
  match n with
  | 0 => with_names (u "pkg.mod") (u "Outer.Inner") (cbase "Inner")
  | _ => with_names (u "pkg.mod") (u "Outer") (cbase "Outer")
  end.
Definition nested_world : world :=
  {| w_cls := nested_cls; w_fun := sample_fun; w_mod := fun _ => u "pkg.mod"; w_sub := Nat.eqb;
     w_import := fun s => if seqb s (u "pkg.mod") then Ret (VMod 0) else Exc EImportError;
     w_import_top := fun _ => Exc EImportError; w_sysmod := fun _ => None;
     w_getattr := fun v s =>
       match v with
       | VMod 0 => if seqb s (u "Outer") then Ret (VType 1) else Exc EAttributeError
       | VType 1 => if seqb s (u "Inner") then Ret (VType 0) else Exc EAttributeError
       | _ => Exc EAttributeError
       end;
     w_new := fun _ c _ _ => CInst c; w_call := fun _ _ _ => CRaise ETypeError;
     w_blank := fun _ => true; w_ext_callable := fun _ => false;
     w_setstate := fun _ _ _ => None; w_setter := fun _ _ _ _ => None;
     w_eval := fun _ => Exc ERuntimeError;
     w_reg := mkReg [] []; w_hflat := fun _ _ _ _ => FDone None; w_hrest := fun _ _ _ => HDone (HVal VNone);
     w_hctx_flat := fun _ => true; w_hctx_rest := fun _ => true;
     w_clone := 7; w_nonetype := 8 |}.
Example C24_nested_importable : importable nested_world (u "pkg.mod") (u "Outer.Inner") (VType 0).
Proof.
  split.
  - exists (VMod 0). split; [reflexivity|]. eapply fo_cons; [reflexivity|]. eapply fo_cons; [reflexivity|]. constructor.
  - intros i Hi. vm_compute in Hi. assert (i = 3) by lia. subst i. left. left.
    exists EImportError. split; [reflexivity|left; reflexivity].
Qed.
Example C24_nested : loadclass nested_world [] (JStr (u "pkg.mod.Outer.Inner")) = Ret (VType 0).
Proof. vm_compute. reflexivity. Qed.
(** classes=[Node, [Slots, {"m.Node": Dict}]] *)
Example C23_case :
  last_binding (u "m.Node") (bindings W0 (CASeq [CAOne cNode; CASeq [CAOne cSlots; CADict [(inl (u "m.Node"), VType cDict)]]]))
  = Some (VType cDict).
Proof. vm_compute. reflexivity. Qed.
(** Module os.path: importing it gives os. *)
Definition os_world : world :=
  {| w_cls := nested_cls; w_fun := sample_fun; w_mod := fun _ => u "os.path"; w_sub := Nat.eqb;
     w_import := fun _ => Exc EImportError;
     w_import_top := fun s => if seqb s (u "os.path") then Ret (VMod 0) else Exc EImportError; w_sysmod := fun _ => None;
     w_getattr := fun v s => match v with VMod 0 => if seqb s (u "path") then Ret (VMod 1) else Exc EAttributeError | _ => Exc EAttributeError end;
     w_new := fun _ c _ _ => CInst c; w_call := fun _ _ _ => CRaise ETypeError;
     w_blank := fun _ => true; w_ext_callable := fun _ => false;
     w_setstate := fun _ _ _ => None; w_setter := fun _ _ _ _ => None;
     w_eval := fun _ => Exc ERuntimeError;
     w_reg := mkReg [] []; w_hflat := fun _ _ _ _ => FDone None; w_hrest := fun _ _ _ => HDone (HVal VNone);
     w_hctx_flat := fun _ => true; w_hctx_rest := fun _ => true;
     w_clone := 7; w_nonetype := 8 |}.
Example C24_module_case :
  Forall (fun x => ~ In 46%N x /\ ~ In 47%N x) [u "os"; u "path"] /\ join_with 46%N [u "os"; u "path"] = u "os.path" /\
  w_import_top os_world (u "os.path") = Ret (VMod 0) /\ follows (w_getattr os_world) (VMod 0) [u "path"] (VMod 1) /\
  loadmodule os_world (JStr (u "os.path/os.path")) = Ret (VMod 1) /\ loadmodule os_world (JStr (u "os.path/posix.path")) = Ret VNone.
Proof.
  split; [repeat constructor; cbn; intuition discriminate|]. split; [reflexivity|]. split; [reflexivity|].
  split; [eapply fo_cons; [reflexivity|constructor]|]. split; vm_compute; reflexivity.
Qed.
