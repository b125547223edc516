(** Concrete worlds and object graphs used by the examples and counterexamples. *)
From Verif Require Import PyStr Tags Json JsonText B64 B85 Base Heap Registry LoadClass Pickler Unpickler.
Open Scope nat_scope.

Definition cbase (name : string) : cinfo :=
  {| c_name := u name; c_qualname := u name; c_module := u "m"; c_types_name := None;
     c_kind := KPlain; c_dict := true; c_slots := None; c_exclude := []; c_enum := false;
     c_isfun := false; c_getstate := false; c_setstate := false; c_newargs := false;
     c_newargs_ex := false; c_initargs := false; c_reduce := false; c_fields := None;
     c_deffac := false; c_hash := true; c_callable := false; c_intstr := false;
     c_setattr := fun _ => SAOk |}.
Definition with_kind (kd : kind) (d : bool) (sl : option (list pystr)) (hs : bool) (c : cinfo) : cinfo :=
  {| c_name := c_name c; c_qualname := c_qualname c; c_module := c_module c; c_types_name := c_types_name c;
     c_kind := kd; c_dict := d; c_slots := sl; c_exclude := c_exclude c; c_enum := c_enum c;
     c_isfun := c_isfun c; c_getstate := c_getstate c; c_setstate := c_setstate c; c_newargs := c_newargs c;
     c_newargs_ex := c_newargs_ex c; c_initargs := c_initargs c; c_reduce := c_reduce c; c_fields := c_fields c;
     c_deffac := c_deffac c; c_hash := hs; c_callable := c_callable c; c_intstr := c_intstr c;
     c_setattr := c_setattr c |}.
Definition with_exclude (ex : list pystr) (c : cinfo) : cinfo :=
  {| c_name := c_name c; c_qualname := c_qualname c; c_module := c_module c; c_types_name := c_types_name c;
     c_kind := c_kind c; c_dict := c_dict c; c_slots := c_slots c; c_exclude := ex; c_enum := c_enum c;
     c_isfun := c_isfun c; c_getstate := c_getstate c; c_setstate := c_setstate c; c_newargs := c_newargs c;
     c_newargs_ex := c_newargs_ex c; c_initargs := c_initargs c; c_reduce := c_reduce c; c_fields := c_fields c;
     c_deffac := c_deffac c; c_hash := c_hash c; c_callable := c_callable c; c_intstr := c_intstr c;
     c_setattr := c_setattr c |}.
Definition with_protocol (gs ss na nax ia rd cl : bool) (c : cinfo) : cinfo :=
  {| c_name := c_name c; c_qualname := c_qualname c; c_module := c_module c; c_types_name := c_types_name c;
     c_kind := c_kind c; c_dict := c_dict c; c_slots := c_slots c; c_exclude := c_exclude c; c_enum := c_enum c;
     c_isfun := c_isfun c; c_getstate := gs; c_setstate := ss; c_newargs := na;
     c_newargs_ex := nax; c_initargs := ia; c_reduce := rd; c_fields := c_fields c;
     c_deffac := c_deffac c; c_hash := c_hash c; c_callable := cl; c_intstr := c_intstr c;
     c_setattr := c_setattr c |}.
Definition with_fields (fs : option nat) (df : bool) (c : cinfo) : cinfo :=
  {| c_name := c_name c; c_qualname := c_qualname c; c_module := c_module c; c_types_name := c_types_name c;
     c_kind := c_kind c; c_dict := c_dict c; c_slots := c_slots c; c_exclude := c_exclude c; c_enum := c_enum c;
     c_isfun := c_isfun c; c_getstate := c_getstate c; c_setstate := c_setstate c; c_newargs := c_newargs c;
     c_newargs_ex := c_newargs_ex c; c_initargs := c_initargs c; c_reduce := c_reduce c; c_fields := fs;
     c_deffac := df; c_hash := c_hash c; c_callable := c_callable c; c_intstr := c_intstr c;
     c_setattr := c_setattr c |}.

Definition with_names (module qualname : pystr) (c : cinfo) : cinfo :=
  {| c_name := c_name c; c_qualname := qualname; c_module := module; c_types_name := c_types_name c;
     c_kind := c_kind c; c_dict := c_dict c; c_slots := c_slots c; c_exclude := c_exclude c; c_enum := c_enum c;
     c_isfun := c_isfun c; c_getstate := c_getstate c; c_setstate := c_setstate c; c_newargs := c_newargs c;
     c_newargs_ex := c_newargs_ex c; c_initargs := c_initargs c; c_reduce := c_reduce c; c_fields := c_fields c;
     c_deffac := c_deffac c; c_hash := c_hash c; c_callable := c_callable c; c_intstr := c_intstr c;
     c_setattr := c_setattr c |}.

(** The sample class table: module [m]. *)
Definition cNode := 0.     Definition cOther := 1.    Definition cDict := 2.  Definition cList := 3.
Definition cSet := 4.      Definition cSlots := 5.    Definition cEx := 6.    Definition cState := 7.
Definition cReduce := 8.   Definition cIter := 9.     Definition cDD := 10.   Definition cNT := 11.
Definition cNewargs := 12. Definition cFactory := 13. Definition cClone := 14. Definition cNone := 15.
Definition cIO := 16.      Definition cHandled := 17. Definition cPlainNoState := 18. Definition cFun := 19.
Definition cRedList := 20. Definition cRedDict := 21. Definition cNewEx := 22.
Definition cPair := 23.
Definition sample_classes : list cinfo :=
  [ cbase "Node"; cbase "Other";
    with_kind KDict true None false (cbase "MyDict");
    with_kind KList true None false (cbase "MyList");
    with_kind KSet true None false (cbase "MySet");
    with_kind KPlain false (Some [u "a"; u "b"; u "__p"]) true (cbase "Slots");
    with_exclude [u "secret"] (cbase "Ex");
    with_protocol true true false false false false false (cbase "State");
    with_protocol false false false false false true false (cbase "Red");
    with_kind KIter false None true (cbase "Iter");
    with_fields None true (with_kind KDict false None false (cbase "DD"));
    with_fields (Some 2) false (with_protocol false false true false false false false
                                  (with_kind KTuple false (Some []) true (cbase "Point")));
    with_protocol false false true false false false false (cbase "NewArgs");
    with_protocol false false false false false false true (cbase "Factory");
    cbase "CloneFactory"; cbase "NoneType"; cbase "TextIO"; cbase "Handled";
    with_protocol true false false false false false false (cbase "OnlyGet");
    with_protocol false false false false false false true (cbase "method");
    with_protocol false false false false false true false (with_kind KList true None false (cbase "RedList"));
    with_protocol false false false false false true false (with_kind KDict true None false (cbase "RedDict"));
    with_protocol false false false true false false false (cbase "NewArgsEx");
    with_protocol true false false false false false false (with_kind KPlain true (Some [u "a"; u "b"]) true (cbase "Pair")) ].
Definition sample_cls (n : nat) : cinfo := nth n sample_classes (cbase "Missing").

Definition sample_funs : list finfo :=
  [ {| f_name := u "f"; f_qualname := u "f"; f_module := u "m"; f_modfun := true |};
    {| f_name := u "<lambda>"; f_qualname := u "<lambda>"; f_module := u "m"; f_modfun := false |};
    {| f_name := u "__newobj__"; f_qualname := u "__newobj__"; f_module := u "copyreg"; f_modfun := true |} ].
Definition sample_fun (n : nat) : finfo :=
  nth n sample_funs {| f_name := u "g"; f_qualname := u "g"; f_module := u "m"; f_modfun := true |}.

Fixpoint find_class (s : pystr) (l : list cinfo) (n : nat) : res val :=
  match l with
  | [] => Exc EAttributeError
  | c :: r => if seqb (c_qualname c) s then Ret (VType n) else find_class s r (S n)
  end.
Definition sample_getattr (m : val) (s : pystr) : res val :=
  match m with
  | VMod 0 => if seqb s (u "f") then Ret (VFun 0) else find_class s sample_classes 0
  | _ => Exc EAttributeError
  end.

Definition sample_world (reg : registry)
    (hf : nat -> option val -> loc -> jobj -> fscript) (hr : nat -> option val -> jobj -> hscript) : world :=
  {| w_cls := sample_cls; w_fun := sample_fun; w_mod := fun _ => u "m";
     w_sub := Nat.eqb;
     w_import := fun s => if seqb s (u "m") then Ret (VMod 0) else Exc EImportError;
     w_import_top := fun s => if seqb s (u "m") then Ret (VMod 0) else Exc EImportError;
     w_sysmod := fun s => if seqb s (u "m") then Some (VMod 0) else None;
     w_getattr := sample_getattr;
     w_new := fun _ c _ _ => CInst c;
     w_call := fun _ f _ => match f with VType c => CInst c | VFun _ => CInst cNode | _ => CRaise ETypeError end;
     w_blank := fun _ => true; w_ext_callable := fun _ => false;
     w_setstate := fun _ _ _ => None; w_setter := fun _ _ _ _ => None;
     w_eval := fun _ => Exc ERuntimeError;
     w_reg := reg; w_hflat := hf; w_hrest := hr;
     w_hctx_flat := fun _ => true; w_hctx_rest := fun _ => true;
     w_clone := cClone; w_nonetype := cNone |}.
Definition W0 : world := sample_world (mkReg [] []) (fun _ _ _ _ => FDone None) (fun _ _ _ => HDone (HVal VNone)).

Definition K0 : hooks :=
  {| k_reduce := fun _ => Ret RNone; k_getstate := fun _ => Ret VNone; k_newargs := fun _ => Ret (VTuple []);
     k_newargs_ex := fun _ => Ret []; k_initargs := fun _ => Ret (VTuple []);
     k_iter := fun _ _ => Ret None; k_attr := fun _ _ => Exc EAttributeError; k_dir := fun _ => [];
     k_props := fun _ => []; k_eqdict := fun _ => false; k_members := fun _ => [];
     k_repr := fun _ => Ret (u "<object>"); k_str := fun _ => Ret (u "<object>"); k_call0 := fun _ => Ret VNone |}.

(** Default options of encode and decode. *)
Definition PO : popts :=
  {| po_unpicklable := true; po_make_refs := true; po_keys := false; po_max_depth := None;
     po_warn := false; po_max_iter := None; po_b85 := false; po_fail_safe := None; po_props := false;
     po_readonly := false; po_root := VNone; po_sort := false; po_ctx := None; po_numeric := false |}.
Definition PO_keys : popts :=
  {| po_unpicklable := true; po_make_refs := true; po_keys := true; po_max_depth := None;
     po_warn := false; po_max_iter := None; po_b85 := false; po_fail_safe := None; po_props := false;
     po_readonly := false; po_root := VNone; po_sort := false; po_ctx := None; po_numeric := false |}.
Definition UO : uopts := mkUopts false true false MIgnore false None.
Definition UO_keys : uopts := mkUopts true true false MIgnore false None.

Definition plain_inst (c : nat) (d : loc) : obj := OInst (mkInst c (Some d) [] [] [] None CSrc [] 0).

(** Text produced by encode, and decode of it. *)
Definition enc (w : world) (k : hooks) (o : popts) (n : nat) (h : heap) (v : val) : res pystr :=
  fst (encode w k o n v (new_pickler h)).
Definition dec (w : world) (o : uopts) (n : nat) (t : pystr) : res val * ust :=
  decode w o n None t (new_unpickler []).

(** To read texts in tests. *)
Definition asc (s : pystr) : string :=
  fold_right (fun c r => String (ascii_of_N c) r) EmptyString s.
Definition show (r : res pystr) : res string := match r with Ret s => Ret (asc s) | Exc e => Exc e | OOF => OOF end.

(** x = Node(); x.next = x; x.items = [x, (1, 2)] *)
Definition H_cycle : heap :=
  [ plain_inst cNode 1;
    ODict [(VStr (u "next"), VLoc 0); (VStr (u "items"), VLoc 2)];
    OList [VLoc 0; VTuple [VInt 1; VInt 2]; VLoc 2; VBytes [Ascii.zero]; VType cNode] ].
Example sample_encode :
  show (enc W0 K0 PO 20 H_cycle (VLoc 0)) =
  Ret "{""py/object"": ""m.Node"", ""next"": {""py/id"": 0}, ""items"": [{""py/id"": 0}, {""py/tuple"": [1, 2]}, {""py/id"": 1}, {""py/b64"": ""AA==""}, {""py/type"": ""m.Node""}]}"%string.
Proof. vm_compute. reflexivity. Qed.
