(** Cases meeting the hypotheses of theorems on the graphs of C01 (all in the graph of C01_case), and of
    C24, C36 (document) and C51. *)
From Verif Require Import PyStr Tags Json JsonText Base Heap Registry LoadClass Pickler Unpickler SpecGraph RTProps Samples PropRoundtrip.
From Verif Require Import SpecRun OptionProofs LoadClassProofs Detect SpecDetect PropLoadClass PropDetect.
Open Scope nat_scope.

Definition at_attr (a : string) : list pos := [PAttr (u a)].
(** The attributes of the root are reached by encoded paths. *)
Lemma from_root a p : kept (w_cls W0 cNode) (u a) = true ->
  (forall x, before W0 K_rt H_rt (VLoc 0) (at_attr a) = Some x -> encoded_path W0 K_rt H_rt x p) -> encoded_path W0 K_rt H_rt (VLoc 0) (PAttr (u a) :: p).
Proof.
  intros K P. cbn [encoded_path]. split; [discriminate|]. split.
  - intros l i [= <-] G. cbn in G. injection G as <-. split; [split; [split; reflexivity|left; reflexivity]|].
    intros _. split; [left; reflexivity|]. intros b [= <-]. exact K.
  - intros x A. apply P. unfold before, at_attr. cbn [at_path]. rewrite A. reflexivity.
Qed.
Ltac root := apply from_root; [reflexivity|intros; exact Logic.I].
Ltac inst_case := split; [root|split; [reflexivity|split; [reflexivity|split; [split; [split; reflexivity|left; reflexivity]|]]]].

(** A defaultdict with a class as factory. *)
Example C32_case : exists l i, encoded_path W0 K_rt H_rt (VLoc 0) (at_attr "dd") /\ before W0 K_rt H_rt (VLoc 0) (at_attr "dd") = Some (VLoc l) /\
  hget H_rt l = Some (OInst i) /\ SpecGraph.ordinary W0 K_rt l i /\ c_kind (w_cls W0 (i_cls i)) = KDict /\ c_deffac (w_cls W0 (i_cls i)) = true /\
  no_state W0 K_rt H_rt (w_cls W0 (i_cls i)) l /\ i_fac i = Some (VType cNode) /\ i_items i = [(VStr (u "k"), VLoc 2)].
Proof. eexists. eexists. inst_case. repeat split. left; reflexivity. Qed.
(** A dict subclass and a list subclass with contents and attributes. *)
Example C34_case : exists l i m j, encoded_path W0 K_rt H_rt (VLoc 0) (at_attr "d") /\ before W0 K_rt H_rt (VLoc 0) (at_attr "d") = Some (VLoc l) /\
  hget H_rt l = Some (OInst i) /\ SpecGraph.ordinary W0 K_rt l i /\
  encoded_path W0 K_rt H_rt (VLoc 0) (at_attr "l") /\ before W0 K_rt H_rt (VLoc 0) (at_attr "l") = Some (VLoc m) /\
  hget H_rt m = Some (OInst j) /\ SpecGraph.ordinary W0 K_rt m j /\
  c_kind (w_cls W0 (i_cls i)) = KDict /\ i_items i <> [] /\ inst_attr H_rt i (u "attr") = Some (VLoc 0) /\
  c_kind (w_cls W0 (i_cls j)) = KList /\ i_elems j <> [] /\ inst_attr H_rt j (u "name") = Some (VStr (u "n")) /\
  no_state W0 K_rt H_rt (w_cls W0 (i_cls i)) l /\ no_state W0 K_rt H_rt (w_cls W0 (i_cls j)) m /\
  c_exclude (w_cls W0 (i_cls i)) = [] /\ c_exclude (w_cls W0 (i_cls j)) = [].
Proof. do 4 eexists. inst_case. inst_case. repeat split; try discriminate; left; reflexivity. Qed.
(** Slots, one of a mangled name. *)
Example C35_case : exists l i, encoded_path W0 K_rt H_rt (VLoc 0) (at_attr "s") /\ before W0 K_rt H_rt (VLoc 0) (at_attr "s") = Some (VLoc l) /\
  hget H_rt l = Some (OInst i) /\ SpecGraph.ordinary W0 K_rt l i /\ no_state W0 K_rt H_rt (w_cls W0 (i_cls i)) l /\
  sget (u "_Slots__p") (i_slots i) = Some (VLoc 2) /\ kept (w_cls W0 (i_cls i)) (u "_Slots__p") = true.
Proof. do 2 eexists. inst_case. repeat split. left; reflexivity. Qed.
(** An excluded and another attribute. *)
Example C36_case : exists l i, encoded_path W0 K_rt H_rt (VLoc 0) (at_attr "e") /\ before W0 K_rt H_rt (VLoc 0) (at_attr "e") = Some (VLoc l) /\
  hget H_rt l = Some (OInst i) /\ SpecGraph.ordinary W0 K_rt l i /\ no_state W0 K_rt H_rt (w_cls W0 (i_cls i)) l /\ c_kind (w_cls W0 (i_cls i)) <> KDict /\
  In (u "secret") (c_exclude (w_cls W0 (i_cls i))) /\ inst_attr H_rt i (u "secret") = Some (VInt 1) /\
  ~ In (u "pub") (c_exclude (w_cls W0 (i_cls i))) /\ inst_attr H_rt i (u "pub") = Some (VLoc 8).
Proof.
  do 2 eexists. inst_case. split; [left; reflexivity|]. split; [discriminate|]. split; [left; reflexivity|]. split; [reflexivity|].
  split; [|reflexivity]. intros [E|[]]. discriminate E.
Qed.
(** C41, C43, C44: a set and a bytearray; a class, a function and a module in a list. *)
Example C43_case :
  encoded_path W0 K_rt H_rt (VLoc 0) [PAttr (u "t"); PIdx 1] /\ before W0 K_rt H_rt (VLoc 0) [PAttr (u "t"); PIdx 1] = Some (VLoc 3) /\
  hget H_rt 3 = Some (OSet [VInt 1; VTuple [VInt 2; VStr (u "x")]]) /\
  encoded_path W0 K_rt H_rt (VLoc 0) (at_attr "ba") /\ before W0 K_rt H_rt (VLoc 0) (at_attr "ba") = Some (VLoc 16) /\
  hget H_rt 16 = Some (OByteArray [Ascii.zero]).
Proof.
  split.
  - apply (from_root "t" [PIdx 1]); [reflexivity|]. intros x [= <-]. cbn [encoded_path]. repeat split; try discriminate. 
  - split; [reflexivity|]. split; [reflexivity|]. split; [root|]. split; reflexivity.
Qed.
Example C44_case : forall n x, (n, x) = (7, VType cNode) \/ (n, x) = (8, VFun 0) \/ (n, x) = (9, VMod 0) ->
  encoded_path W0 K_rt H_rt (VLoc 0) [PAttr (u "items"); PIdx n] /\ before W0 K_rt H_rt (VLoc 0) [PAttr (u "items"); PIdx n] = Some x.
Proof.
  intros n x E. split.
  - apply (from_root "items" [PIdx n]); [reflexivity|]. intros y [= <-]. cbn [encoded_path]. split; [discriminate|]. split; [intros l i [= <-] G; discriminate G|]. intros; exact Logic.I.
  - destruct E as [[= -> ->]|[[= -> ->]|[= -> ->]]]; reflexivity.
Qed.

(** A class that is nowhere: the module exists, the attribute does not; and a module that cannot be imported. *)
Example C24_missing_case :
  from_classes [] (u "pkg.mod.Gone.Inner") = None /\ u "pkg.mod.Gone.Inner" <> u "builtins.NoneType" /\
  (forall i, 1 <= i < length (split_on 46%N (u "pkg.mod.Gone.Inner")) -> LoadClassProofs.absent nested_world (split_on 46%N (u "pkg.mod.Gone.Inner")) i) /\
  w_import_top nested_world (u "no.such") = Exc EImportError /\
  w_import_top os_world (u "os.path") = Ret (VMod 0) /\ w_getattr os_world (VMod 1) (u "path") = Exc EAttributeError.
Proof.
  split; [reflexivity|]. split; [discriminate|]. split; [|repeat split].
  intros i Hi. vm_compute in Hi. assert (E : i = 1 \/ i = 2 \/ i = 3) by lia. destruct E as [->|[->| ->]].
  - left. exists EImportError. split; [reflexivity|left; reflexivity].
  - right. exists (VMod 0), [], (u "Gone"), [u "Inner"], (VMod 0). split; [reflexivity|]. split; [reflexivity|]. split; [constructor|reflexivity].
  - left. exists EImportError. split; [reflexivity|left; reflexivity].
Qed.

(** A method stored on the instance itself, next to the one of its class: bound to the object's class, and a plain function. *)
Example C51_own_case :
  finds KL (MRO 9) (u "__getnewargs__") 9 AFunction /\ AFunction <> AOther false /\
  has_method KL MRO (mkIobj 9 [(u "__getnewargs__", IBoundTo 8)] []) (u "__getnewargs__") = true /\
  has_method KL MRO (mkIobj 9 [(u "__getnewargs__", IBoundTo 12)] []) (u "__getnewargs__") = false.
Proof.
  split; [exists [], [8; 0]; split; [reflexivity|split; [reflexivity|intros d []]]|]. split; [discriminate|]. split; reflexivity.
Qed.
(** An instance with an excluded attribute, encoded by itself. *)
Example C36_document_case :
  let h := [ plain_inst cEx 1; ODict [(VStr (u "secret"), VInt 1); (VStr (u "pub"), VInt 2)] ] in
  hget h 0 = Some (plain_inst cEx 1) /\ SpecRun.ordinary W0 cEx /\
  hget h 1 = Some (ODict (named [(u "secret", VInt 1); (u "pub", VInt 2)])) /\
  show (enc W0 K0 PO 20 h (VLoc 0)) = Ret "{""py/object"": ""m.Ex"", ""pub"": 2}"%string.
Proof. cbv zeta. split; [reflexivity|]. split; [constructor; reflexivity|]. split; [reflexivity|]. vm_compute. reflexivity. Qed.
