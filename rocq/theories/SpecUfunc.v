(** C79: what ufuncs come back as.  The encoder and the decoder do not occur. *)
From Verif Require Import PyStr Base Heap LoadClassProofs.
From Coq Require Import List. Import ListNotations.
Open Scope nat_scope.

(** An object of class c. *)
Definition ufunc_at (h : heap) (c : nat) (l : loc) : Prop := exists i, hget h l = Some (OInst i) /\ i_cls i = c.
(** Nothing is found under the name. *)
Definition nowhere (w : world) (module qualname : pystr) : Prop :=
  let name := translate_module_name module ++ DOT :: qualname in
  name <> u "builtins.NoneType" /\ forall i, 0 < i < length (split_on DOT name) -> absent w (split_on DOT name) i.
(** What the ufunc at [l], called [f], comes back as: itself if it is found under its name, None if
    nothing is. *)
Inductive comes_back (w : world) (f : finfo) (l : loc) : val -> Prop :=
| cb_found : importable w (f_module f) (f_qualname f) (VLoc l) -> comes_back w f l (VLoc l)
| cb_lost : nowhere w (f_module f) (f_qualname f) -> comes_back w f l VNone.

