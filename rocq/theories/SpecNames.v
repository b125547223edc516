(** What a document names: modules, classes and expressions. *)
From Verif Require Import PyStr Tags Json Base Heap LoadClass Unpickler RestoreProofs.
Open Scope nat_scope.

(** An object of the document: of the text itself, or of a text inside a key written with keys=True. *)
Definition object_in (j : json) (ob : jobj) : Prop := j = JObj ob \/ part (JObj ob) j.
(** The tags whose value is a dotted name to look up. *)
Definition dotted_tag (t : pystr) : Prop := t = u "py/object" \/ t = u "py/type" \/ t = u "py/function".
(** [s] is looked up somewhere in the document; [s] is a module in the form name/name. *)
Definition dotted_in (j : json) (s : pystr) : Prop := exists ob t, object_in j ob /\ dotted_tag t /\ In (t, JStr s) ob.
Definition value_in (t : pystr) (j x : json) : Prop := exists ob, object_in j ob /\ In (t, x) ob.
(** The part of a dotted name before one of its dots; the part before the only slash. *)
Definition before_dot (s p : pystr) : Prop := exists r, s = p ++ DOT :: r.
Definition before_slash (s m : pystr) : Prop := exists r, s = m ++ SLASH :: r /\ ~ In SLASH m /\ ~ In SLASH r.

(** The same classes, functions and handlers with another import system and another [eval]. *)
Definition with_imports (w : world) (imp top : pystr -> res val) (ev : pystr -> res val) : world :=
  {| w_cls := w_cls w; w_fun := w_fun w; w_mod := w_mod w; w_sub := w_sub w; w_import := imp;
     w_import_top := top; w_sysmod := w_sysmod w; w_getattr := w_getattr w; w_new := w_new w; w_call := w_call w;
     w_blank := w_blank w; w_ext_callable := w_ext_callable w; w_setstate := w_setstate w; w_setter := w_setter w;
     w_eval := ev; w_reg := w_reg w; w_hflat := w_hflat w; w_hrest := w_hrest w;
     w_hctx_flat := w_hctx_flat w; w_hctx_rest := w_hctx_rest w;
     w_clone := w_clone w; w_nonetype := w_nonetype w |}.
(** They agree on what the document names. *)
Definition agree_on (j : json) (safe : bool) (w : world) (imp top ev : pystr -> res val) : Prop :=
  (forall s p, dotted_in j s -> before_dot s p ->
     imp (translate_module_name p) = w_import w (translate_module_name p)) /\
  (forall s m, value_in (u "py/mod") j (JStr s) \/ (safe = true /\ value_in (u "py/repr") j (JStr s)) ->
     before_slash s m -> top m = w_import_top w m) /\
  (forall s, safe = false -> value_in (u "py/repr") j (JStr s) -> ev s = w_eval w s).

(** What an entry of the log says about the document. *)
Definition told_by (j : json) (safe : bool) (e : event) : Prop :=
  match e with
  | EvLoad s | EvImport s => dotted_in j s
  | EvWarn s | EvMissing s => value_in (u "py/object") j (JStr s)
  | EvModule x => value_in (u "py/mod") j x \/ (safe = true /\ value_in (u "py/repr") j x)
  | EvEval s => safe = false /\ value_in (u "py/repr") j (JStr s)
  | _ => True
  end.

(** A document without such tags. *)
Definition names_nothing (j : json) : Prop :=
  forall ob t x, object_in j ob -> In (t, x) ob ->
  ~ In t [u "py/object"; u "py/type"; u "py/function"; u "py/mod"; u "py/repr"].
