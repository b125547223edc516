(** [json.dumps] with the layout options that reach it from jsonpickle: [indent] and [separators] of
    [encode] (pickler.py:36-37, 176-178, handed on by backend.py:22-50 and 213-226) and
    [ensure_ascii] given to [set_encoder_options] (backend.py:252-277).  CPython's json.encoder
    (py_encode_basestring and _make_iterencode). *)
From Verif Require Import PyStr Json JsonText Base Heap Registry Pickler.
Open Scope N_scope.
Local Open Scope monad_scope.

(** [w_indent] is the string for one level ([' ' * indent] for a number), [None] for one line. *)
Record layout : Type := mkLayout { w_ascii : bool; w_indent : option pystr; w_item : pystr; w_key : pystr }.
(** The defaults: [(', ', ': ')], and [(',', ': ')] when an indent is given. *)
(** the options of json.dumps set at backend.py:22-45, 213-227 (indent, separators) and set_encoder_options *)
Definition layout_of (indent : option pystr) (seps : option (pystr * pystr)) (ascii : bool) : layout :=
  match seps with
  | Some (i, k) => mkLayout ascii indent i k
  | None => mkLayout ascii indent (match indent with None => [44; 32] | Some _ => [44] end) [58; 32]
  end.

(** ensure_ascii=False: only the quote, the backslash and control characters are escaped. *)
(** json.encoder.py_encode_basestring (Python library) *)
Definition esc_raw (c : N) : pystr :=
  if c =? 34 then [92; 34]
  else if c =? 92 then [92; 92]
  else if c =? 10 then [92; 110]
  else if c =? 13 then [92; 114]
  else if c =? 9 then [92; 116]
  else if c =? 8 then [92; 98]
  else if c =? 12 then [92; 102]
  else if c <? 32 then esc_u c
  else [c].
(** json.encoder._make_iterencode (Python library) *)
Definition write_body (ascii : bool) (s : pystr) : pystr := if ascii then dump_body s else flat_map esc_raw s.
Definition write_str (y : layout) (s : pystr) : pystr := 34 :: write_body (w_ascii y) s ++ [34].

(** a line feed and the indentation, or nothing *)
(** json.encoder: newline_indent *)
Fixpoint times (n : nat) (s : pystr) : pystr := match n with O => [] | S n => s ++ times n s end.
Definition newline (y : layout) (lvl : nat) : pystr :=
  match w_indent y with None => [] | Some i => 10 :: times lvl i end.

Fixpoint write (y : layout) (lvl : nat) (j : json) : pystr :=
  match j with
  | JNull => u "null"
  | JBool true => u "true"
  | JBool false => u "false"
  | JInt z => string_of_Z z
  | JFloat t => t
  | JStr s => write_str y s
  | JList [] => u "[]"
  | JList l =>
      91 :: newline y (S lvl) ++ intersperse (w_item y ++ newline y (S lvl)) (map (write y (S lvl)) l) ++ newline y lvl ++ [93]
  | JObj [] => u "{}"
  | JObj o =>
      123 :: newline y (S lvl) ++
      intersperse (w_item y ++ newline y (S lvl))
        (map (fun kv => match kv with (k, v) => write_str y k ++ w_key y ++ write y (S lvl) v end) o) ++ newline y lvl ++ [125]
  end.
(** pickler.py:176-178 *)
Definition encode_with (y : layout) (w : world) (k : hooks) (o : popts) (n : nat) (v : val) : MP pystr :=
  j <- pickle w k o n true v ;; ret (write y 0 j).
