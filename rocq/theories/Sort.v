(** Backends that sort keys: json.dumps with sort_keys=True (backend.py:103 and 259-281,
    set_encoder_options), and encode with such a backend. *)
From Verif Require Import PyStr Json JsonText Base Heap Pickler.
From Coq Require Import List. Import ListNotations.
Local Open Scope monad_scope.

(** What the json module writes with sort_keys=True: for each object [sorted(dct.items())].
    Keys are distinct, so the values are not compared. *)
(** json.dumps(sort_keys=True): sorted(dct.items()) *)
Fixpoint einsert (kv : pystr * json) (l : jobj) : jobj :=
  match l with
  | [] => [kv]
  | kv' :: r => if str_leb (fst kv) (fst kv') then kv :: l else kv' :: einsert kv r
  end.
Definition sort_entries (l : jobj) : jobj := fold_right einsert [] l.
Fixpoint jsort (j : json) : json :=
  match j with
  | JList l => JList (map jsort l)
  | JObj ob => JObj (sort_entries (map (fun kv => match kv with (a, x) => (a, jsort x) end) ob))
  | _ => j
  end.

(** pickler.py:21-178 with backend.py:213-227: [encode] where the backend sorts.  With keys=True the
    texts inside keys are sorted, too; that is not modelled, [encode_sorted] is used with keys=False. *)
Definition encode_sorted (w : world) (k : hooks) (o : popts) (n : nat) (v : val) : MP pystr :=
  j <- pickle w k o n true v ;; ret (dumps (jsort j)).
