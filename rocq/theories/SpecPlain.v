(** Specification: plain data, which encode writes as the JSON document it is. *)
From Verif Require Import PyStr Json Base Heap SpecJson.
Open Scope nat_scope.

(** The names that the encoder keeps for itself (tags.py:35-57). *)
Definition wire_names : list pystr :=
  map u ["py/bytes"; "py/bytea"; "py/function"; "py/id"; "py/initargs"; "py/iterator"; "py/mod"; "py/newargs"; "py/newargsex";
         "py/newobj"; "py/object"; "py/property"; "py/reduce"; "py/default_factory"; "py/ref"; "py/repr"; "py/seq"; "py/set";
         "py/state"; "py/tuple"; "py/type"]%string.
(** Keys that stand for themselves: distinct, no name of the wire format and, with keys=True, no json:// prefix. *)
Fixpoint plain_keys (keys : bool) (j : json) : bool :=
  match j with
  | JList l => forallb (plain_keys keys) l
  | JObj ob =>
      distinct (map fst ob) &&
      forallb (fun kv => match kv with (k, x) =>
                 negb (smem k wire_names) && (negb keys || negb (prefixb (u "json://") k)) && plain_keys keys x
               end) ob
  | _ => true
  end.
