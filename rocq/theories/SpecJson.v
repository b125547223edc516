(** Specification: a Python object graph that is exactly the tree of a JSON document.
    [tree h j v ls]: in heap h the value v is the document j; ls lists the containers used, in preorder. *)
From Verif Require Import PyStr Json Base Heap.
Open Scope nat_scope.

Section tree.
  Variable h : heap.
  Inductive tree : json -> val -> list loc -> Prop :=
  | tr_null : tree JNull VNone []
  | tr_bool b : tree (JBool b) (VBool b) []
  | tr_int z : tree (JInt z) (VInt z) []
  | tr_float t : tree (JFloat t) (VFloat t) []
  | tr_str s : tree (JStr s) (VStr s) []
  | tr_list l vs js ls : hget h l = Some (OList vs) -> trees js vs ls -> tree (JList js) (VLoc l) (l :: ls)
  | tr_obj l d ob ls : hget h l = Some (ODict d) -> fields ob d ls -> tree (JObj ob) (VLoc l) (l :: ls)
  with trees : list json -> list val -> list loc -> Prop :=
  | trs_nil : trees [] [] []
  | trs_cons j v ls1 js vs ls2 : tree j v ls1 -> trees js vs ls2 -> trees (j :: js) (v :: vs) (ls1 ++ ls2)
  with fields : list (pystr * json) -> list (val * val) -> list loc -> Prop :=
  | fs_nil : fields [] [] []
  | fs_cons k j v ls1 ob d ls2 : tree j v ls1 -> fields ob d ls2 ->
      fields ((k, j) :: ob) ((VStr k, v) :: d) (ls1 ++ ls2).
End tree.
Scheme tree_mind := Minimality for tree Sort Prop
  with trees_mind := Minimality for trees Sort Prop
  with fields_mind := Minimality for fields Sort Prop.
Combined Scheme tree_mutind from tree_mind, trees_mind, fields_mind.

(** The tags that select a meaning for a JSON object. *)
Definition dispatch_tags : list pystr :=
  map u ["py/tuple"; "py/set"; "py/b64"; "py/b85"; "py/bytea"; "py/id"; "py/iterator"; "py/object"; "py/type";
         "py/reduce"; "py/function"; "py/mod"; "py/repr"]%string.
Definition untagged (ob : jobj) : bool := forallb (fun t => negb (shas t ob)) dispatch_tags.

(** A reference object and the number in it; a bool is an int in Python. *)
Definition ref_field (ob : jobj) : option json :=
  if forallb (fun t => negb (shas t ob)) (firstn 5 dispatch_tags) then sget (u "py/id") ob else None.
Definition index_out (n : nat) (z : Z) : bool := ((Z.of_nat n <=? z) || (z <? - Z.of_nat n))%Z.
(** A reference that cannot mean any of n objects. *)
Definition bad_ref (n : nat) (j : json) : bool :=
  match j with
  | JObj ob => match ref_field ob with
               | Some (JInt z) => index_out n z
               | Some (JBool b) => index_out n (if b then 1 else 0)%Z
               | Some _ => true
               | None => false
               end
  | _ => false
  end.
Fixpoint distinct (l : list pystr) : bool :=
  match l with [] => true | x :: r => negb (smem x r) && distinct r end.
(** Untagged documents in which some values are bad references (not at the top). *)
Fixpoint plain_doc (keys : bool) (n : nat) (j : json) : bool :=
  match j with
  | JList l => forallb (fun x => bad_ref n x || plain_doc keys n x) l
  | JObj ob =>
      untagged ob && distinct (map fst ob) &&
      forallb (fun kv => match kv with (k, x) =>
                 ((negb keys && bad_ref n x) || plain_doc keys n x) && (negb keys || negb (prefixb (u "json://") k))
               end) ob
  | _ => true
  end.
(** Number of objects of the document that references can mean. *)
Fixpoint numbered (v1 : bool) (j : json) : nat :=
  match j with
  | JList l => S (list_sum (map (numbered v1) l))
  | JObj ob => if shas (u "py/id") ob then 0
               else (if v1 then 0 else 1) + list_sum (map (fun kv => match kv with (_, x) => numbered v1 x end) ob)
  | _ => 0
  end.
(** The document with bad references replaced by null. *)
Fixpoint nullify (n : nat) (j : json) : json :=
  match j with
  | JList l => JList (map (fun x => if bad_ref n x then JNull else nullify n x) l)
  | JObj ob => JObj (map (fun kv => match kv with (k, x) => (k, if bad_ref n x then JNull else nullify n x) end) ob)
  | _ => j
  end.
(** No object anywhere has a key that is a tag. *)
Fixpoint tag_free (j : json) : bool :=
  match j with
  | JList l => forallb tag_free l
  | JObj ob => untagged ob && distinct (map fst ob) && forallb (fun kv => match kv with (_, x) => tag_free x end) ob
  | _ => true
  end.
(** No key anywhere starts with json:// *)
Fixpoint no_json_keys (j : json) : bool :=
  match j with
  | JList l => forallb no_json_keys l
  | JObj ob => forallb (fun kv => match kv with (k, x) => negb (prefixb (u "json://") k) && no_json_keys x end) ob
  | _ => true
  end.
