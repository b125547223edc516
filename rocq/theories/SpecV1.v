(** Documents of version 1.

    In version 1 a dict took no number: the references of a document count lists and instances
    only, and no reference is to a dict.  [old_form K j j1 K']: with the objects numbered so far
    described by K (true: a dict), the document j of the current version has the version 1 form j1;
    K' describes the objects numbered afterwards.  Only the numbers in the references differ. *)
From Verif Require Import PyStr Tags Json JsonText JsonTextProofs Base Heap Registry LoadClass Unpickler SpecGraph SpecPlain SpecHoles SpecLack.
Open Scope nat_scope.

(** Documents of scalars and of tuples of them. *)
Fixpoint value_doc (j : json) : option val :=
  match j with
  | JNull => Some VNone
  | JBool b => Some (VBool b)
  | JInt z => Some (VInt z)
  | JFloat t => if float_ok t then Some (VFloat t) else None
  | JStr s => if str_ok s then Some (VStr s) else None
  | JObj [(a, JList js)] =>
      if seqb a (u "py/tuple")
      then option_map VTuple
             ((fix go js := match js with
                            | [] => Some []
                            | j :: js => match value_doc j, go js with Some v, Some vs => Some (v :: vs) | _, _ => None end
                            end) js)
      else None
  | _ => None
  end.

Section old.
  Variables (w : world) (cl : list (pystr * val)).

  Inductive old_form : list bool -> json -> json -> list bool -> Prop :=
  | of_value K j v : value_doc j = Some v -> old_form K j j K
  | of_type K c : str_ok (importable_name (w_cls w c)) = true -> loadclass w cl (JStr (importable_name (w_cls w c))) = Ret (VType c) ->
      old_form K (JObj [(u "py/type", JStr (importable_name (w_cls w c)))]) (JObj [(u "py/type", JStr (importable_name (w_cls w c)))]) K
  | of_tuple K js js1 K' : old_forms K js js1 K' ->
      old_form K (JObj [(u "py/tuple", JList js)]) (JObj [(u "py/tuple", JList js1)]) K'
  | of_set K js : Forall (fun j => exists v, value_doc j = Some v) js ->
      old_form K (JObj [(u "py/set", JList js)]) (JObj [(u "py/set", JList js)]) K
  | of_ref K i : nth_error K i = Some false ->
      old_form K (JObj [(u "py/id", JInt (Z.of_nat i))])
                 (JObj [(u "py/id", JInt (Z.of_nat (length (filter negb (firstn i K)))))]) K
  | of_list K js js1 K' : old_forms (K ++ [false]) js js1 K' -> old_form K (JList js) (JList js1) K'
  | of_dict K ob ob1 K' : NoDup (map fst ob) -> (forall a, In a (map fst ob) -> name_ok false a = true) ->
      old_fields (K ++ [true]) ob ob1 K' -> old_form K (JObj ob) (JObj ob1) K'
  | of_inst K c ob ob1 K' : str_ok (importable_name (w_cls w c)) = true -> found w w cl c -> NoDup (map fst ob) ->
      (forall a, In a (map fst ob) -> attr_ok false (w_cls w c) a = true /\ slot_named (w_cls w c) a = false) ->
      old_fields (K ++ [false]) ob ob1 K' ->
      old_form K (JObj ((u "py/object", JStr (importable_name (w_cls w c))) :: ob))
                 (JObj ((u "py/object", JStr (importable_name (w_cls w c))) :: ob1)) K'
  with old_forms : list bool -> list json -> list json -> list bool -> Prop :=
  | os_nil K : old_forms K [] [] K
  | os_cons K j j1 K1 js js1 K2 : old_form K j j1 K1 -> old_forms K1 js js1 K2 -> old_forms K (j :: js) (j1 :: js1) K2
  with old_fields : list bool -> jobj -> jobj -> list bool -> Prop :=
  | od_nil K : old_fields K [] [] K
  | od_cons K a j j1 K1 ob ob1 K2 : old_form K j j1 K1 -> old_fields K1 ob ob1 K2 -> old_fields K ((a, j) :: ob) ((a, j1) :: ob1) K2.
End old.
Scheme old_form_mind := Minimality for old_form Sort Prop
  with old_forms_mind := Minimality for old_forms Sort Prop
  with old_fields_mind := Minimality for old_fields Sort Prop.
Combined Scheme old_mutind from old_form_mind, old_forms_mind, old_fields_mind.

(** The options of decode with v1_decode set as given. *)
Definition with_v1 (b : bool) (o : uopts) : uopts :=
  mkUopts (uo_keys o) (uo_safe o) b (uo_missing o) (uo_readonly o) (uo_ctx o).
