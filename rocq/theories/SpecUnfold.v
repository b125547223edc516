(** Specification: documents without references.

    [spelled tagged h v j]: j is the document of the value v of heap h in which every object is written
    in full wherever it occurs.  With tagged=true in the wire format (make_refs=False), otherwise
    as bare JSON (unpicklable=False).  There is no such document for a graph with a cycle. *)
From Verif Require Import PyStr Tags Json JsonText Base Heap Registry SpecPlain SpecHoles.
From Coq Require Import List. Import ListNotations.
Open Scope nat_scope.

Section unfold.
  Variables (w : world) (tagged : bool) (h : heap).
  Definition tag (t : string) (j : json) : json := if tagged then JObj [(u t, j)] else j.
  Inductive spelled : val -> json -> Prop :=
  | sp_none : spelled VNone JNull
  | sp_bool b : spelled (VBool b) (JBool b)
  | sp_int z : spelled (VInt z) (JInt z)
  | sp_float t : spelled (VFloat t) (JFloat t)
  | sp_str s : spelled (VStr s) (JStr s)
  | sp_type c : spelled (VType c) (JObj [(u "py/type", JStr (importable_name (w_cls w c)))])
  | sp_tuple vs js : spelleds vs js -> spelled (VTuple vs) (tag "py/tuple" (JList js))
  | sp_set l vs js : hget h l = Some (OSet vs) -> spelleds vs js -> spelled (VLoc l) (tag "py/set" (JList js))
  | sp_list l vs js : hget h l = Some (OList vs) -> spelleds vs js -> spelled (VLoc l) (JList js)
  | sp_dict l d ob : hget h l = Some (ODict d) -> spelled_fields d ob -> spelled (VLoc l) (JObj ob)
  | sp_inst l i dl d ob : hget h l = Some (OInst i) -> plain_class w (i_cls i) ->
      i_dict i = Some dl -> hget h dl = Some (ODict d) -> spelled_fields d ob ->
      spelled (VLoc l) (JObj (if tagged then (u "py/object", JStr (importable_name (w_cls w (i_cls i)))) :: ob else ob))
  with spelleds : list val -> list json -> Prop :=
  | sps_nil : spelleds [] []
  | sps_cons v j vs js : spelled v j -> spelleds vs js -> spelleds (v :: vs) (j :: js)
  with spelled_fields : list (val * val) -> jobj -> Prop :=
  | spf_nil : spelled_fields [] []
  | spf_cons a v j d ob : smem a wire_names = false -> ~ In a (map fst ob) ->
      (forall f, v <> VFun f) -> (forall l i, v = VLoc l -> hget h l = Some (OInst i) -> c_isfun (w_cls w (i_cls i)) = false) ->
      spelled v j -> spelled_fields d ob -> spelled_fields ((VStr a, v) :: d) ((a, j) :: ob).
End unfold.
Scheme spelled_mind := Minimality for spelled Sort Prop
  with spelleds_mind := Minimality for spelleds Sort Prop
  with spelled_fields_mind := Minimality for spelled_fields Sort Prop.
Combined Scheme spelled_mutind from spelled_mind, spelleds_mind, spelled_fields_mind.

(** What a value consists of, one level. *)
Inductive holds (h : heap) : val -> val -> Prop :=
| hd_tuple vs v : In v vs -> holds h (VTuple vs) v
| hd_list l vs v : hget h l = Some (OList vs) -> In v vs -> holds h (VLoc l) v
| hd_set l vs v : hget h l = Some (OSet vs) -> In v vs -> holds h (VLoc l) v
| hd_dict l d q v : hget h l = Some (ODict d) -> In (q, v) d -> holds h (VLoc l) v
| hd_inst l i dl d q v : hget h l = Some (OInst i) -> i_dict i = Some dl -> hget h dl = Some (ODict d) ->
    In (q, v) d -> holds h (VLoc l) v.
(** No object is inside itself. *)
Definition acyclic (h : heap) (ok : val -> Prop) : Prop :=
  exists rank : val -> nat, forall x y, ok x -> holds h x y -> rank y < rank x.

(** [unfolded h h' v x ls]: the value x of h' has the same data as the value v of h; the lists, dicts and
    instances it is made of are ls, in the order met, one entry for each occurrence. *)
Section data.
  Variables (h h' : heap).
  Inductive unfolded : val -> val -> list loc -> Prop :=
  | uf_none : unfolded VNone VNone []
  | uf_bool b : unfolded (VBool b) (VBool b) []
  | uf_int z : unfolded (VInt z) (VInt z) []
  | uf_float t : unfolded (VFloat t) (VFloat t) []
  | uf_str s : unfolded (VStr s) (VStr s) []
  | uf_type c : unfolded (VType c) (VType c) []
  | uf_tuple vs vs' ls : unfoldeds vs vs' ls -> unfolded (VTuple vs) (VTuple vs') ls
  | uf_set l l' vs vs' ls : hget h l = Some (OSet vs) -> hget h' l' = Some (OSet vs') -> unfoldeds vs vs' ls ->
      unfolded (VLoc l) (VLoc l') ls
  | uf_list l l' vs vs' ls : hget h l = Some (OList vs) -> hget h' l' = Some (OList vs') -> unfoldeds vs vs' ls ->
      unfolded (VLoc l) (VLoc l') (l' :: ls)
  | uf_dict l l' d d' ls : hget h l = Some (ODict d) -> hget h' l' = Some (ODict d') -> unfolded_fields d d' ls ->
      unfolded (VLoc l) (VLoc l') (l' :: ls)
  | uf_inst l l' i i' dl dl' d d' ls : hget h l = Some (OInst i) -> hget h' l' = Some (OInst i') -> i_cls i' = i_cls i ->
      i_dict i = Some dl -> hget h dl = Some (ODict d) -> i_dict i' = Some dl' -> hget h' dl' = Some (ODict d') ->
      unfolded_fields d d' ls -> unfolded (VLoc l) (VLoc l') (l' :: ls)
  with unfoldeds : list val -> list val -> list loc -> Prop :=
  | ufs_nil : unfoldeds [] [] []
  | ufs_cons v v' ls1 vs vs' ls2 : unfolded v v' ls1 -> unfoldeds vs vs' ls2 -> unfoldeds (v :: vs) (v' :: vs') (ls1 ++ ls2)
  with unfolded_fields : list (val * val) -> list (val * val) -> list loc -> Prop :=
  | uff_nil : unfolded_fields [] [] []
  | uff_cons a v v' ls1 d d' ls2 : unfolded v v' ls1 -> unfolded_fields d d' ls2 ->
      unfolded_fields ((VStr a, v) :: d) ((VStr a, v') :: d') (ls1 ++ ls2).
End data.
Scheme unfolded_mind := Minimality for unfolded Sort Prop
  with unfoldeds_mind := Minimality for unfoldeds Sort Prop
  with unfolded_fields_mind := Minimality for unfolded_fields Sort Prop.
Combined Scheme unfolded_mutind from unfolded_mind, unfoldeds_mind, unfolded_fields_mind.
