(** Columns of data frames that version 3.3 has written
    (/repo/jsonpickle/ext/pandas.py:113-148, 319-335; the index and the names of column levels, 336-340, are not
    modelled, nor the empty frame, 326-330).  pandas itself is given by what it makes of one column: [read_csv] by the
    way in which it is told to read the column, [to_timedelta] and [astype]. *)
From Verif Require Import PyStr Json Base.
From Coq Require Import List. Import ListNotations.

(** How [read_csv] is told to read a column: nothing said, with a dtype, as dates, by the converter [complex]. *)
Inductive way : Type := Unsaid | Given (d : pystr) | Dates | Complex.
(** pandas.py:137-145: the arguments of [read_csv] *)
Record params : Type := mkParams { p_dtype : list (pystr * pystr); p_dates : list pystr; p_converters : list pystr }.
Record sorted_out : Type :=
  mkSorted { so_params : params; so_timedeltas : list pystr; so_datetimes : list (pystr * pystr) }.
(** pandas.py:126-135: one entry of [meta["dtypes"]] *)
Definition sort_column (s : sorted_out) (kv : pystr * pystr) : sorted_out :=
  let '(k, v) := kv in
  let '(mkSorted (mkParams dt da co) td dv) := s in
  if prefixb (u "datetime") v then mkSorted (mkParams dt (da ++ [k]) co) td (sset k v dv)
  else if prefixb (u "complex") v then mkSorted (mkParams dt da (co ++ [k])) td dv
  else if prefixb (u "timedelta") v then mkSorted (mkParams (sset k (u "object") dt) da co) (td ++ [k]) dv
  else mkSorted (mkParams (sset k v dt) da co) td dv.
(** pandas.py:113-148 *)
Definition make_read_csv_params (dtypes : list (pystr * pystr)) : sorted_out :=
  fold_left sort_column dtypes (mkSorted (mkParams [] [] []) [] []).

Section frames.
  Variables (cells column : Type).
  Variables (read : way -> cells -> column) (to_timedelta : column -> column) (astype : pystr -> column -> column).
  (** What [read_csv] does with one column: dates before converters before dtypes. *)
  Definition way_of (p : params) (k : pystr) : way :=
    if smem k (p_dates p) then Dates
    else if smem k (p_converters p) then Complex
    else match sget k (p_dtype p) with Some d => Given d | None => Unsaid end.
  Definition read_csv (p : params) (csv : list (pystr * cells)) : list (pystr * column) :=
    map (fun kc => (fst kc, read (way_of p (fst kc)) (snd kc))) csv.
  (** [df[k] = f(df[k])], KeyError if there is no such column *)
  Definition update (k : pystr) (f : column -> column) (df : list (pystr * column)) : res (list (pystr * column)) :=
    match sget k df with Some c => Ret (sset k (f c) df) | None => Exc EKeyError end.
  Fixpoint updates (l : list (pystr * (column -> column))) (df : list (pystr * column)) : res (list (pystr * column)) :=
    match l with
    | [] => Ret df
    | (k, f) :: r => match update k f df with Ret df' => updates r df' | Exc e => Exc e | OOF => OOF end
    end.
  (** pandas.py:319-335 *)
  Definition restore_v3_3 (dtypes : list (pystr * pystr)) (csv : list (pystr * cells)) : res (list (pystr * column)) :=
    let s := make_read_csv_params dtypes in
    match updates (map (fun k => (k, to_timedelta)) (so_timedeltas s)) (read_csv (so_params s) csv) with
    | Ret df => updates (map (fun kd => (fst kd, astype (snd kd))) (so_datetimes s)) df
    | r => r
    end.
End frames.
