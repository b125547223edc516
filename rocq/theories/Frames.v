(** jsonpickle/ext/pandas.py:151-316 PandasDfHandler and 362-397 the index handlers.

    A data frame is its columns (label, dtype name, values), its index and the names of both
    axes.  Labels and cells are of any type; what pandas and the nested calls of encode and
    decode do with them are parameters.  pandas' own checks (lengths of columns and index) are
    not modelled, nor is the decoding of documents written before 3.4 ([restore_v3_3]). *)
From Verif Require Import PyStr Json Base Pandas.
Open Scope nat_scope.

Section frames.
  Context {L C : Type}.
  Variable leqb : L -> L -> bool.                    (* == on labels *)
  Variable is_complex : C -> bool.                   (* isinstance(x, (list, dict, set, tuple, np.ndarray)) *)
  Variable encode_item : C -> C.                     (* encode(x), a str *)
  Variable decode_item : C -> res C.                 (* decode(item) *)
  Variable encode_data : list (L * list C) -> pystr. (* encode(data_columns, keys=True) *)
  Variable decode_data : pystr -> res (list (L * list C)).
  Variable encode_labels : list L -> pystr.          (* encode(columns, keys=True) *)
  Variable decode_labels : pystr -> res (list L).
  Variable encode_index : list C -> pystr.           (* encode(index_values, keys=True) *)
  Variable decode_index : pystr -> res (list C).
  Variable build : list C -> pystr * list C.         (* a column of pd.DataFrame(df_data): its dtype and values *)
  Variable astype : pystr -> pystr * list C -> res (pystr * list C).   (* pandas_dtype and astype *)
  Variables tags names : list (pystr * pystr).       (* TYPE_MAP, REVERSE_TYPE_MAP *)

  (** a pandas column and frame, as far as pandas.py:154-317 looks at them *)
  Record column : Type := mkCol { col_label : L; col_dtype : pystr; col_values : list C }.
  Record frame : Type := mkFrame {
    fr_cols : list column;
    fr_colnames : json;                              (* columns.name, or the list columns.names *)
    fr_multicols : bool;                             (* columns is a MultiIndex *)
    fr_index : list C;
    fr_idxnames : json;
    fr_multiidx : bool }.

  (** Python dict operations *)
  Fixpoint lget {V} (l : L) (m : list (L * V)) : option V :=
    match m with [] => None | (x, v) :: r => if leqb l x then Some v else lget l r end.
  Fixpoint lset {V} (l : L) (v : V) (m : list (L * V)) : list (L * V) :=
    match m with [] => [(l, v)] | (x, y) :: r => if leqb l x then (x, v) :: r else (x, y) :: lset l v r end.
  Definition OBJECT_ : pystr := u "object".
  Definition JP : pystr := u "py/jp".

  (** pandas.py:181-202.  [obj[col]] is a DataFrame if two columns have the label; it has no
      [dtype]. *)
  Fixpoint flatten_columns (all cols : list column) (data : list (L * list C)) (codes : list pystr)
    : res (list (L * list C) * list pystr) :=
    match cols with
    | [] => Ret (data, codes)
    | c :: r =>
        if 1 <? length (filter (fun c' => leqb (col_label c) (col_label c')) all) then Exc EAttributeError else
        let code := match sget (col_dtype c) tags with Some t => t | None => OBJECT_ end in
        if seqb (col_dtype c) OBJECT_ && existsb is_complex (col_values c) then
          flatten_columns all r (lset (col_label c) (map encode_item (col_values c)) data) (codes ++ [JP])
        else flatten_columns all r (lset (col_label c) (col_values c) data) (codes ++ [code])
    end.
  (** The metadata as the JSON text has it: the runs are pairs, written as lists. *)
  Definition runs_json (l : list (pystr * nat)) : json :=
    JList (map (fun tn => JList [JStr (fst tn); JInt (Z.of_nat (snd tn))]) l).
  (** pandas.py:154-224 *)
  Definition flatten_frame (p : processor) (f : frame) (data : jobj) : res jobj :=
    match flatten_columns (fr_cols f) (fr_cols f) [] [] with
    | Ret (data_columns, codes) =>
        let meta := JObj [(u "dtypes_rle", runs_json (rle_encode seqb codes));
                          (u "index", JStr (encode_index (fr_index f)));
                          (u "index_names", fr_idxnames f);
                          (u "columns", JStr (encode_labels (map col_label (fr_cols f))));
                          (u "column_names", fr_colnames f);
                          (u "is_multiindex", JBool (fr_multiidx f));
                          (u "is_multicolumns", JBool (fr_multicols f))] in
        flatten_pandas p (encode_data data_columns) data meta
    | Exc e => Exc e
    | OOF => OOF
    end.

  (** pandas.py:58-65 *)
  Fixpoint read_runs (l : list json) : res (list (pystr * nat)) :=
    match l with
    | [] => Ret []
    | JList [JStr t; JInt z] :: r => match read_runs r with Ret m => Ret ((t, Z.to_nat z) :: m) | x => x end
    | _ => Exc EUnmodelled                           (* other shapes: not written by flatten *)
    end.
  Fixpoint decode_items (l : list C) : res (list C) :=
    match l with
    | [] => Ret []
    | c :: r => match decode_item c with
                | Ret v => match decode_items r with Ret m => Ret (v :: m) | x => x end
                | Exc e => Exc e
                | OOF => OOF
                end
    end.
  (** pandas.py:265-279 *)
  Fixpoint restore_columns (cols : list (L * pystr)) (data_columns : list (L * list C))
      (df_data : list (L * list C)) (dtypes : list (L * pystr)) : res (list (L * list C) * list (L * pystr)) :=
    match cols with
    | [] => Ret (df_data, dtypes)
    | (col, code) :: r =>
        match lget col data_columns with
        | None => Exc EKeyError
        | Some col_data =>
            if seqb code JP then
              match decode_items col_data with
              | Ret vs => restore_columns r data_columns (lset col vs df_data) dtypes
              | Exc e => Exc e
              | OOF => OOF
              end
            else restore_columns r data_columns (lset col col_data df_data)
                   (lset col (match sget code names with Some d => d | None => OBJECT_ end) dtypes)
        end
    end.
  (** pandas.py:285-297, one column *)
  Definition typed (dtypes : list (L * pystr)) (lv : L * list C) : column :=
    let d := match lget (fst lv) dtypes with Some d => d | None => OBJECT_ end in
    let c := match astype d (build (snd lv)) with Ret c => c | _ => build (snd lv) end in
    mkCol (fst lv) (fst c) (snd c).
  Definition jget (k : pystr) (m : json) : res json :=
    match m with
    | JObj o => match sget k o with Some v => Ret v | None => Exc EKeyError end
    | _ => Exc ETypeError
    end.
  Definition jget_or (k : pystr) (d m : json) : json := match jget k m with Ret v => v | _ => d end.
  (** pandas.py:226-317 *)
  Definition restore_frame (p : processor) (ob : jobj) : res frame :=
    match restore_pandas p ob with
    | Exc e => Exc e
    | OOF => OOF
    | Ret (buf, meta) =>
        match buf with
        | BStr text =>
            match decode_data text with
            | Ret data_columns =>
                match jget (u "dtypes_rle") meta with
                | Ret (JList l) =>
                    match read_runs l, jget (u "columns") meta, jget (u "index") meta with
                    | Ret runs, Ret (JStr ctext), Ret (JStr itext) =>
                        match decode_labels ctext with
                        | Ret columns =>
                            match restore_columns (combine columns (rle_decode runs)) data_columns [] [] with
                            | Ret (df_data, dtypes) =>
                                (* df.columns = columns: Length mismatch *)
                                if negb (length df_data =? length columns) then Exc EValueError else
                                match decode_index itext with
                                | Ret index =>
                                    Ret (mkFrame (map (typed dtypes) df_data)
                                           (jget_or (u "column_names") JNull meta)
                                           (jtruthy (jget_or (u "is_multicolumns") (JBool false) meta))
                                           index (jget_or (u "index_names") JNull meta)
                                           (jtruthy (jget_or (u "is_multiindex") (JBool false) meta)))
                                | Exc e => Exc e
                                | OOF => OOF
                                end
                            | Exc e => Exc e
                            | OOF => OOF
                            end
                        | Exc e => Exc e
                        | OOF => OOF
                        end
                    | Exc e, _, _ => Exc e
                    | _, Exc e, _ => Exc e
                    | _, _, Exc e => Exc e
                    | OOF, _, _ => OOF
                    | _, _, _ => Exc EUnmodelled
                    end
                | _ => Exc EUnmodelled               (* restore_v3_3 *)
                end
            | _ => Exc EUnmodelled                   (* restore_v3_3 *)
            end
        | _ => Exc EUnmodelled
        end
    end.
End frames.

(** ** Indexes *)
(** Names of an index: None, a string, a number, a tuple. *)
(** pandas.py:362-396: obj.name, name bundling *)
Inductive iname : Type := NNone | NStr (s : pystr) | NInt (z : Z) | NTup (l : list iname).
Fixpoint name_json (n : iname) : json :=
  match n with
  | NNone => JNull
  | NStr s => JStr s
  | NInt z => JInt z
  | NTup l => JList (map name_json l)
  end.
(** What the JSON value is in Python; a list has no counterpart among the names. *)
Definition json_name (j : json) : option iname :=
  match j with
  | JNull => Some NNone
  | JStr s => Some (NStr s)
  | JInt z => Some (NInt z)
  | _ => None
  end.
Section indexes.
  Context {C : Type}.
  Variable encode_list : list C -> pystr.
  Variable decode_list : pystr -> res (list C).
  (** An index, and what the constructor is called with. *)
  Record index : Type := mkIndex { ix_values : list C; ix_dtype : pystr; ix_name : iname }.
  (** pandas.py:366-374.  [multi]: the names of a MultiIndex (393-397), here as one tuple. *)
  Definition flatten_index (p : processor) (multi : bool) (i : index) (data : jobj) : res jobj :=
    let meta := JObj [(u "dtype", JStr (ix_dtype i)); (if multi then u "names" else u "name", name_json (ix_name i))] in
    flatten_pandas p (encode_list (ix_values i)) data meta.
  (** [tuple(v)] *)
  Fixpoint all_names (l : list json) : res (list iname) :=
    match l with
    | [] => Ret []
    | j :: r => match json_name j, all_names r with
                | Some n, Ret m => Ret (n :: m)
                | None, _ => Exc ETypeError          (* a list within a name: unhashable *)
                | _, x => x
                end
    end.
  Definition tuple_of (j : json) : res iname :=
    match j with
    | JStr s => Ret (NTup (map (fun c => NStr [c]) s))
    | JList l => match all_names l with Ret m => Ret (NTup m) | Exc e => Exc e | OOF => OOF end
    | JObj o => Ret (NTup (map (fun kv => NStr (fst kv)) o))
    | _ => Exc ETypeError
    end.
  (** pandas.py:376-385; without a name in meta the constructor gets none. *)
  Definition restore_index (p : processor) (ob : jobj) : res index :=
    match restore_pandas p ob with
    | Exc e => Exc e
    | OOF => OOF
    | Ret (buf, meta) =>
        match buf, jget (u "dtype") meta with
        | BStr text, Ret (JStr dtype) =>
            let v := match jget (u "names") meta with Ret v => v | _ => jget_or (u "name") JNull meta end in
            match match v with JNull => Ret NNone | _ => tuple_of v end with
            | Ret name => match decode_list text with Ret vs => Ret (mkIndex vs dtype name) | Exc e => Exc e | OOF => OOF end
            | Exc e => Exc e
            | OOF => OOF
            end
        | _, _ => Exc EUnmodelled
        end
    end.
End indexes.
