(** Handlers of the extension modules for single values: ext/numpy.py (dtypes and scalars),
    ext/pandas.py (Series, Timestamp, Period, Interval) and ext/gmpy.py, as scripts of context.flatten and
    context.restore calls.  A dtype stands for its text [str(dtype)].  Of intervals only those with
    number ends are modelled. *)
From Verif Require Import PyStr Tags Json JsonText Base Heap Registry Pickler Unpickler Pandas.
Open Scope nat_scope.

Inductive evalue : Type :=
| XDtype (dtype : pystr)                             (* numpy.dtype *)
| XScalar (dtype : pystr) (value : val)              (* numpy.generic: dtype in native byte order, .tolist() *)
| XSeries (name index values : val)                  (* pandas.Series *)
| XStamp (iso : pystr)                               (* pandas.Timestamp: .isoformat() *)
| XInterval (left right : val) (closed : pystr)      (* pandas.Interval *)
| XMpz (z : Z)                                       (* gmpy2.mpz *)
| XPeriod (start freq : pystr).                      (* pandas.Period: .start_time.isoformat(), .freqstr *)
Inductive ekind : Type := EDtype | EScalar | ESeries | EStamp | EInterval | EMpz | EPeriod.
Definition ekind_of (e : evalue) : ekind :=
  match e with XDtype _ => EDtype | XScalar _ _ => EScalar | XSeries _ _ _ => ESeries | XStamp _ => EStamp | XInterval _ _ _ => EInterval | XMpz _ => EMpz | XPeriod _ _ => EPeriod end.

(** numpy.py:36-44 *)
Definition RECORD : pystr := u "(numpy.record, ".
Definition dtype_text (s : pystr) : pystr := if prefixb RECORD s then removelast (skipn (length RECORD) s) else s.
(** What json.dumps makes of a Python object that was put into the document as it is. *)
Fixpoint raw_json (v : val) : option json :=
  match v with
  | VTuple vs =>
      match (fix go l := match l with
                         | [] => Some []
                         | x :: r => match raw_json x, go r with Some j, Some js => Some (j :: js) | _, _ => None end
                         end) vs with
      | Some js => Some (JList js)
      | None => None
      end
  | _ => prim_json v
  end.
Definition raw_val (j : json) : option val :=
  match j with JNull => Some VNone | JBool b => Some (VBool b) | JInt z => Some (VInt z) | JFloat t => Some (VFloat t) | JStr s => Some (VStr s) | _ => None end.

(** encode() of a Timestamp, whose class is named [sn] (pandas.py:402-406 inside pickler.py:167-178) *)
Definition stamp_text (p : processor) (sn iso : pystr) : res pystr :=
  match flatten_pandas p [] [(OBJECT, JStr sn)] (JObj [(u "isoformat", JStr iso)]) with
  | Ret d => Ret (dumps (JObj d))
  | Exc x => Exc x
  | OOF => OOF
  end.
(** flatten(); [p] is the processor of the pandas handlers, [sn] the name of the Timestamp class *)
Definition eflat (p : processor) (sn : pystr) (e : evalue) (data : jobj) : fscript :=
  let by_pandas meta :=
    match flatten_pandas p [] data (JObj meta) with
    | Ret d => FDone (Some (JObj d))
    | Exc x => FRaise x
    | OOF => FRaise EUnmodelled
    end in
  match e with
  | XDtype t => FDone (Some (JObj (sset (u "dtype") (JStr (dtype_text t)) data)))        (* numpy.py:54-56 *)
  | XScalar t v =>                                                                      (* numpy.py:63-71 *)
      FFlatten false v (fun j => FDone (Some (JObj (sset (u "value") j (sset (u "dtype") (JStr (dtype_text t)) data)))))
  | XSeries n i vs =>                                                                   (* pandas.py:346-352 *)
      match raw_json n with
      | Some jn =>
          FFlatten false i (fun ji => FFlatten false vs (fun jv =>
            FDone (Some (JObj (sset (u "values") jv (sset (u "index") ji (sset (u "name") jn data)))))))
      | None => FRaise ETypeError                    (* the JSON encoder refuses the name later *)
      end
  | XStamp iso => by_pandas [(u "isoformat", JStr iso)]                                 (* pandas.py:402-406 *)
  | XInterval l r c =>                                                                  (* pandas.py:438-446 *)
      match prim_json l, prim_json r with
      | Some jl, Some jr => by_pandas [(u "left", JStr (dumps jl)); (u "right", JStr (dumps jr)); (u "closed", JStr c)]
      | _, _ => FRaise EUnmodelled
      end
  | XMpz z => FDone (Some (JObj (sset (u "int") (JInt z) data)))                        (* gmpy.py:14-16 *)
  | XPeriod iso fq =>                                                                   (* pandas.py:418-425 *)
      match stamp_text p sn iso with
      | Ret t => by_pandas [(u "start_time", JStr t); (u "freqstr", JStr fq)]
      | Exc x => FRaise x
      | OOF => FRaise EUnmodelled
      end
  end.

(** restore(); [c] is the class that the handler makes *)
Definition of_meta (p : processor) (data : jobj) (k : jobj -> hscript) : hscript :=
  match restore_pandas p data with
  | Ret (_, JObj meta) => k meta
  | Ret _ => HRaise ETypeError
  | Exc x => HRaise x
  | OOF => HRaise EUnmodelled
  end.
(** decode() of the text of a number *)
(** pandas.py:450-451 *)
Definition number (j : json) : option val :=
  match j with JStr s => match loads s with Some x => raw_val x | None => None end | _ => None end.
(** decode() of the text of a Timestamp: its isoformat (pandas.py:408-412) *)
Definition stamp_of (p : processor) (sn : pystr) (j : json) : res pystr :=
  match j with
  | JStr s =>
      match loads s with
      | Some (JObj d) =>
          match sget OBJECT d with
          | Some (JStr n) =>
              if seqb n sn then
                match restore_pandas p d with
                | Ret (_, JObj meta) => match sget (u "isoformat") meta with Some (JStr iso) => Ret iso | Some _ => Exc EUnmodelled | None => Exc EKeyError end
                | Ret _ => Exc ETypeError
                | Exc x => Exc x
                | OOF => OOF
                end
              else Exc EUnmodelled
          | _ => Exc EUnmodelled
          end
      | _ => Exc EUnmodelled
      end
  | _ => Exc EUnmodelled
  end.
Definition erest (p : processor) (sn : pystr) (kd : ekind) (c : nat) (data : jobj) : hscript :=
  match kd with
  | EDtype =>                                        (* numpy.py:46-50, 58-59 *)
      match sget (u "dtype") data with
      | Some (JStr t) => HDone (HInst c [VStr t])
      | Some _ => HRaise EAttributeError
      | None => HRaise EKeyError
      end
  | EScalar =>                                       (* numpy.py:73-79 *)
      match sget (u "value") data with
      | Some j => HRestore j (fun v =>
          match sget (u "dtype") data with
          | Some (JStr t) => HDone (HInst c [VStr t; v])
          | Some _ => HRaise EAttributeError
          | None => HRaise EKeyError
          end)
      | None => HRaise EKeyError
      end
  | ESeries =>                                       (* pandas.py:354-359 *)
      match sget (u "name") data, sget (u "index") data with
      | Some jn, Some ji =>
          HRestore ji (fun i =>
            match sget (u "values") data with
            | Some jv => HRestore jv (fun vs =>
                match raw_val jn with
                | Some n => HDone (HInst c [n; i; vs])
                | None => HRaise ETypeError          (* Series.name must be a hashable type *)
                end)
            | None => HRaise EKeyError
            end)
      | _, _ => HRaise EKeyError
      end
  | EStamp =>                                        (* pandas.py:408-412 *)
      of_meta p data (fun meta =>
        match sget (u "isoformat") meta with
        | Some (JStr s) => HDone (HInst c [VStr s])
        | Some _ => HRaise EUnmodelled
        | None => HRaise EKeyError
        end)
  | EInterval =>                                     (* pandas.py:448-454 *)
      of_meta p data (fun meta =>
        match sget (u "left") meta, sget (u "right") meta, sget (u "closed") meta with
        | Some jl, Some jr, Some (JStr cl) =>
            match number jl, number jr with
            | Some l, Some r => HDone (HInst c [l; r; VStr cl])
            | _, _ => HRaise EUnmodelled
            end
        | Some _, Some _, Some _ => HRaise EUnmodelled
        | _, _, _ => HRaise EKeyError
        end)
  | EMpz =>                                          (* gmpy.py:18-19 *)
      match sget (u "int") data with
      | Some (JInt z) => HDone (HInst c [VInt z])
      | Some _ => HRaise EUnmodelled
      | None => HRaise EKeyError
      end
  | EPeriod =>                                       (* pandas.py:427-432 *)
      of_meta p data (fun meta =>
        match sget (u "start_time") meta with
        | Some jt =>
            match stamp_of p sn jt, sget (u "freqstr") meta with
            | Ret iso, Some (JStr fq) => HDone (HInst c [VStr iso; VStr fq])
            | Ret _, Some _ => HRaise EUnmodelled
            | Ret _, None => HRaise EKeyError
            | Exc x, _ => HRaise x
            | OOF, _ => HRaise EUnmodelled
            end
        | None => HRaise EKeyError
        end)
  end.

(** Handler number [hd] of the world is the one for [kd], making class [c]; [ev] are the insides of
    the objects, [sn] is the name of the Timestamp class. *)
Definition einstalled (w : world) (p : processor) (sn : pystr) (ev : loc -> evalue) (kd : ekind) (c hd : nat) : Prop :=
  let name := importable_name (w_cls w c) in
  reg_lookup (w_sub w) (w_reg w) c name = Some hd /\
  (forall ctx l data, ekind_of (ev l) = kd -> w_hflat w hd ctx l data = eflat p sn (ev l) data) /\
  (forall ctx data, w_hrest w hd ctx data = erest p sn kd c data).
