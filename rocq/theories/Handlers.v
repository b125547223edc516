(** The handlers that jsonpickle installs for standard library types (handlers.py:182-330).

    The insides of such an object are not attributes that the pickler reads but values that
    the handler asks the object for; [builtin] lists them.  A restored object is recorded by
    what its constructor was given. *)
From Verif Require Import PyStr Tags Json JsonText Base Heap Registry LoadClass B64.
Open Scope nat_scope.

(** What the handlers ask their objects for. *)
Inductive builtin : Type :=
| BUuid (n : N)                                    (* uuid.UUID: .int, below 2^128 *)
| BDatetime (c : nat) (payload : bytes) (tz : option val)  (* obj.__reduce__() = (c, (payload,)) or (c, (payload, tz)) *)
| BArray (typecode : pystr) (values : loc)         (* array.array: .typecode, .tolist() *)
| BRegex (pattern : pystr) (flags : Z)             (* re.Pattern with a str pattern *)
| BRegexBytes (pattern : bytes) (flags : Z)        (* re.Pattern with a bytes pattern *)
| BQueue                                           (* queue.Queue; the contents are not asked for *)
| BLock (locked : bool)                            (* threading.Lock: .locked() *)
| BText.                                           (* io.TextIOWrapper *)
Inductive bkind : Type := HUuid | HDatetime | HArray | HRegex | HQueue | HLock | HText.
Definition kind_of (b : builtin) : bkind :=
  match b with
  | BUuid _ => HUuid | BDatetime _ _ _ => HDatetime | BArray _ _ => HArray
  | BRegex _ _ | BRegexBytes _ _ => HRegex | BQueue => HQueue | BLock _ => HLock | BText => HText
  end.

(** Hexadecimal, as in ['%032x' % n] (uuid.UUID.hex) and [int(s, 16)].  [int] also takes
    signs, underscores, blanks, a [0x] prefix and other digits, which are errors here. *)
Definition hexdigit (d : N) : N := (if d <? 10 then 48 + d else 87 + d)%N.
Fixpoint hexn (k : nat) (n : N) : pystr :=
  match k with
  | O => []
  | S k' => hexn k' (n / 16)%N ++ [hexdigit (n mod 16)%N]
  end.
Definition unhexdigit (c : N) : option N :=
  (if (48 <=? c) && (c <=? 57) then Some (c - 48)
   else if (97 <=? c) && (c <=? 102) then Some (c - 87)
   else if (65 <=? c) && (c <=? 70) then Some (c - 55) else None)%N.
Fixpoint unhex (acc : N) (s : pystr) : option N :=
  match s with
  | [] => Some acc
  | c :: r => match unhexdigit c with Some d => unhex (16 * acc + d)%N r | None => None end
  end.
(** [s.replace(sub, '')] *)
Fixpoint srem (sub : pystr) (skip : nat) (s : pystr) : pystr :=
  match s, skip with
  | [], _ => []
  | _ :: r, S k => srem sub k r
  | c :: r, O => if prefixb sub s then srem sub (length sub - 1) r else c :: srem sub 0 r
  end.
(** [s.strip('{}')] *)
Definition brace (c : N) : bool := (c =? 123)%N || (c =? 125)%N.
Fixpoint lstrip (s : pystr) : pystr := match s with c :: r => if brace c then lstrip r else s | [] => [] end.
Definition strip (s : pystr) : pystr := rev (lstrip (rev (lstrip s))).
(** uuid.UUID(hex) of the standard library *)
Definition uuid_of (s : pystr) : option N :=
  let s := srem (u "-") 0 (strip (srem (u "uuid:") 0 (srem (u "urn:") 0 s))) in
  if length s =? 32 then unhex 0 s else None.

(** flatten() *)
Definition bflat (unpicklable : bool) (isoformat : builtin -> pystr) (b : builtin) (data : jobj) : fscript :=
  match b with
  | BArray tc vs =>                                  (* handlers.py:185-188 *)
      FFlatten false (VLoc vs) (fun j => FDone (Some (JObj (sset (u "values") j (sset (u "typecode") (JStr tc) data)))))
  | BDatetime c payload tz =>                        (* handlers.py:210-222 *)
      if unpicklable then
        let done docs := FFlatten false (VType c) (fun jc =>
          FDone (Some (JObj (sset (u "__reduce__") (JList [jc; JList (JStr (b64encode payload) :: docs)]) data)))) in
        match tz with
        | Some v => FFlatten false v (fun j => done [j])
        | None => done []
        end
      else FDone (Some (JStr (isoformat b)))
  | BRegex p f => FDone (Some (JObj (sset (u "flags") (JInt f) (sset (u "pattern") (JStr p) data))))  (* 243-246 *)
  | BRegexBytes _ _ => FRaise ETypeError             (* 243-246: data holds bytes, which the JSON encoder refuses later *)
  | BQueue => FDone (Some (JObj data))               (* 263-264 *)
  | BUuid n => FDone (Some (JObj (sset (u "hex") (JStr (hexn 32 n)) data)))   (* 290-292 *)
  | BLock l => FDone (Some (JObj (sset (u "locked") (JBool l) data)))  (* 304-306 *)
  | BText => FDone None                              (* 322-323 *)
  end.

(** restore(); [c] is the class that the handler makes. *)
Fixpoint restore_all (js : list json) (acc : list val) (k : list val -> hscript) : hscript :=
  match js with
  | [] => k (rev acc)
  | j :: r => HRestore j (fun v => restore_all r (v :: acc) k)
  end.
Definition brest (kd : bkind) (c : nat) (data : jobj) : hscript :=
  match kd with
  | HArray =>                                        (* handlers.py:190-195 *)
      match sget (u "typecode") data, sget (u "values") data with
      | Some (JStr tc), Some j =>
          if seqb tc (u "c") then HRaise EUnmodelled (* no such typecode in Python 3 *)
          else HRestore j (fun v => HDone (HInst c [VStr tc; v]))
      | Some _, Some j => HRestore j (fun _ => HRaise ETypeError)
      | _, _ => HRaise EKeyError
      end
  | HDatetime =>                                     (* handlers.py:224-231 *)
      match sget (u "__reduce__") data with
      | Some (JList [jc; JList (JStr payload :: docs)]) =>
          HRestore jc (fun cv => restore_all docs [] (fun params =>
            match cv with
            | VType c' => HDone (HInst c' (VBytes (b64decode payload) :: params))
            | _ => HRaise EAttributeError
            end))
      | Some _ => HRaise ETypeError
      | None => HRaise EKeyError
      end
  | HRegex =>                                        (* handlers.py:248-249 *)
      match sget (u "pattern") data with
      | Some (JStr p) =>
          match sget (u "flags") data with
          | Some (JInt f) => HDone (HInst c [VStr p; VInt f])
          | None => HDone (HInst c [VStr p; VInt 0])
          | Some _ => HRaise ETypeError
          end
      | Some _ => HRaise ETypeError
      | None => HRaise EKeyError
      end
  | HQueue => HDone (HInst c [])                     (* handlers.py:266-267 *)
  | HUuid =>                                         (* handlers.py:294-295 *)
      match sget (u "hex") data with
      | Some (JStr s) => match uuid_of s with Some n => HDone (HInst c [VInt (Z.of_N n)]) | None => HRaise EValueError end
      | Some _ => HRaise EAttributeError
      | None => HRaise EKeyError
      end
  | HLock =>                                         (* handlers.py:308-312 *)
      HDone (HInst c [VBool (match sget (u "locked") data with Some j => jtruthy j | None => false end)])
  | HText => HRaise ERuntimeError                    (* handlers.py:325-327 (AssertionError) *)
  end.

(** Handler number [hd] of the world is the one for [kd], making class [c]; [bv] are the
    insides of the objects. *)
Definition installed (w : world) (bv : loc -> builtin) (iso : builtin -> pystr) (kd : bkind) (c hd : nat) : Prop :=
  let name := importable_name (w_cls w c) in
  reg_lookup (w_sub w) (w_reg w) c name = Some hd /\
  (forall ctx l data, kind_of (bv l) = kd -> w_hflat w hd ctx l data = bflat true iso (bv l) data) /\
  (forall ctx data, w_hrest w hd ctx data = brest kd c data).
