(** The JSON text layer: CPython's [json.dumps] with default options (ensure_ascii, ", "
    and ": " separators) and [json.loads] (default options), which is what
    backend.py:138-200 calls with the default backend.  Simplification: float lexemes
    are kept as they are; no digit or recursion limits. *)
From Verif Require Import PyStr Json.
From Coq Require Import ZifyBool ZifyN ZifyNat DecimalZ DecimalN DecimalPos Decimal.
Open Scope N_scope.

(** ** Decimal integers *)
Fixpoint uint_chars (d : Decimal.uint) : pystr :=
  match d with
  | Decimal.Nil => []
  | Decimal.D0 r => 48 :: uint_chars r
  | Decimal.D1 r => 49 :: uint_chars r
  | Decimal.D2 r => 50 :: uint_chars r
  | Decimal.D3 r => 51 :: uint_chars r
  | Decimal.D4 r => 52 :: uint_chars r
  | Decimal.D5 r => 53 :: uint_chars r
  | Decimal.D6 r => 54 :: uint_chars r
  | Decimal.D7 r => 55 :: uint_chars r
  | Decimal.D8 r => 56 :: uint_chars r
  | Decimal.D9 r => 57 :: uint_chars r
  end.
Definition is_digit (c : N) : bool := (48 <=? c) && (c <=? 57).
Fixpoint chars_uint (s : pystr) : Decimal.uint :=
  match s with
  | [] => Decimal.Nil
  | c :: r =>
      let d := chars_uint r in
      if c =? 48 then Decimal.D0 d else if c =? 49 then Decimal.D1 d
      else if c =? 50 then Decimal.D2 d else if c =? 51 then Decimal.D3 d
      else if c =? 52 then Decimal.D4 d else if c =? 53 then Decimal.D5 d
      else if c =? 54 then Decimal.D6 d else if c =? 55 then Decimal.D7 d
      else if c =? 56 then Decimal.D8 d else Decimal.D9 d
  end.
(** [str(z)] *)
Definition string_of_Z (z : Z) : pystr :=
  match Z.to_int z with
  | Decimal.Pos d => uint_chars d
  | Decimal.Neg d => 45 :: uint_chars d
  end.

(** ** Strings *)
Definition hexdigit (n : N) : N := if n <? 10 then 48 + n else 87 + n.
Definition hex4 (n : N) : pystr :=
  [hexdigit (n / 4096 mod 16); hexdigit (n / 256 mod 16); hexdigit (n / 16 mod 16); hexdigit (n mod 16)].
Definition esc_u (n : N) : pystr := 92 :: 117 :: hex4 n.
Definition esc_char (c : N) : pystr :=
  if c =? 34 then [92; 34]
  else if c =? 92 then [92; 92]
  else if c =? 10 then [92; 110]
  else if c =? 13 then [92; 114]
  else if c =? 9 then [92; 116]
  else if c =? 8 then [92; 98]
  else if c =? 12 then [92; 102]
  else if (32 <=? c) && (c <=? 126) then [c]
  else if c <? 65536 then esc_u c
  else let v := c - 65536 in esc_u (55296 + v / 1024 mod 1024) ++ esc_u (56320 + v mod 1024).
Definition dump_body (s : pystr) : pystr := flat_map esc_char s.
Definition dump_str (s : pystr) : pystr := 34 :: dump_body s ++ [34].

(** ** dumps *)
Fixpoint intersperse (sep : pystr) (l : list pystr) : pystr :=
  match l with
  | [] => []
  | [x] => x
  | x :: r => x ++ sep ++ intersperse sep r
  end.
Definition COMMA : pystr := [44; 32].
Fixpoint dumps (j : json) : pystr :=
  match j with
  | JNull => u "null"
  | JBool true => u "true"
  | JBool false => u "false"
  | JInt z => string_of_Z z
  | JFloat t => t
  | JStr s => dump_str s
  | JList l => 91 :: intersperse COMMA (map dumps l) ++ [93]
  | JObj o =>
      123 :: intersperse COMMA (map (fun kv => match kv with (k, v) => dump_str k ++ 58 :: 32 :: dumps v end) o) ++ [125]
  end.

(** ** loads *)
Definition is_ws (c : N) : bool := (c =? 32) || (c =? 9) || (c =? 10) || (c =? 13).
Fixpoint skip_ws (s : pystr) : pystr :=
  match s with
  | c :: r => if is_ws c then skip_ws r else s
  | [] => []
  end.

Definition unhex (c : N) : option N :=
  if is_digit c then Some (c - 48)
  else if (97 <=? c) && (c <=? 102) then Some (c - 87)
  else if (65 <=? c) && (c <=? 70) then Some (c - 55)
  else None.
Definition unhex4 (a b c d : N) : option N :=
  match unhex a, unhex b, unhex c, unhex d with
  | Some a, Some b, Some c, Some d => Some (((a * 16 + b) * 16 + c) * 16 + d)
  | _, _, _, _ => None
  end.
Definition is_high (n : N) : bool := (55296 <=? n) && (n <=? 56319).
Definition is_low (n : N) : bool := (56320 <=? n) && (n <=? 57343).
Definition join_sur (h l : N) : N := 65536 + (h - 55296) * 1024 + (l - 56320).

Definition pcons (c : N) (r : option (pystr * pystr)) : option (pystr * pystr) :=
  match r with Some (s, t) => Some (c :: s, t) | None => None end.
Definition simple_esc (e : N) : option N :=
  if e =? 34 then Some 34 else if e =? 92 then Some 92 else if e =? 47 then Some 47
  else if e =? 98 then Some 8 else if e =? 102 then Some 12 else if e =? 110 then Some 10
  else if e =? 114 then Some 13 else if e =? 116 then Some 9 else None.
(** scanstring_unicode in strict mode, after the opening quote. *)
Fixpoint pstr (s : pystr) : option (pystr * pystr) :=
  match s with
  | [] => None
  | c :: r =>
      if c =? 34 then Some ([], r)
      else if c =? 92 then
        match r with
        | [] => None
        | e :: r1 =>
            if e =? 117 then
              match r1 with
              | a1 :: a2 :: a3 :: a4 :: r2 =>
                  match unhex4 a1 a2 a3 a4 with
                  | None => None
                  | Some n =>
                      if is_high n then
                        match r2 with
                        | x :: y :: b1 :: b2 :: b3 :: b4 :: r3 =>
                            if (x =? 92) && (y =? 117) then
                              match unhex4 b1 b2 b3 b4 with
                              | None => None
                              | Some m =>
                                  if is_low m then pcons (join_sur n m) (pstr r3)
                                  else pcons n (pstr r2)
                              end
                            else pcons n (pstr r2)
                        | _ => pcons n (pstr r2)
                        end
                      else pcons n (pstr r2)
                  end
              | _ => None
              end
            else match simple_esc e with
                 | Some v => pcons v (pstr r1)
                 | None => None
                 end
        end
      else if c <? 32 then None
      else pcons c (pstr r)
  end.

Fixpoint span_digits (s : pystr) : pystr * pystr :=
  match s with
  | c :: r => if is_digit c then let '(d, t) := span_digits r in (c :: d, t) else ([], s)
  | [] => ([], [])
  end.

(** the optional fraction / exponent of a number *)
Definition pfrac (s : pystr) : pystr * pystr :=
  match s with
  | c :: r =>
      if c =? 46 then
        let '(d, t) := span_digits r in
        match d with [] => ([], s) | _ => (c :: d, t) end
      else ([], s)
  | [] => ([], [])
  end.
Definition pexp (s : pystr) : pystr * pystr :=
  match s with
  | c :: r =>
      if (c =? 101) || (c =? 69) then
        match r with
        | g :: r' =>
            if (g =? 43) || (g =? 45) then
              let '(d, t) := span_digits r' in
              match d with [] => ([], s) | _ => (c :: g :: d, t) end
            else
              let '(d, t) := span_digits r in
              match d with [] => ([], s) | _ => (c :: d, t) end
        | [] => ([], s)
        end
      else ([], s)
  | [] => ([], [])
  end.
Definition punsigned (s : pystr) : option (pystr * pystr) :=
  match s with
  | c :: r =>
      if c =? 48 then Some ([c], r)
      else if is_digit c then Some (span_digits s) else None
  | [] => None
  end.
Definition psign (s : pystr) : bool * pystr :=
  match s with c :: r => if c =? 45 then (true, r) else (false, s) | [] => (false, s) end.
Definition pnum_body (neg : bool) (s1 : pystr) : option (json * pystr) :=
  match punsigned s1 with
  | None => None
  | Some (ip, s2) =>
      let '(fp, s3) := pfrac s2 in
      let '(ep, s4) := pexp s3 in
      match fp ++ ep with
      | [] =>
          let d := chars_uint ip in
          Some (JInt (Z.of_int (if neg : bool then Decimal.Neg d else Decimal.Pos d)), s4)
      | fe => Some (JFloat ((if neg then [45] else []) ++ ip ++ fe), s4)
      end
  end.
Definition pnum (s : pystr) : option (json * pystr) :=
  let '(neg, s1) := psign s in pnum_body neg s1.

Definition lit (w : pystr) (v : json) (s : pystr) : option (json * pystr) :=
  if prefixb w s then Some (v, skipn (length w) s) else None.

Fixpoint pval (fuel : nat) (s : pystr) : option (json * pystr) :=
  match fuel with
  | O => None
  | S n =>
      match s with
      | [] => None
      | c :: r =>
          if c =? 34 then
            match pstr r with Some (x, t) => Some (JStr x, t) | None => None end
          else if c =? 123 then
            match skip_ws r with
            | d :: t =>
                if d =? 125 then Some (JObj [], t)
                else match pmembers n (d :: t) with
                     | Some (o, t') => Some (JObj (sbuild o), t')
                     | None => None
                     end
            | [] => None
            end
          else if c =? 91 then
            match skip_ws r with
            | d :: t =>
                if d =? 93 then Some (JList [], t)
                else match pelems n (d :: t) with
                     | Some (l, t') => Some (JList l, t')
                     | None => None
                     end
            | [] => None
            end
          else if c =? 110 then lit (u "null") JNull s
          else if c =? 116 then lit (u "true") (JBool true) s
          else if c =? 102 then lit (u "false") (JBool false) s
          else if c =? 78 then lit (u "NaN") (JFloat (u "NaN")) s
          else if c =? 73 then lit (u "Infinity") (JFloat (u "Infinity")) s
          else if (c =? 45) && prefixb (u "-Infinity") s then lit (u "-Infinity") (JFloat (u "-Infinity")) s
          else pnum s
      end
  end
with pelems (fuel : nat) (s : pystr) : option (list json * pystr) :=
  match fuel with
  | O => None
  | S n =>
      match pval n s with
      | None => None
      | Some (v, t) =>
          match skip_ws t with
          | c :: r =>
              if c =? 44 then
                match pelems n (skip_ws r) with
                | Some (l, t') => Some (v :: l, t')
                | None => None
                end
              else if c =? 93 then Some ([v], r)
              else None
          | [] => None
          end
      end
  end
with pmembers (fuel : nat) (s : pystr) : option (list (pystr * json) * pystr) :=
  match fuel with
  | O => None
  | S n =>
      match s with
      | q :: r0 =>
          if q =? 34 then
            match pstr r0 with
            | None => None
            | Some (k, t) =>
                match skip_ws t with
                | c :: r =>
                    if c =? 58 then
                      match pval n (skip_ws r) with
                      | None => None
                      | Some (v, t2) =>
                          match skip_ws t2 with
                          | c2 :: r2 =>
                              if c2 =? 44 then
                                match pmembers n (skip_ws r2) with
                                | Some (o, t') => Some ((k, v) :: o, t')
                                | None => None
                                end
                              else if c2 =? 125 then Some ([(k, v)], r2)
                              else None
                          | [] => None
                          end
                      end
                    else None
                | [] => None
                end
            end
          else None
      | [] => None
      end
  end.

(** [json.loads]; [None] is JSONDecodeError (a ValueError). *)
Definition loads (s : pystr) : option json :=
  match s with
  | 65279 :: _ => None      (* BOM *)
  | _ =>
      match pval (S (length s + length s)) (skip_ws s) with
      | Some (v, t) => match skip_ws t with [] => Some v | _ => None end
      | None => None
      end
  end.
