(** jsonpickle/tags_pd.py: short tags for dtype names. *)
From Verif Require Import PyStr Json Base.
Open Scope nat_scope.

Section tags.
  Variable isdigit : N -> bool.        (* str.isdigit on one character *)
  Variable lower : pystr -> pystr.     (* str.lower *)

  (** tags_pd.py:22-29: re.search for brackets and str.replace *)
  Definition LBRA : N := 91. Definition RBRA : N := 93. Definition NL : N := 10.
  (** [\[.*?\]] at the start of s ('[' already taken): the match up to the first ']' if no
      newline comes before it. *)
  Fixpoint upto_bracket (s : pystr) : option pystr :=
    match s with
    | [] => None
    | c :: r => if N.eqb c RBRA then Some [c]
                else if N.eqb c NL then None
                else option_map (cons c) (upto_bracket r)
    end.
  (** [re.search]: the leftmost match. *)
  Fixpoint search_brackets (s : pystr) : option pystr :=
    match s with
    | [] => None
    | c :: r => if N.eqb c LBRA then
                  match upto_bracket r with Some m => Some (c :: m) | None => search_brackets r end
                else search_brackets r
    end.
  (** [s.replace(p, "")] for non-empty p; n bounds the length of s. *)
  Fixpoint remove_all (n : nat) (p s : pystr) : pystr :=
    match n with
    | 0 => s
    | S n' => match s with
              | [] => []
              | c :: r => if prefixb p s then remove_all n' p (skipn (length p) s) else c :: remove_all n' p r
              end
    end.
  (** tags_pd.py:31-36: letters and trailing digits *)
  Fixpoint take_while (f : N -> bool) (s : pystr) : pystr :=
    match s with c :: r => if f c then c :: take_while f r else [] | [] => [] end.
  Definition trailing_digits (s : pystr) : nat := length (take_while isdigit (rev s)).
  (** tags_pd.py:17-37 [split_letters_numbers_brackets] *)
  Definition split_dtype (s : pystr) : pystr * pystr * pystr :=
    let (brackets, clean) :=
      match search_brackets s with
      | Some b => (b, remove_all (length s) b s)
      | None => ([], s)
      end in
    let index := length clean - trailing_digits clean in
    (firstn index clean, skipn index clean, brackets).

  Definition nonempty (s : pystr) : bool := match s with [] => false | _ => true end.
  (** the loops over [range(1, len(letters) + 1)] *)
  Fixpoint first_unused (used : list pystr) (letters : pystr) (len fuel : nat) : option pystr :=
    match fuel with
    | 0 => None
    | S f => let t := firstn len letters in
             if smem t used then first_unused used letters (S len) f else Some t
    end.
  (** tags_pd.py:43-45 *)
  Record tstate : Type := mkT { t_used : list pystr; t_letters : list pystr; t_result : list (pystr * pystr) }.
  Definition give (s t : pystr) (st : tstate) : tstate :=
    mkT (t :: t_used st) (t_letters st) (sset s t (t_result st)).
  (** tags_pd.py:47-117, one round of the loop, for names that are strings. *)
  Definition tag_step (s : pystr) (st : tstate) : res tstate :=
    let '(letters0, numbers, brackets) := split_dtype s in
    let letters := lower letters0 in
    let last (st' : tstate) : tstate := mkT (s :: t_used st') (t_letters st') (sset s s (t_result st')) in
    let try (t : pystr) (other : tstate) : tstate := if smem t (t_used st) then other else give s t st in
    if seqb letters (u "datetime") && seqb numbers (u "64") && nonempty brackets then
      Ret (try (u "d64" ++ brackets) (last st))
    else if seqb letters (u "timedelta") && seqb numbers (u "64") && nonempty brackets then
      Ret (try (u "t64" ++ brackets) (last st))
    else if smem letters (t_letters st) then
      if nonempty numbers || nonempty brackets then
        match letters with
        | [] => Exc EIndexError
        | c :: _ => Ret (try (c :: numbers ++ brackets) (try (letters ++ numbers ++ brackets) (last st)))
        end
      else
        match first_unused (t_used st) letters 1 (length letters) with
        | Some t => Ret (give s t st)
        | None => Ret (last st)
        end
    else
      let add (st' : tstate) : tstate := mkT (t_used st') (letters :: t_letters st') (t_result st') in
      match first_unused (t_used st) letters 1 (length letters) with
      | Some t => Ret (add (give s t st))
      | None => Ret (last (add st))
      end.
  Fixpoint tag_loop (l : list pystr) (st : tstate) : res tstate :=
    match l with
    | [] => Ret st
    | s :: r => match tag_step s st with Ret st' => tag_loop r st' | Exc e => Exc e | OOF => OOF end
    end.
  (** tags_pd.py:40-122 [get_smallest_unique_substrings] *)
  Definition smallest_unique (prefix : pystr) (l : list pystr) : res (list (pystr * pystr)) :=
    match tag_loop l (mkT [] [] []) with
    | Ret st => Ret (map (fun kv => (fst kv, prefix ++ u "/" ++ snd kv)) (t_result st))
    | Exc e => Exc e
    | OOF => OOF
    end.
  (** tags_pd.py:247-250: TYPE_MAP and REVERSE_TYPE_MAP *)
  Definition type_map (np pd : list pystr) : res (list (pystr * pystr)) :=
    match smallest_unique (u "np") np, smallest_unique (u "pd") pd with
    | Ret a, Ret b => Ret (fold_left (fun m kv => sset (fst kv) (snd kv) m) b a)
    | Exc e, _ => Exc e
    | _, Exc e => Exc e
    | _, _ => OOF
    end.
  Definition reverse_map (m : list (pystr * pystr)) : list (pystr * pystr) :=
    fold_left (fun r kv => sset (snd kv) (fst kv) r) m [].
End tags.
