(** Model of jsonpickle.backend.JSONBackend (/repo/jsonpickle/backend.py).
    Python's import system, module attributes and the backends' own dumps/loads functions are
    oracles.  Keyword option dictionaries are mutable cells ([b_cells]), because the default
    options of several backends share one dictionary (backend.py:102-109). *)
From Verif Require Import PyStr Json Base.
Open Scope nat_scope.
Open Scope monad_scope.

(** Option values (True, 4, ...), functions, exception classes and modules are opaque numbers. *)
Definition kwargs : Type := list (pystr * nat).

Inductive bcall : Type :=
| BEnc (f : nat) (obj : nat) (args : list nat) (kw : kwargs)
| BDec (f : nat) (text : pystr) (args : list nat) (kw : kwargs).

(** backend.py:76-96 *)
Record bst : Type := mkB {
  b_fall : bool;
  b_names : list pystr;
  b_enc : list (pystr * nat);
  b_dec : list (pystr * nat);
  b_eopts : list (pystr * (list nat * nat));    (* (args, cell of kwargs) *)
  b_dopts : list (pystr * (list nat * nat));
  b_exc : list (pystr * nat);
  b_ver : bool;
  b_cells : list kwargs;
  b_log : list bcall                            (* calls made to backends, oldest first *)
}.

Definition bs_fall x s := mkB x (b_names s) (b_enc s) (b_dec s) (b_eopts s) (b_dopts s) (b_exc s) (b_ver s) (b_cells s) (b_log s).
Definition bs_names x s := mkB (b_fall s) x (b_enc s) (b_dec s) (b_eopts s) (b_dopts s) (b_exc s) (b_ver s) (b_cells s) (b_log s).
Definition bs_enc x s := mkB (b_fall s) (b_names s) x (b_dec s) (b_eopts s) (b_dopts s) (b_exc s) (b_ver s) (b_cells s) (b_log s).
Definition bs_dec x s := mkB (b_fall s) (b_names s) (b_enc s) x (b_eopts s) (b_dopts s) (b_exc s) (b_ver s) (b_cells s) (b_log s).
Definition bs_eopts x s := mkB (b_fall s) (b_names s) (b_enc s) (b_dec s) x (b_dopts s) (b_exc s) (b_ver s) (b_cells s) (b_log s).
Definition bs_dopts x s := mkB (b_fall s) (b_names s) (b_enc s) (b_dec s) (b_eopts s) x (b_exc s) (b_ver s) (b_cells s) (b_log s).
Definition bs_exc x s := mkB (b_fall s) (b_names s) (b_enc s) (b_dec s) (b_eopts s) (b_dopts s) x (b_ver s) (b_cells s) (b_log s).
Definition bs_ver x s := mkB (b_fall s) (b_names s) (b_enc s) (b_dec s) (b_eopts s) (b_dopts s) (b_exc s) x (b_cells s) (b_log s).
Definition bs_cells x s := mkB (b_fall s) (b_names s) (b_enc s) (b_dec s) (b_eopts s) (b_dopts s) (b_exc s) (b_ver s) x (b_log s).
Definition bs_log x s := mkB (b_fall s) (b_names s) (b_enc s) (b_dec s) (b_eopts s) (b_dopts s) (b_exc s) (b_ver s) (b_cells s) x.

(** the modules that can be imported, and what their functions do (backend.py:164-200, 213-232) *)
Record benv : Type := {
  be_import : pystr -> res nat;                 (* __import__(name): the top-level module *)
  be_getattr : nat -> pystr -> res nat;
  be_encode : nat -> nat -> list nat -> kwargs -> res pystr;
  be_decode : nat -> pystr -> list nat -> kwargs -> res nat;
  be_isinst : nat -> exn -> bool;               (* isinstance(e, exception class) *)
  be_valueerror : nat                           (* the class ValueError *)
}.

Definition MB := M bst.

Section backend.
  Variable e : benv.

  (** Python dicts as mutable cells: backend.py:76-109, 171-172 *)
  Definition new_cell (kw : kwargs) : MB nat :=
    s <- get ;; modify (bs_cells (b_cells s ++ [kw])) ;;; ret (length (b_cells s)).
  Definition cell (s : bst) (c : nat) : kwargs := nth c (b_cells s) [].
  Definition set_cell (c : nat) (kw : kwargs) : MB unit :=
    modify (fun s => bs_cells (firstn c (b_cells s) ++ kw :: skipn (S c) (b_cells s)) s).

  (** [list.remove]: the first occurrence *)
  (** list.remove (backend.py:202-211, 234-257) *)
  Fixpoint remove1 (n : pystr) (l : list pystr) : list pystr :=
    match l with
    | [] => []
    | x :: r => if seqb n x then r else x :: remove1 n r
    end.
  Definition listed (n : pystr) (l : list pystr) : bool := existsb (seqb n) l.

  (** backend.py:202-211 *)
  Definition remove_backend (n : pystr) : MB unit :=
    modify (fun s => bs_enc (sdel n (b_enc s)) s) ;;;
    modify (fun s => bs_dec (sdel n (b_dec s)) s) ;;;
    modify (fun s => bs_exc (sdel n (b_exc s)) s) ;;;
    modify (fun s => bs_dopts (sdel n (b_dopts s)) s) ;;;
    modify (fun s => bs_eopts (sdel n (b_eopts s)) s) ;;;
    modify (fun s => if listed n (b_names s) then bs_names (remove1 n (b_names s)) s else s) ;;;
    modify (fun s => bs_ver (match b_names s with [] => false | _ => true end) s).

  (** backend.py:128-136; [put] writes the dictionary *)
  Definition store (put : nat -> bst -> bst) (n : pystr) (m : nat) (attr : pystr) : MB bool :=
    catch (x <- lift (be_getattr e m attr) ;; modify (put x) ;;; ret true)
      is_AttributeError (fun _ => remove_backend n ;;; ret false).

  (** backend.py:138-200: the dotted name of a backend *)
  Fixpoint getattrs_ (m : nat) (l : list pystr) : res nat :=
    match l with
    | [] => Ret m
    | a :: r => match be_getattr e m a with Ret m' => getattrs_ m' r | x => x end
    end.
  Definition setdefault {V} (n : pystr) (v : V) (o : list (pystr * V)) : list (pystr * V) :=
    match sget n o with Some _ => o | None => sset n v o end.

  (** backend.py:138-200; [exc]: a name, or an exception class *)
  Definition load_backend (n dumps loads : pystr) (exc : pystr + nat) : MB bool :=
    match be_import e n with
    | Exc x => if is_ImportError x then ret false else raise x
    | OOF => oof
    | Ret top =>
        match getattrs_ top (tl (split_on 46%N n)) with
        | Exc x => if is_AttributeError x then ret false else raise x
        | OOF => oof
        | Ret m =>
            a <- store (fun f s => bs_enc (sset n f (b_enc s)) s) n m dumps ;;
            if negb a then ret false else
            b <- store (fun f s => bs_dec (sset n f (b_dec s)) s) n m loads ;;
            if negb b then ret false else
            c <- match exc with
                 | inl x => store (fun f s => bs_exc (sset n f (b_exc s)) s) n m x
                 | inr k => modify (fun s => bs_exc (sset n k (b_exc s)) s) ;;; ret true
                 end ;;
            if negb c then ret false else
            c1 <- new_cell [] ;;
            modify (fun s => bs_eopts (setdefault n ([], c1) (b_eopts s)) s) ;;;
            c2 <- new_cell [] ;;
            modify (fun s => bs_dopts (setdefault n ([], c2) (b_dopts s)) s) ;;;
            modify (fun s => bs_names (b_names s ++ [n]) s) ;;;
            modify (bs_ver true) ;;;
            ret true
        end
    end.

  (** backend.py:234-257 *)
  Definition set_preferred (n : pystr) : MB unit :=
    s <- get ;;
    if listed n (b_names s) then modify (bs_names (n :: remove1 n (b_names s)))
    else raise EAssertion.

  (** backend.py:259-299, 278-296 *)
  Definition set_encoder_options (n : pystr) (args : list nat) (kw : kwargs) : MB unit :=
    c <- new_cell kw ;; modify (fun s => bs_eopts (sset n (args, c) (b_eopts s)) s).
  Definition set_decoder_options (n : pystr) (args : list nat) (kw : kwargs) : MB unit :=
    c <- new_cell kw ;; modify (fun s => bs_dopts (sset n (args, c) (b_dopts s)) s).

  (** backend.py:213-227.  A missing entry of _encoders raises KeyError. *)
  Definition backend_encode (n : pystr) (obj : nat) (indent separators : option nat) : MB pystr :=
    s <- get ;;
    ' (args, c) <- match sget n (b_eopts s) with
                   | Some p => ret p
                   | None => c <- new_cell [] ;; ret ([], c)
                   end ;;
    s1 <- get ;;
    copy <- new_cell (cell s1 c) ;;
    match indent with
    | Some i => s2 <- get ;; set_cell copy (sset (u "indent") i (cell s2 copy))
    | None => ret tt
    end ;;;
    match separators with
    | Some i => s2 <- get ;; set_cell copy (sset (u "separators") i (cell s2 copy))
    | None => ret tt
    end ;;;
    s3 <- get ;;
    match sget n (b_enc s3) with
    | None => raise EKeyError
    | Some f =>
        modify (fun s => bs_log (b_log s ++ [BEnc f obj args (cell s copy)]) s) ;;;
        lift (be_encode e f obj args (cell s3 copy))
    end.

  (** backend.py:229-232 *)
  Definition backend_decode (n : pystr) (text : pystr) : MB nat :=
    s <- get ;;
    ' (args, c) <- match sget n (b_dopts s) with
                   | Some p => ret p
                   | None => c <- new_cell [] ;; ret ([], c)
                   end ;;
    s1 <- get ;;
    copy <- new_cell (cell s1 c) ;;
    s3 <- get ;;
    match sget n (b_dec s3) with
    | None => raise EKeyError
    | Some f =>
        modify (fun s => bs_log (b_log s ++ [BDec f text args (cell s copy)]) s) ;;;
        lift (be_decode e f text args (cell s3 copy))
    end.

  (** backend.py:16-20 *)
  Definition verify : MB unit := s <- get ;; if b_ver s then ret tt else raise EAssertion.

  (** backend.py:37-45: the loop over the names; [None]: the loop ended without returning
      (Python's implicit None; only possible when there are no names). *)
  Fixpoint encode_loop (names : list pystr) (obj : nat) (indent separators : option nat) : MB (option pystr) :=
    match names with
    | [] => ret None
    | n :: r =>
        catch (x <- backend_encode n obj indent separators ;; ret (Some x)) is_Exception
          (fun x => match r with [] => raise x | _ => encode_loop r obj indent separators end)
    end.
  (** backend.py:22-45 *)
  Definition bencode (obj : nat) (indent separators : option nat) : MB (option pystr) :=
    verify ;;;
    s <- get ;;
    if b_fall s then encode_loop (b_names s) obj indent separators
    else match b_names s with
         | [] => raise EIndexError
         | n :: _ => x <- backend_encode n obj indent separators ;; ret (Some x)
         end.

  (** backend.py:64-71: [except self._decoder_exceptions[name]] is evaluated only when an
      exception arrives, and raises KeyError itself if the entry is missing. *)
  Fixpoint decode_loop (names : list pystr) (text : pystr) : MB (option nat) :=
    match names with
    | [] => ret None
    | n :: r =>
        catch (x <- backend_decode n text ;; ret (Some x)) (fun _ => true)
          (fun x => s <- get ;;
             match sget n (b_exc s) with
             | None => raise EKeyError
             | Some k => if be_isinst e k x
                         then match r with [] => raise x | _ => decode_loop r text end
                         else raise x
             end)
    end.
  (** backend.py:50-71 *)
  Definition bdecode (text : pystr) : MB (option nat) :=
    verify ;;;
    s <- get ;;
    if b_fall s then decode_loop (b_names s) text
    else match b_names s with
         | [] => raise EIndexError
         | n :: _ => x <- backend_decode n text ;; ret (Some x)
         end.

  (** backend.py:111-126 *)
  Definition enable_fallthrough (b : bool) : MB unit := modify (bs_fall b).

  (** backend.py:76-109; [vfalse] is the option value False *)
  Definition binit (fallthrough : bool) (vfalse : nat) : MB unit :=
    modify (fun _ => mkB fallthrough [] [] [] [] [] [] false [] []) ;;;
    load_backend (u "simplejson") (u "dumps") (u "loads") (inr (be_valueerror e)) ;;;
    load_backend (u "json") (u "dumps") (u "loads") (inr (be_valueerror e)) ;;;
    load_backend (u "ujson") (u "dumps") (u "loads") (inr (be_valueerror e)) ;;;
    j <- new_cell [(u "sort_keys", vfalse)] ;;
    uj <- new_cell [(u "sort_keys", vfalse); (u "escape_forward_slashes", vfalse)] ;;
    modify (bs_eopts [(u "ujson", ([], uj)); (u "json", ([], j)); (u "simplejson", ([], j));
                      (u "django.util.simplejson", ([], j))]).

  (** Calls a user can make on the backend object. *)
  (** the public calls of backend.py:111-126, 138-296 *)
  Inductive bop : Type :=
  | OpLoad (n dumps loads : pystr) (exc : pystr + nat)
  | OpRemove (n : pystr)
  | OpPrefer (n : pystr)
  | OpFall (b : bool)
  | OpEncOpts (n : pystr) (args : list nat) (kw : kwargs)
  | OpDecOpts (n : pystr) (args : list nat) (kw : kwargs)
  | OpEncode (obj : nat) (indent separators : option nat)
  | OpDecode (text : pystr).
  (** the state after a public call, whether it returned or raised *)
  Definition discard {A} (m : MB A) : bst -> bst := fun s => snd (m s).
  (** one public call *)
  Definition bstep (o : bop) : bst -> bst :=
    match o with
    | OpLoad n d l x => discard (load_backend n d l x)
    | OpRemove n => discard (remove_backend n)
    | OpPrefer n => discard (set_preferred n)
    | OpFall b => discard (enable_fallthrough b)
    | OpEncOpts n a k => discard (set_encoder_options n a k)
    | OpDecOpts n a k => discard (set_decoder_options n a k)
    | OpEncode o i p => discard (bencode o i p)
    | OpDecode t => discard (bdecode t)
    end.
  (** Any history of calls; calls that raise leave the changes made so far. *)
  Definition brun (ops : list bop) (s : bst) : bst := fold_left (fun s o => bstep o s) ops s.
End backend.
