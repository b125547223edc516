(** Identity through addresses: the tables of a Pickler that are keyed by id(obj)
    (pickler.py:239-248, 294-298, 313-350, 418), run against an allocator that reuses the
    addresses of freed objects.  Objects are numbered in the order of their creation; a schedule is
    an interleaving of what the program and the pickler do. *)
From Verif Require Import PyStr Base.
Open Scope nat_scope.

Inductive ev : Type :=
| ENew (a : nat)              (* an object is created at address a *)
| EFree (x : nat)             (* object x is deallocated *)
| EHold (x : nat)             (* a live object starts to keep x alive (attribute, __dict__) *)
| EReset                      (* Pickler.reset, pickler.py:294-298 *)
| EEnter (x : nat)            (* _seen.append(x), pickler.py:418 *)
| EMkref (x : nat)            (* _log_ref, pickler.py:313-324 *)
| EGetref (x : nat)           (* _getref, pickler.py:336-338 *)
| ELookup (x : nat)           (* self._flattened[id(x)], pickler.py:346 *)
| EStore (x v : nat) (k : bool).   (* self._flattened[id(x)] = v, pickler.py:348; k: v refers to x *)
Inductive out : Type :=
| ONew (x : nat) (is_new : bool)
| ORef (x : nat) (n : option nat)
| OHit (x : nat) (v : option nat).

(** the tables of pickler.py:294-298 keyed by id(), and an allocator *)
Record ist : Type := mkI {
  i_live : list (nat * nat);     (* object, address *)
  i_next : nat;                  (* number of the next object *)
  i_held : list nat;             (* kept alive by the program *)
  i_seen : list nat;             (* self._seen *)
  i_objs : list (nat * nat);     (* self._objs: address -> reference number *)
  i_cache : list (nat * nat);    (* self._flattened: address -> document *)
  i_kept : list nat              (* objects referred to by the documents in _flattened *)
}.
Definition istart : ist := mkI [] 0 [] [] [] [] [].
Fixpoint nget (k : nat) (l : list (nat * nat)) : option nat :=
  match l with [] => None | (a, b) :: r => if Nat.eqb k a then Some b else nget k r end.
Definition nmem (x : nat) (l : list nat) : bool := existsb (Nat.eqb x) l.
Definition pinned (s : ist) (x : nat) : bool := nmem x (i_held s) || nmem x (i_seen s) || nmem x (i_kept s).

(** One event: the new state and what is observed; None if CPython cannot do this.  An address
    is given to one live object at a time; only unreferenced objects are freed. *)
(** pickler.py:313-338, 304-311 *)
Definition istep (e : ev) (s : ist) : option (ist * list out) :=
  match e with
  | ENew a => if nmem a (map snd (i_live s)) then None
              else Some (mkI ((i_next s, a) :: i_live s) (S (i_next s)) (i_held s) (i_seen s) (i_objs s) (i_cache s) (i_kept s), [])
  | EFree x => match nget x (i_live s) with
               | Some _ => if pinned s x then None
                           else Some (mkI (filter (fun xa => negb (Nat.eqb x (fst xa))) (i_live s)) (i_next s) (i_held s) (i_seen s)
                                          (i_objs s) (i_cache s) (i_kept s), [])
               | None => None
               end
  | EHold x => match nget x (i_live s) with
               | Some _ => Some (mkI (i_live s) (i_next s) (x :: i_held s) (i_seen s) (i_objs s) (i_cache s) (i_kept s), [])
               | None => None
               end
  | EReset => Some (mkI (i_live s) (i_next s) (i_held s) [] [] [] [], [])
  | EEnter x => match nget x (i_live s) with
                | Some _ => Some (mkI (i_live s) (i_next s) (i_held s) (x :: i_seen s) (i_objs s) (i_cache s) (i_kept s), [])
                | None => None
                end
  | EMkref x => match nget x (i_live s) with
                | Some a => match nget a (i_objs s) with
                            | Some _ => Some (s, [ONew x false])
                            | None => Some (mkI (i_live s) (i_next s) (i_held s) (i_seen s) ((a, length (i_objs s)) :: i_objs s)
                                                (i_cache s) (i_kept s), [ONew x true])
                            end
                | None => None
                end
  | EGetref x => match nget x (i_live s) with
                 | Some a => Some (s, [ORef x (nget a (i_objs s))])
                 | None => None
                 end
  | ELookup x => match nget x (i_live s) with
                 | Some a => Some (s, [OHit x (nget a (i_cache s))])
                 | None => None
                 end
  | EStore x v k => match nget x (i_live s) with
                    | Some a => Some (mkI (i_live s) (i_next s) (i_held s) (i_seen s) (i_objs s) ((a, v) :: i_cache s)
                                          (if k then x :: i_kept s else i_kept s), [])
                    | None => None
                    end
  end.
(** a run of such steps *)
Fixpoint irun (l : list ev) (s : ist) : option (ist * list out) :=
  match l with
  | [] => Some (s, [])
  | e :: r => match istep e s with
              | Some (s1, o1) => match irun r s1 with Some (s2, o2) => Some (s2, o1 ++ o2) | None => None end
              | None => None
              end
  end.
