(** Graphs whose dicts differ only in keys that become the same strings and in entries that
    are not written. *)
From Verif Require Import PyStr Json Base Heap Registry Pickler SpecRun.
From Coq Require Import List. Import ListNotations.

Section keys.
  Variables (w : world) (k : hooks) (nk : bool) (h : heap).
  (** An entry with the same value whose key is the same or the string the key becomes. *)
  Definition entry_as (e e' : val * val) : Prop :=
    snd e = snd e' /\ (fst e = fst e' \/ exists a, fst e' = VStr a /\ coerces nk k (fst e) a).
  (** The same entries, without some that stand under the name of a tag or have an anonymous function
      as value. *)
  Inductive entries_as : list (val * val) -> list (val * val) -> Prop :=
  | ea_nil : entries_as [] []
  | ea_cons e e' d d' : entry_as e e' -> entries_as d d' -> entries_as (e :: d) (e' :: d')
  | ea_skip e d d' : entry_kept w h e = false -> entries_as d d' -> entries_as (e :: d) d'.
  Definition obj_as (ob ob' : obj) : Prop :=
    ob = ob' \/ exists d d', ob = ODict d /\ ob' = ODict d' /\ entries_as d d'.
  Definition keys_as (h' : heap) : Prop := Forall2 obj_as h h'.
End keys.
