(** C82: how a column of an old frame is to be read, by its dtype alone. *)
From Verif Require Import PyStr OldFrames.

Section one.
  Variables (cells column : Type).
  Variables (read : way -> cells -> column) (to_timedelta : column -> column) (astype : pystr -> column -> column).
  (** [dtype]: that of the column in the document, if there is one. *)
  Definition one_column (dtype : option pystr) (c : cells) : column :=
    match dtype with
    | None => read Unsaid c
    | Some d =>
        if prefixb (u "datetime") d then astype d (read Dates c)
        else if prefixb (u "timedelta") d then to_timedelta (read (Given (u "object")) c)
        else if prefixb (u "complex") d then read Complex c
        else read (Given d) c
    end.
End one.
