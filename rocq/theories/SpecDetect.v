(** Python's own rules for finding methods, for C51: the first class in the method resolution order
    whose dictionary has the name (reference manual, "Custom classes"), and what pickle's
    [obj.__reduce_ex__(2)] runs (object.__reduce_ex__ calls an overriding [__reduce__]). *)
From Verif Require Import PyStr Base Json Detect.
Open Scope nat_scope.

Section spec.
  Variable kl : nat -> klass.
  Variable mro : nat -> list nat.
  Variable c_object : nat.

  (** The method resolution order l finds name in class c, as a. *)
  Definition finds (l : list nat) (name : pystr) (c : nat) (a : attr) : Prop :=
    exists before after, l = before ++ c :: after /\ sget name (kl_dict (kl c)) = Some a /\
      forall d, In d before -> sget name (kl_dict (kl d)) = None.
  (** Every order ends with object, which has both methods. *)
  Definition wf_classes : Prop :=
    (forall c, exists l, mro c = l ++ [c_object] /\ ~ In c_object l) /\ (forall c, In c (mro c)) /\
    (exists a, sget (u "__reduce__") (kl_dict (kl c_object)) = Some a) /\
    (exists a, sget (u "__reduce_ex__") (kl_dict (kl c_object)) = Some a).

  (** What pickle runs for an instance that does not carry these names itself. *)
  Inductive pickle_runs (c : nat) : nat -> pystr -> Prop :=
  | pr_ex : forall d a, finds (mro c) (u "__reduce_ex__") d a -> d <> c_object -> pickle_runs c d (u "__reduce_ex__")
  | pr_plain : forall d a b, finds (mro c) (u "__reduce_ex__") c_object b ->
      finds (mro c) (u "__reduce__") d a -> d <> c_object -> pickle_runs c d (u "__reduce__")
  | pr_default : forall a b, finds (mro c) (u "__reduce_ex__") c_object b ->
      finds (mro c) (u "__reduce__") c_object a -> pickle_runs c c_object (u "__reduce_ex__").
End spec.

(** The objects whose reduce methods are asked for: instances of classes of the module collections
    other than defaultdict, and instances that are neither of a type with its own branch, nor of a
    subclass of dict, list, set, tuple or module, nor list-like (having [__getitem__] and [append]). *)
Section kinds.
  Variable kl : nat -> klass.
  Variable mro : nat -> list nat.
  Variables (containers : list nat) (c_defaultdict : nat) (nonreducible : list nat).
  Definition has_attr (x : iobj) (name : pystr) : Prop :=
    sget name (io_dict x) <> None \/ exists c, In c (mro (io_cls x)) /\ sget name (kl_dict (kl c)) <> None.
  Definition from_collections (x : iobj) : Prop :=
    kl_module (kl (io_cls x)) = u "collections" /\ ~ In c_defaultdict (mro (io_cls x)).
  Definition container_like (x : iobj) : Prop :=
    In (io_cls x) nonreducible \/ (exists c, In c containers /\ In c (mro (io_cls x))) \/
    (has_attr x (u "__getitem__") /\ has_attr x (u "append")).
End kinds.
