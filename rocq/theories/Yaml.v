(** ext/yaml.py: PyYAML as one more backend. *)
From Verif Require Import PyStr Json Base Backend.

(** ext/yaml.py:10-16 register, for the backend manager it is given (without one, the manager of
    jsonpickle.backend: lines 12-13, a choice of the object on which the method is called). *)
Definition register_yaml (e : benv) : M bst bool :=
  load_backend e (u "yaml") (u "dump") (u "safe_load") (inl (u "YAMLError")).
