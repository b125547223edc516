(** register_handlers and unregister_handlers of the extension modules: ext/numpy.py:464-504,
    ext/pandas.py:457-478 and ext/gmpy.py:22-29.  The classes are numbers; those of numpy's dtype
    objects may be the same (in old versions of numpy they are). *)
From Verif Require Import PyStr Json Base Heap Registry.
From Coq Require Import List. Import ListNotations.
Open Scope nat_scope.

Record np_classes : Type := mkNp {
  np_ndarray : nat; np_dtype : nat; np_generic : nat;
  np_dt_void : nat; np_dt_float32 : nat; np_dt_int32 : nat; np_dt_datetime64 : nat;   (* type(np.dtype(...)) *)
  np_datetime64 : nat; np_ufunc : nat }.
(** numpy.py and pandas.py: see the lines cited at the definitions below *)
Record np_handlers : Type := mkNpH { nh_array : nat; nh_dtype : nat; nh_generic : nat; nh_datetime : nat; nh_ufunc : nat }.
(** pandas.py:457-485 *)
Record pd_classes : Type := mkPd {
  pd_frame : nat; pd_series : nat; pd_index : nat; pd_period_index : nat; pd_multi_index : nat;
  pd_timestamp : nat; pd_period : nat; pd_interval : nat }.
Record pd_handlers : Type := mkPdH {
  ph_frame : nat; ph_series : nat; ph_index : nat; ph_period_index : nat; ph_multi_index : nat;
  ph_timestamp : nat; ph_period : nat; ph_interval : nat }.

(** successive calls of handlers.py:62-100 *)
Definition reg_all (cls : nat -> cinfo) (l : list (nat * nat)) (r : registry) : registry :=
  fold_left (fun r ch => reg_register cls r (fst ch) (snd ch) true) l r.
Definition unreg_all (cls : nat -> cinfo) (l : list nat) (r : registry) : registry :=
  fold_left (fun r c => reg_unregister cls r c) l r.

Section ext.
  Variables (cls : nat -> cinfo) (N : np_classes) (H : np_handlers) (P : pd_classes) (G : pd_handlers) (mpz h_mpz : nat).
  (** numpy.py:475-490, every line with base=True *)
  Definition numpy_entries : list (nat * nat) :=
    [ (np_ndarray N, nh_array H); (np_dtype N, nh_dtype H); (np_generic N, nh_generic H);
      (np_dt_void N, nh_dtype H); (np_dt_float32 N, nh_dtype H); (np_dt_int32 N, nh_dtype H); (np_dt_datetime64 N, nh_dtype H);
      (np_datetime64 N, nh_datetime H); (np_ufunc N, nh_ufunc H) ].
  Definition numpy_register : registry -> registry := reg_all cls numpy_entries.
  (** numpy.py:493-504 *)
  Definition numpy_removed : list nat :=
    [ np_dtype N; np_generic N; np_ndarray N; np_dt_void N; np_dt_float32 N; np_dt_int32 N; np_dt_datetime64 N; np_ufunc N ].
  Definition numpy_unregister : registry -> registry := unreg_all cls numpy_removed.
  (** pandas.py:457-466 *)
  Definition pandas_entries : list (nat * nat) :=
    [ (pd_frame P, ph_frame G); (pd_series P, ph_series G); (pd_index P, ph_index G); (pd_period_index P, ph_period_index G);
      (pd_multi_index P, ph_multi_index G); (pd_timestamp P, ph_timestamp G); (pd_period P, ph_period G); (pd_interval P, ph_interval G) ].
  Definition pandas_register (r : registry) : registry := reg_all cls pandas_entries (numpy_register r).
  (** pandas.py:469-478 *)
  Definition pandas_removed : list nat :=
    [ pd_frame P; pd_series P; pd_index P; pd_period_index P; pd_multi_index P; pd_timestamp P; pd_period P; pd_interval P ].
  Definition pandas_unregister (r : registry) : registry := unreg_all cls pandas_removed (numpy_unregister r).
  (** gmpy.py:22-29, with gmpy installed *)
  Definition gmpy_register (r : registry) : registry := reg_register cls r mpz h_mpz true.
  Definition gmpy_unregister (r : registry) : registry := reg_unregister cls r mpz.
End ext.
