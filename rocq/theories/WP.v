(** Forward reasoning about computations that do not raise: [wp m s Q] says that m, run in
    s, returns a value satisfying Q or runs out of fuel, but raises nothing. *)
From Verif Require Import PyStr Base.
Local Open Scope monad_scope.

Definition wp {S A} (m : M S A) (s : S) (Q : A -> S -> Prop) : Prop :=
  match m s with
  | (Ret a, s') => Q a s'
  | (Exc _, _) => False
  | (OOF, _) => True
  end.

Section wp.
  Context {S : Type}.
  Lemma wp_ret {A} (a : A) (s : S) (Q : A -> S -> Prop) : Q a s -> wp (ret a) s Q.
  Proof. intros H. exact H. Qed.
  Lemma wp_bind {A B} (m : M S A) (f : A -> M S B) s (Q : B -> S -> Prop) :
    wp m s (fun a s1 => wp (f a) s1 Q) -> wp (bind m f) s Q.
  Proof. unfold wp, bind. destruct (m s) as [[a|e|] s1]; auto. Qed.
  Lemma wp_mono {A} (m : M S A) s (Q Q' : A -> S -> Prop) :
    wp m s Q -> (forall a s1, m s = (Ret a, s1) -> Q a s1 -> Q' a s1) -> wp m s Q'.
  Proof. unfold wp. destruct (m s) as [[a|e|] s1]; auto. Qed.
  Lemma wp_gets {A} (f : S -> A) s (Q : A -> S -> Prop) : Q (f s) s -> wp (gets f) s Q.
  Proof. intros H. exact H. Qed.
  Lemma wp_get s (Q : S -> S -> Prop) : Q s s -> wp get s Q.
  Proof. intros H. exact H. Qed.
  Lemma wp_modify (f : S -> S) s (Q : unit -> S -> Prop) : Q tt (f s) -> wp (modify f) s Q.
  Proof. intros H. exact H. Qed.
  Lemma wp_lift {A} (r : res A) a s (Q : A -> S -> Prop) : r = Ret a -> Q a s -> wp (lift r) s Q.
  Proof. intros -> H. exact H. Qed.
  Lemma wp_catch {A} (m : M S A) p h s (Q : A -> S -> Prop) : wp m s Q -> wp (catch m p h) s Q.
  Proof. unfold wp, catch. destruct (m s) as [[a|e|] s1]; tauto. Qed.
  Lemma wp_catch_exc {A} (m : M S A) p h s (Q : A -> S -> Prop) e s1 : m s = (Exc e, s1) -> p e = true ->
    wp (h e) s1 Q -> wp (catch m p h) s Q.
  Proof. unfold wp, catch. intros -> ->. auto. Qed.
  Lemma wp_oof {A} s (Q : A -> S -> Prop) : wp oof s Q.
  Proof. exact I. Qed.
  Lemma wp_eq {A} (m m' : M S A) s (Q : A -> S -> Prop) : m s = m' s -> wp m' s Q -> wp m s Q.
  Proof. unfold wp. intros ->. auto. Qed.
  Lemma wp_run {A} (m : M S A) s (Q : A -> S -> Prop) r s1 : wp m s Q -> m s = (r, s1) ->
    match r with Ret a => Q a s1 | Exc _ => False | OOF => True end.
  Proof. unfold wp. intros H E. rewrite E in H. exact H. Qed.
End wp.
