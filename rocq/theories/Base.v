(** Exceptions and the state-and-exception monad shared by the stateful models.
    State changes made before an exception is raised persist, as in Python. *)
From Verif Require Import PyStr.

(** Python exception classes the code distinguishes.  [EUnmodelled] marks behaviour that
    the model declares out of scope: no handler of the model ever catches it, so every
    theorem about a normal result is silent about it. *)
Inductive exn : Type :=
| ETypeError | EAttributeError | EKeyError | EIndexError | EValueError
| EUnicodeError            (* UnicodeEncodeError, a subclass of ValueError *)
| EImportError | ERuntimeError | EAssertion | ENotImplemented
| EFrozen                  (* dataclasses.FrozenInstanceError, a subclass of AttributeError *)
| EUser (n : nat)          (* any other subclass of Exception *)
| EKeyboardInterrupt | ESystemExit
| EClassNotFound           (* errors.ClassNotFoundError: derives from BaseException, errors.py *)
| EBase (n : nat)          (* any other BaseException outside Exception *)
| EUnmodelled.

Definition is_Exception (e : exn) : bool :=
  match e with
  | EKeyboardInterrupt | ESystemExit | EClassNotFound | EBase _ | EUnmodelled => false
  | _ => true
  end.
Definition is_TypeError (e : exn) : bool := match e with ETypeError => true | _ => false end.
Definition is_AttributeError (e : exn) : bool :=
  match e with EAttributeError | EFrozen => true | _ => false end.
Definition is_KeyError (e : exn) : bool := match e with EKeyError => true | _ => false end.
Definition is_IndexError (e : exn) : bool := match e with EIndexError => true | _ => false end.
Definition is_ValueError (e : exn) : bool :=
  match e with EValueError | EUnicodeError => true | _ => false end.
Definition is_ImportError (e : exn) : bool := match e with EImportError => true | _ => false end.
Definition is_Frozen (e : exn) : bool := match e with EFrozen => true | _ => false end.

(** Outcome of a computation: a value, an exception, or out of fuel. *)
Inductive res (A : Type) : Type :=
| Ret (a : A)
| Exc (e : exn)
| OOF.
Arguments Ret {A} a.
Arguments Exc {A} e.
Arguments OOF {A}.

Definition M (S A : Type) : Type := S -> res A * S.

Section monad.
  Context {S : Type}.
  Definition ret {A} (a : A) : M S A := fun s => (Ret a, s).
  Definition raise {A} (e : exn) : M S A := fun s => (Exc e, s).
  Definition oof {A} : M S A := fun s => (OOF, s).
  Definition lift {A} (r : res A) : M S A := fun s => (r, s).
  Definition bind {A B} (m : M S A) (f : A -> M S B) : M S B :=
    fun s => match m s with
             | (Ret a, s') => f a s'
             | (Exc e, s') => (Exc e, s')
             | (OOF, s') => (OOF, s')
             end.
  Definition get : M S S := fun s => (Ret s, s).
  Definition gets {A} (f : S -> A) : M S A := fun s => (Ret (f s), s).
  Definition modify (f : S -> S) : M S unit := fun s => (Ret tt, f s).
  (** [try m except p as e: h e] *)
  Definition catch {A} (m : M S A) (p : exn -> bool) (h : exn -> M S A) : M S A :=
    fun s => match m s with
             | (Exc e, s') => if p e then h e s' else (Exc e, s')
             | r => r
             end.
  Fixpoint mapM {A B} (f : A -> M S B) (l : list A) : M S (list B) :=
    match l with
    | [] => ret []
    | x :: r => bind (f x) (fun y => bind (mapM f r) (fun ys => ret (y :: ys)))
    end.
  Fixpoint foldM {A B} (f : B -> A -> M S B) (l : list A) (b : B) : M S B :=
    match l with
    | [] => ret b
    | x :: r => bind (f b x) (fun b' => foldM f r b')
    end.
End monad.

Declare Scope monad_scope.
Delimit Scope monad_scope with monad.
Notation "x <- m ;; k" := (bind m (fun x => k)) (at level 61, m at next level, right associativity) : monad_scope.
Notation "' p <- m ;; k" := (bind m (fun x => match x with p => k end))
  (at level 61, p pattern, m at next level, right associativity) : monad_scope.
Notation "m ;;; k" := (bind m (fun _ => k)) (at level 61, right associativity) : monad_scope.

Definition isRet {A} (r : res A) : Prop := exists a, r = Ret a.

Section lemmas.
  Context {S : Type}.
  Lemma bind_ret_inv {A B} (m : M S A) (f : A -> M S B) s b s' :
    bind m f s = (Ret b, s') -> exists a s1, m s = (Ret a, s1) /\ f a s1 = (Ret b, s').
  Proof.
    unfold bind. destruct (m s) as [[a|e|] s1]; intros H; try discriminate. eauto.
  Qed.
  Lemma bind_eq {A B} (m : M S A) (f : A -> M S B) s a s1 :
    m s = (Ret a, s1) -> bind m f s = f a s1.
  Proof. unfold bind. intros ->. reflexivity. Qed.
  Lemma bind_exc {A B} (m : M S A) (f : A -> M S B) s e s1 :
    m s = (Exc e, s1) -> bind m f s = (Exc e, s1).
  Proof. unfold bind. intros ->. reflexivity. Qed.
  Lemma bind_assoc {A B C} (m : M S A) (f : A -> M S B) (g : B -> M S C) s :
    bind (bind m f) g s = bind m (fun x => bind (f x) g) s.
  Proof. unfold bind. destruct (m s) as [[a|e|] s1]; reflexivity. Qed.
  Lemma catch_ret {A} (m : M S A) p h s a s1 :
    m s = (Ret a, s1) -> catch m p h s = (Ret a, s1).
  Proof. unfold catch. intros ->. reflexivity. Qed.
  Lemma bind_ext {A B} (m m' : M S A) (f f' : A -> M S B) s :
    m s = m' s -> (forall a s1, m s = (Ret a, s1) -> f a s1 = f' a s1) -> bind m f s = bind m' f' s.
  Proof.
    unfold bind. intros E H. rewrite <- E. destruct (m s) as [[a|e|] s1] eqn:R; auto.
  Qed.
End lemmas.

(** Invariant reasoning.  [inv P Q E m]: from a state satisfying P, a normal result a in
    state s' satisfies [Q a s'] and an exceptional or out-of-fuel one satisfies [E s']. *)
Definition triple {S A} (P : S -> Prop) (m : M S A) (Q : A -> S -> Prop) (E : exn -> S -> Prop) : Prop :=
  forall s, P s -> match m s with
                   | (Ret a, s') => Q a s'
                   | (Exc e, s') => E e s'
                   | (OOF, _) => True
                   end.

Section triples.
  Context {S : Type}.
  Lemma t_ret {A} (P : S -> Prop) (a : A) (Q : A -> S -> Prop) E :
    (forall s, P s -> Q a s) -> triple P (ret a) Q E.
  Proof. intros H s Hs. apply H; auto. Qed.
  Lemma t_raise {A} (P : S -> Prop) e (Q : A -> S -> Prop) (E : exn -> S -> Prop) :
    (forall s, P s -> E e s) -> triple P (raise e) Q E.
  Proof. intros H s Hs. apply H; auto. Qed.
  Lemma t_oof {A} (P : S -> Prop) (Q : A -> S -> Prop) E : triple P oof Q E.
  Proof. intros s Hs. exact I. Qed.
  Lemma t_bind {A B} (P : S -> Prop) (m : M S A) (f : A -> M S B) (R : A -> S -> Prop) Q E :
    triple P m R E -> (forall a, triple (R a) (f a) Q E) -> triple P (bind m f) Q E.
  Proof.
    intros H1 H2 s Hs. specialize (H1 s Hs). unfold bind.
    destruct (m s) as [[a|e|] s1]; auto. apply H2; auto.
  Qed.
  Lemma t_conseq {A} (P P' : S -> Prop) (m : M S A) (Q Q' : A -> S -> Prop) (E E' : exn -> S -> Prop) :
    triple P' m Q' E' -> (forall s, P s -> P' s) -> (forall a s, Q' a s -> Q a s) ->
    (forall e s, E' e s -> E e s) -> triple P m Q E.
  Proof.
    intros H HP HQ HE s Hs. specialize (H s (HP s Hs)). destruct (m s) as [[a|e|] s1]; auto.
  Qed.
  Lemma t_catch {A} (P : S -> Prop) (m : M S A) p h Q (E E' : exn -> S -> Prop) :
    triple P m Q E' -> (forall e, p e = true -> triple (E' e) (h e) Q E) ->
    (forall e s, p e = false -> E' e s -> E e s) -> triple P (catch m p h) Q E.
  Proof.
    intros H1 H2 H3 s Hs. specialize (H1 s Hs). unfold catch.
    destruct (m s) as [[a|e|] s1]; auto. destruct (p e) eqn:Pe; auto. apply (H2 e Pe s1); auto.
  Qed.
  Lemma t_gets {A} (P : S -> Prop) (f : S -> A) (Q : A -> S -> Prop) E :
    (forall s, P s -> Q (f s) s) -> triple P (gets f) Q E.
  Proof. intros H s Hs. apply H; auto. Qed.
  Lemma t_get (P : S -> Prop) (Q : S -> S -> Prop) E :
    (forall s, P s -> Q s s) -> triple P get Q E.
  Proof. intros H s Hs. apply H; auto. Qed.
  Lemma t_modify (P : S -> Prop) (f : S -> S) (Q : unit -> S -> Prop) E :
    (forall s, P s -> Q tt (f s)) -> triple P (modify f) Q E.
  Proof. intros H s Hs. apply H; auto. Qed.
  Lemma t_lift {A} (P : S -> Prop) (r : res A) (Q : A -> S -> Prop) (E : exn -> S -> Prop) :
    (forall a s, r = Ret a -> P s -> Q a s) -> (forall e s, r = Exc e -> P s -> E e s) ->
    triple P (lift r) Q E.
  Proof. intros H1 H2 s Hs. unfold lift. destruct r; auto. Qed.
  Lemma t_pure {A} (X : Prop) (P : S -> Prop) (m : M S A) Q E :
    (X -> triple P m Q E) -> triple (fun s => P s /\ X) m Q E.
  Proof. intros H s [Hs Hx]. apply H; auto. Qed.
  Lemma t_mapM {A B} (P : S -> Prop) (f : A -> M S B) (Q : B -> Prop) E l :
    (forall x, In x l -> triple P (f x) (fun y s => P s /\ Q y) E) ->
    triple P (mapM f l) (fun ys s => P s /\ Forall Q ys) E.
  Proof.
    induction l as [|x l IH]; intros H; simpl.
    - apply t_ret; auto.
    - eapply t_bind; [apply H; left; auto|]. intros y. apply t_pure. intros Hy.
      eapply t_bind; [apply IH; intros; apply H; right; auto|]. intros ys. apply t_pure. intros Hys.
      apply t_ret. auto.
  Qed.
  Lemma t_foldM {A B} (I : B -> S -> Prop) (f : B -> A -> M S B) E l :
    (forall b x, In x l -> triple (I b) (f b x) I E) ->
    forall b, triple (I b) (foldM f l b) I E.
  Proof.
    induction l as [|x l IH]; intros H b; simpl.
    - apply t_ret; auto.
    - eapply t_bind; [apply H; left; auto|]. intros b'. apply IH. intros; apply H; right; auto.
  Qed.
End triples.
