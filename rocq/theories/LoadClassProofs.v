(** C24 and C23: name resolution. *)
From Verif Require Import PyStr Tags Json JsonText Base Heap Registry LoadClass Pickler Unpickler Samples.
Open Scope nat_scope.

(** Specification: following attribute names from a module. *)
Inductive follows (ga : val -> pystr -> res val) : val -> list pystr -> val -> Prop :=
| fo_nil v : follows ga v [] v
| fo_cons v n r v1 v2 : ga v n = Ret v1 -> follows ga v1 r v2 -> follows ga v (n :: r) v2.
(** The dotted name made of [names] denotes [v]: its first [up_to] fields are an importable
    module from which the remaining fields lead to v. *)
Definition denotes (w : world) (names : list pystr) (up_to : nat) (v : val) : Prop :=
  exists m, w_import w (translate_module_name (join_with DOT (firstn up_to names))) = Ret m /\
            follows (w_getattr w) m (skipn up_to names) v.
(** The split fails the way a missing module or attribute does. *)
Definition absent (w : world) (names : list pystr) (up_to : nat) : Prop :=
  (exists e, w_import w (translate_module_name (join_with DOT (firstn up_to names))) = Exc e /\
             (e = EImportError \/ e = EValueError)) \/
  (exists m p n r v, w_import w (translate_module_name (join_with DOT (firstn up_to names))) = Ret m /\
             skipn up_to names = p ++ n :: r /\ follows (w_getattr w) m p v /\
             w_getattr w v n = Exc EAttributeError).

Lemma getattrs_follows w v names v' : follows (w_getattr w) v names v' -> getattrs w v names = Ret v'.
Proof. induction 1 as [|v n r v1 v2 H F IH]; simpl; auto. rewrite H. auto. Qed.
Lemma getattrs_absent w v p n r v1 : follows (w_getattr w) v p v1 -> w_getattr w v1 n = Exc EAttributeError ->
  getattrs w v (p ++ n :: r) = Exc EAttributeError.
Proof. induction 1 as [|v n' r' v1 v2 H F IH]; simpl; intros E. - rewrite E; auto. - rewrite H. auto. Qed.

Lemma try_denotes w names k v : denotes w names k v -> try_split w names k = Ret v.
Proof.
  intros (m & H & F). unfold try_split, untranslate_module_name. rewrite H. apply getattrs_follows; auto.
Qed.
Lemma try_absent w names k : absent w names k -> exists e, try_split w names k = Exc e /\ load_caught e = true.
Proof.
  intros [(e & H & D)|(m & p & n & r & v & H & S & F & E)]; unfold try_split, untranslate_module_name; rewrite H.
  - exists e. split; auto. destruct D; subst; reflexivity.
  - exists EAttributeError. split; [|reflexivity]. rewrite S. eapply getattrs_absent; eauto.
Qed.

Lemma load_splits_found w names k v n :
  1 <= k -> denotes w names k v ->
  k <= n -> (forall i, k < i <= n -> absent w names i \/ denotes w names i v) ->
  load_splits w names n = Ret (Some v).
Proof.
  intros H1 HD. induction n as [|n IH]; intros Hk HA; [lia|].
  cbn [load_splits].
  destruct (Nat.eq_dec k (S n)) as [->|Hne].
  - rewrite (try_denotes _ _ _ _ HD). reflexivity.
  - destruct (HA (S n)) as [A|A]; [lia| |].
    + destruct (try_absent _ _ _ A) as (e & -> & ->). apply IH; [lia|]. intros i Hi. apply HA. lia.
    + rewrite (try_denotes _ _ _ _ A). reflexivity.
Qed.

Lemma load_splits_ext w1 w2 names n :
  (forall i, 1 <= i <= n ->
     w_import w1 (translate_module_name (join_with DOT (firstn i names))) =
     w_import w2 (translate_module_name (join_with DOT (firstn i names)))) ->
  w_getattr w1 = w_getattr w2 -> load_splits w1 names n = load_splits w2 names n.
Proof.
  intros HI HG. induction n as [|n IH]; auto. cbn [load_splits].
  assert (GA : forall names v, getattrs w1 v names = getattrs w2 v names).
  { induction names0 as [|x r IH']; intros v; simpl; auto. rewrite HG.
    destruct (w_getattr w2 v x); auto. }
  assert (T : try_split w1 names (S n) = try_split w2 names (S n)).
  { unfold try_split, untranslate_module_name. rewrite HI by lia.
    destruct (w_import w2 _); auto. }
  rewrite T. destruct (try_split w2 names (S n)) as [|e|]; auto.
  destruct (load_caught e); auto. apply IH. intros i Hi. apply HI. lia.
Qed.

Lemma split_dot_app m q : split_on DOT (m ++ DOT :: q) = split_on DOT m ++ split_on DOT q.
Proof.
  destruct (split_on_app DOT m (DOT :: q)) as (l1 & mm & l2 & H1 & H2 & H3).
  rewrite H3, H1. cbn [split_on] in H2. rewrite N.eqb_refl in H2.
  injection H2 as H2a H2b. rewrite <- H2a, app_nil_r, <- H2b, <- app_assoc. reflexivity.
Qed.
Lemma firstn_split_app {A} (a b : list A) : firstn (length a) (a ++ b) = a.
Proof. rewrite firstn_app, Nat.sub_diag, firstn_all, firstn_O, app_nil_r. reflexivity. Qed.
Lemma skipn_split_app {A} (a b : list A) : skipn (length a) (a ++ b) = b.
Proof. rewrite skipn_app, skipn_all, Nat.sub_diag. reflexivity. Qed.

Lemma translate_idem m : translate_module_name (translate_module_name m) = translate_module_name m.
Proof.
  unfold translate_module_name. destruct (seqb m (u "__builtin__")) eqn:E1; [reflexivity|].
  destruct (seqb m (u "exceptions")) eqn:E2; [reflexivity|]. rewrite E1, E2. reflexivity.
Qed.

(** [module.qualname] resolves to v if the module can be imported, the attributes lead to
    v, and no prefix that runs into the qualname is itself a module leading elsewhere. *)
Definition importable (w : world) (module qualname : pystr) (v : val) : Prop :=
  let M := translate_module_name module in
  let names := split_on DOT M ++ split_on DOT qualname in
  (exists m, w_import w M = Ret m /\ follows (w_getattr w) m (split_on DOT qualname) v) /\
  (forall i, length (split_on DOT M) < i < length names -> absent w names i \/ denotes w names i v).

Lemma importable_resolves w classes module qualname v :
  importable w module qualname v ->
  from_classes classes (translate_module_name module ++ DOT :: qualname) = None ->
  loadclass_str w classes (translate_module_name module ++ DOT :: qualname) = Ret v.
Proof.
  intros [(m & HI & HF) HA] HC. unfold loadclass_str. rewrite HC.
  rewrite split_dot_app.
  set (M := translate_module_name module) in *.
  set (a := split_on DOT M). set (b := split_on DOT qualname) in *.
  assert (Ha : a <> []) by apply split_on_nonnil.
  assert (Hb : b <> []) by apply split_on_nonnil.
  assert (La : 1 <= length a) by (destruct a; [contradiction|simpl; lia]).
  assert (Lb : 1 <= length b) by (destruct b; [contradiction|simpl; lia]).
  rewrite (load_splits_found w (a ++ b) (length a) v); auto.
  - exists m. rewrite firstn_split_app, skipn_split_app. split; auto.
    unfold a. rewrite join_split. unfold M. rewrite translate_idem. exact HI.
  - rewrite app_length. lia.
  - intros i Hi. apply HA. fold a b. rewrite app_length in Hi |- *. lia.
Qed.

Lemma loadclass_importable_class w classes c :
  c_types_name (w_cls w c) = None ->
  importable w (c_module (w_cls w c)) (c_qualname (w_cls w c)) (VType c) ->
  from_classes classes (importable_name (w_cls w c)) = None ->
  loadclass w classes (JStr (importable_name (w_cls w c))) = Ret (VType c).
Proof.
  intros HT HI. unfold importable_name. rewrite HT. intros HC. cbn [loadclass].
  apply importable_resolves; auto.
Qed.
Lemma loadclass_importable_fun w classes f :
  importable w (f_module (w_fun w f)) (f_qualname (w_fun w f)) (VFun f) ->
  from_classes classes (importable_fname (w_fun w f)) = None ->
  loadclass w classes (JStr (importable_fname (w_fun w f))) = Ret (VFun f).
Proof. intros HI HC. unfold importable_fname in *. cbn [loadclass]. apply importable_resolves; auto. Qed.

Lemma loadclass_prefixes w1 w2 classes s :
  (forall i, 1 <= i < length (split_on DOT s) ->
     w_import w1 (translate_module_name (join_with DOT (firstn i (split_on DOT s)))) =
     w_import w2 (translate_module_name (join_with DOT (firstn i (split_on DOT s))))) ->
  w_getattr w1 = w_getattr w2 -> w_nonetype w1 = w_nonetype w2 ->
  loadclass w1 classes (JStr s) = loadclass w2 classes (JStr s).
Proof.
  intros HI HG HN. cbn [loadclass]. unfold loadclass_str.
  destruct (from_classes classes s); auto.
  rewrite (load_splits_ext w1 w2) by (auto; intros i Hi; apply HI; lia).
  rewrite HN. reflexivity.
Qed.

(** ** C23 *)
(** Specification: the bindings a [classes] argument contributes, in order. *)
Fixpoint bindings (w : world) (c : carg) : list (pystr * val) :=
  match c with
  | CAOne c => [(importable_name (w_cls w c), VType c)]
  | CASeq l => flat_map (bindings w) l
  | CADict d => map (fun e => (match fst e with inl s => s | inr c => importable_name (w_cls w c) end, snd e)) d
  end.
Definition last_binding (n : pystr) (l : list (pystr * val)) : option val := sget n (rev l).

Section carg_ind.
  Variable P : carg -> Prop.
  Hypothesis H1 : forall c, P (CAOne c).
  Hypothesis H2 : forall l, Forall P l -> P (CASeq l).
  Hypothesis H3 : forall d, P (CADict d).
  Fixpoint carg_ind' (c : carg) : P c :=
    match c with
    | CAOne c => H1 c
    | CASeq l => H2 l ((fix go (l : list carg) : Forall P l :=
        match l with [] => Forall_nil _ | x :: r => Forall_cons _ (carg_ind' x) (go r) end) l)
    | CADict d => H3 d
    end.
End carg_ind.

Lemma register_classes_bindings w c : forall t,
  register_classes w c t = fold_left (fun t b => sset (fst b) (snd b) t) (bindings w c) t.
Proof.
  induction c as [c|l IH|d] using carg_ind'; intros t; cbn [register_classes bindings].
  - reflexivity.
  - revert t. induction IH as [|x l Hx Hl IHl]; intros t; simpl; auto.
    rewrite fold_left_app, <- Hx. apply IHl.
  - revert t. induction d as [|[[s|c] v] d IHd]; intros t; simpl; auto.
Qed.
Lemma fold_sset_last l : forall t n,
  sget n (fold_left (fun t b => sset (fst b) (snd b) t) l t) =
  match last_binding n l with Some v => Some v | None => sget n t end.
Proof.
  unfold last_binding. induction l as [|[k v] l IH]; intros t n; simpl; auto.
  rewrite IH, sget_app. destruct (sget n (rev l)) eqn:E; auto.
  simpl. destruct (seqb_spec n k) as [->|N].
  - rewrite sget_sset_same. reflexivity.
  - rewrite sget_sset_other; auto.
Qed.
Lemma register_classes_last w c n :
  sget n (register_classes w c []) = last_binding n (bindings w c).
Proof. rewrite register_classes_bindings, fold_sset_last. destruct (last_binding n (bindings w c)); reflexivity. Qed.

Lemma classes_win w wi cl n v :
  last_binding n (bindings w cl) = Some v ->
  loadclass wi (register_classes w cl []) (JStr n) = Ret v.
Proof.
  intros H. cbn [loadclass]. unfold loadclass_str, from_classes. rewrite register_classes_last, H. reflexivity.
Qed.
