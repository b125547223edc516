(** Property theorems about the backend manager: C26, C27, C28. *)
From Verif Require Import PyStr Json Base Backend BackendProofs.
Open Scope nat_scope.

(** Every state reached from a successfully created JSONBackend by any calls is well formed. *)
Theorem C27_reachable_wf : forall e fall v s0 ops,
  fst (binit e fall v s0) = Ret tt -> bwf (brun e ops (snd (binit e fall v s0))).
Proof. exact (fun e fall v s0 ops H => wf_run e ops _ (proj1 (binit_ok e fall v s0 H))). Qed.
Print Assumptions C27_reachable_wf.

(** C26: encode with fallthrough: backends are tried in order, each of [tried] failed with an
    ordinary exception, [n] is the first that did not (or the last); its outcome is the result;
    the calls made are exactly those of [tried ++ [n]]. *)
Theorem C26_encode_fallthrough : forall e o i p s, bwf s -> b_names s <> [] -> b_fall s = true ->
  exists tried n rest s',
    b_names s = tried ++ n :: rest /\
    (forall m, In m tried -> exists x, enc_outcome e (enc_call s o i p m) = Exc x /\ is_Exception x = true) /\
    (forall x, enc_outcome e (enc_call s o i p n) = Exc x -> is_Exception x = true -> rest = []) /\
    bencode e o i p s = (res_map Some (enc_outcome e (enc_call s o i p n)), s') /\
    same_but s s' /\
    b_log s' = b_log s ++ flat_map (fun m => opt_list (enc_call s o i p m)) (tried ++ [n]).
Proof. exact bencode_fall. Qed.
Print Assumptions C26_encode_fallthrough.

Theorem C26_encode_preferred_only : forall e o i p s n rest, bwf s -> b_names s = n :: rest -> b_fall s = false ->
  exists s', bencode e o i p s = (res_map Some (enc_outcome e (enc_call s o i p n)), s') /\ same_but s s' /\
    b_log s' = b_log s ++ opt_list (enc_call s o i p n).
Proof. exact bencode_nofall. Qed.
Print Assumptions C26_encode_preferred_only.

(** C26: decode falls through only on the declared error of the backend that failed. *)
Theorem C26_decode_fallthrough : forall e t s, bwf s -> (forall n, In n (b_names s) -> sget n (b_exc s) <> None) ->
  b_names s <> [] -> b_fall s = true ->
  exists tried n rest s',
    b_names s = tried ++ n :: rest /\
    (forall m, In m tried -> exists x, dec_outcome e (dec_call s t m) = Exc x /\ declared e s m x) /\
    (forall x, dec_outcome e (dec_call s t n) = Exc x -> declared e s n x -> rest = []) /\
    bdecode e t s = (res_map Some (dec_outcome e (dec_call s t n)), s') /\
    same_but s s' /\
    b_log s' = b_log s ++ flat_map (fun m => opt_list (dec_call s t m)) (tried ++ [n]).
Proof. exact bdecode_fall. Qed.
Print Assumptions C26_decode_fallthrough.

Theorem C26_decode_preferred_only : forall e t s n rest, bwf s -> b_names s = n :: rest -> b_fall s = false ->
  exists s', bdecode e t s = (res_map Some (dec_outcome e (dec_call s t n)), s') /\ same_but s s' /\
    b_log s' = b_log s ++ opt_list (dec_call s t n).
Proof. exact bdecode_nofall. Qed.
Print Assumptions C26_decode_preferred_only.

(** C27: without any loaded backend encode and decode raise AssertionError; with one they
    do not raise it themselves (C26 gives the outcome). *)
Theorem C27_no_backend : forall e s o i p t, bwf s -> b_names s = [] ->
  bencode e o i p s = (Exc EAssertion, s) /\ bdecode e t s = (Exc EAssertion, s).
Proof. exact (fun e s o i p t W N => conj (bencode_none e o i p s W N) (bdecode_none e t s W N)). Qed.
Print Assumptions C27_no_backend.

(** C27: after any history that loads no backend twice, each listed backend has an encoder,
    a decoder and a declared error, and is listed once. *)
Theorem C27_listed_complete : forall e fall v s0 ops,
  fst (binit e fall v s0) = Ret tt -> clean e ops (snd (binit e fall v s0)) ->
  bgood (brun e ops (snd (binit e fall v s0))).
Proof.
  exact (fun e fall v s0 ops H C =>
    good_run e ops _ (proj1 (binit_ok e fall v s0 H)) (proj1 (proj2 (binit_ok e fall v s0 H))) C).
Qed.
Print Assumptions C27_listed_complete.

(** C27: load_backend returns True if the module and all that is asked of it are found, False
    only because something is missing, and passes on every other error. *)
Inductive leads (ga : nat -> pystr -> res nat) : nat -> list pystr -> nat -> Prop :=
| le_nil m : leads ga m [] m
| le_cons m a r m1 m2 : ga m a = Ret m1 -> leads ga m1 r m2 -> leads ga m (a :: r) m2.
Theorem C27_load_true : forall e n d l x s,
  fst (load_backend e n d l x s) = Ret true <->
  exists top m f g, be_import e n = Ret top /\ leads (be_getattr e) top (tl (split_on 46%N n)) m /\
    be_getattr e m d = Ret f /\ be_getattr e m l = Ret g /\ match x with inl a => exists h, be_getattr e m a = Ret h | inr _ => True end.
Proof.
  intros e n d l x s.
  assert (L : forall names top m, leads (be_getattr e) top names m <-> getattrs_ e top names = Ret m).
  { induction names as [|a r IH]; intros top m; cbn [getattrs_].
    - split; [intros H; inversion H; auto|intros H; inversion H; constructor].
    - destruct (be_getattr e top a) as [m1|ex|] eqn:G.
      + rewrite <- IH. split; [intros H; inversion H; subst; congruence|intros H; econstructor; eauto].
      + split; [intros H; inversion H; congruence|discriminate].
      + split; [intros H; inversion H; congruence|discriminate]. }
  unfold load_backend. destruct (be_import e n) as [top|ex|].
  2:{ split; [destruct (is_ImportError ex); discriminate|intros (t & m & f & g & H & _); discriminate]. }
  2:{ split; [discriminate|intros (t & m & f & g & H & _); discriminate]. }
  destruct (getattrs_ e top (tl (split_on 46%N n))) as [m|ex|] eqn:GA.
  2:{ split; [destruct (is_AttributeError ex); discriminate|intros (t & m & f & g & H & H1 & _); inversion H; subst; apply L in H1; congruence]. }
  2:{ split; [discriminate|intros (t & m & f & g & H & H1 & _); inversion H; subst; apply L in H1; congruence]. }
  assert (SO : forall put m' a s1, (exists f, be_getattr e m' a = Ret f /\ store e put n m' a s1 = (Ret true, put f s1)) \/
    ((forall f, be_getattr e m' a <> Ret f) /\ fst (store e put n m' a s1) <> Ret true)).
  { intros put m' a s1. unfold store, catch, bind, lift, modify, ret. destruct (be_getattr e m' a) as [f|ex|].
    - left. exists f. auto.
    - right. split; [discriminate|]. destruct (is_AttributeError ex); [|discriminate].
      destruct (remove_backend n s1) as [[]]; discriminate.
    - right. split; [discriminate|]. discriminate. }
  assert (U : forall t m', Ret top = Ret t -> leads (be_getattr e) t (tl (split_on 46%N n)) m' -> m' = m)
    by (intros t m' Ht Hl; inversion Ht; subst; apply L in Hl; congruence).
  assert (B : forall (A B : Type) (c : M bst A) (k : A -> M bst B) s1 b, fst (bind c k s1) = Ret b -> exists a s2, c s1 = (Ret a, s2) /\ fst (k a s2) = Ret b).
  { intros A0 B0 c k s1 b H. unfold bind in H. destruct (c s1) as [[a| |] s2]; try discriminate. eauto. }
  destruct (SO (fun f s => bs_enc (sset n f (b_enc s)) s) m d s) as [(f & Hf & E)|[N E]].
  2:{ split; [|intros (t & m' & f & g & Ht & Hl & Hf & _); rewrite (U t m' Ht Hl) in Hf; destruct (N f Hf)].
      intros H. apply B in H. destruct H as (a & s2 & Ea & H). rewrite Ea in E. destruct a; [destruct E; reflexivity|discriminate]. }
  rewrite (bind_eq _ _ _ _ _ E). cbn [negb]. clear E.
  match goal with |- context [bind (store e ?p n m l) _ ?s1] => destruct (SO p m l s1) as [(g & Hg & E)|[N E]] end.
  2:{ split; [|intros (t & m' & f' & g & Ht & Hl & _ & Hg & _); rewrite (U t m' Ht Hl) in Hg; destruct (N g Hg)].
      intros H. apply B in H. destruct H as (a & s2 & Ea & H). rewrite Ea in E. destruct a; [destruct E; reflexivity|discriminate]. }
  rewrite (bind_eq _ _ _ _ _ E). cbn [negb]. clear E. destruct x as [a|k].
  - match goal with |- context [bind (store e ?p n m a) _ ?s1] => destruct (SO p m a s1) as [(h & Hh & E)|[N E]] end.
    2:{ split; [|intros (t & m' & f' & g' & Ht & Hl & _ & _ & h & Hh); rewrite (U t m' Ht Hl) in Hh; destruct (N h Hh)].
        intros H. apply B in H. destruct H as (b & s2 & Ea & H). rewrite Ea in E. destruct b; [destruct E; reflexivity|discriminate]. }
    rewrite (bind_eq _ _ _ _ _ E). cbn [negb]. clear E. split; [|reflexivity]. intros _. exists top, m, f, g. rewrite (L _ _ _). eauto 10.
  - split; [|reflexivity]. intros _. exists top, m, f, g. rewrite (L _ _ _). eauto 10.
Qed.
Print Assumptions C27_load_true.
Theorem C27_load_false : forall e n d l x s,
  fst (load_backend e n d l x s) = Ret false ->
  (exists y, be_import e n = Exc y /\ is_ImportError y = true) \/
  (exists m a y, be_getattr e m a = Exc y /\ is_AttributeError y = true).
Proof.
  intros e n d l x s. unfold load_backend. destruct (be_import e n) as [top|ex|]; [| |discriminate].
  2:{ destruct (is_ImportError ex) eqn:I; [eauto|discriminate]. }
  assert (L : forall names t y, getattrs_ e t names = Exc y -> exists m a, be_getattr e m a = Exc y).
  { induction names as [|a r IH]; intros t y H; cbn [getattrs_] in H; [discriminate|].
    destruct (be_getattr e t a) eqn:G; try discriminate; eauto. inversion H; subst. eauto. }
  destruct (getattrs_ e top (tl (split_on 46%N n))) as [m|ex|] eqn:GA; [| |discriminate].
  2:{ destruct (is_AttributeError ex) eqn:I; [|discriminate]. intros _. right. destruct (L _ _ _ GA) as (m & a & G). eauto. }
  assert (SO : forall put m' a s1, (exists s2, store e put n m' a s1 = (Ret true, s2)) \/
    ((exists y, be_getattr e m' a = Exc y /\ is_AttributeError y = true) /\ exists s2, store e put n m' a s1 = (Ret false, s2)) \/
    (forall b, fst (store e put n m' a s1) <> Ret b)).
  { intros put m' a s1. unfold store, catch, bind, lift, modify, ret. destruct (be_getattr e m' a) as [f|ex|].
    - left. eauto.
    - right. destruct (is_AttributeError ex) eqn:I; [|right; discriminate].
      left. split; [eauto|]. unfold remove_backend, bind, modify. eauto.
    - right. right. discriminate. }
  assert (BN : forall (A B : Type) (c : M bst A) (k : A -> M bst B) s1 b, (forall a, fst (c s1) <> Ret a) -> fst (bind c k s1) <> Ret b).
  { intros A0 B0 c k s1 b H. unfold bind. destruct (c s1) as [[a| |] s2]; try discriminate. destruct (H a). reflexivity. }
  destruct (SO (fun f s => bs_enc (sset n f (b_enc s)) s) m d s) as [(s2 & E)|[[(y & Hy) _]|N]]; [|eauto 6|intros H; destruct (BN _ _ _ _ _ _ N H)].
  rewrite (bind_eq _ _ _ _ _ E). cbn [negb]. clear E.
  match goal with |- context [bind (store e ?p n m l) _ ?s1] => destruct (SO p m l s1) as [(s3 & E)|[[(y & Hy) _]|N]] end;
    [|eauto 6|intros H; destruct (BN _ _ _ _ _ _ N H)].
  rewrite (bind_eq _ _ _ _ _ E). cbn [negb]. clear E. destruct x as [a|k]; [|discriminate].
  match goal with |- context [bind (store e ?p n m a) _ ?s1] => destruct (SO p m a s1) as [(s4 & E)|[[(y & Hy) _]|N]] end;
    [|eauto 6|intros H; destruct (BN _ _ _ _ _ _ N H)].
  rewrite (bind_eq _ _ _ _ _ E). discriminate.
Qed.
Print Assumptions C27_load_false.

Theorem C27_prefer : forall n s, In n (b_names s) ->
  fst (set_preferred n s) = Ret tt /\ hd_error (b_names (snd (set_preferred n s))) = Some n /\
  (forall m, In m (b_names (snd (set_preferred n s))) <-> In m (b_names s)).
Proof. exact prefer_first. Qed.
Print Assumptions C27_prefer.
Theorem C27_prefer_missing : forall n s, ~ In n (b_names s) -> set_preferred n s = (Exc EAssertion, s).
Proof. exact prefer_missing. Qed.
Print Assumptions C27_prefer_missing.

(** C27: it stays first whatever is called, until another backend is preferred or it is removed
    or loaded again. *)
Theorem C27_preferred_stays_first : forall e n ops s, bwf s -> Forall (keeps_first n) ops ->
  hd_error (b_names s) = Some n -> hd_error (b_names (brun e ops s)) = Some n.
Proof. exact (fun e n ops s => first_run e n ops s). Qed.
Print Assumptions C27_preferred_stays_first.

Theorem C27_remove_forgets : forall n s, bwf s -> NoDup (b_names s) ->
  let s' := snd (remove_backend n s) in
  ~ In n (b_names s') /\ sget n (b_enc s') = None /\ sget n (b_dec s') = None /\ sget n (b_exc s') = None /\
  sget n (b_eopts s') = None /\ sget n (b_dopts s') = None /\
  forall m, m <> n -> (In m (b_names s') <-> In m (b_names s)) /\ sget m (b_enc s') = sget m (b_enc s) /\
    sget m (b_dec s') = sget m (b_dec s) /\ sget m (b_exc s') = sget m (b_exc s) /\
    stored (b_eopts s') s' m = stored (b_eopts s) s m /\ stored (b_dopts s') s' m = stored (b_dopts s) s m.
Proof. exact remove_forgets. Qed.
Print Assumptions C27_remove_forgets.

(** C28: the options passed to backend n are those last set for it, after any calls that do not
    concern n's options, with indent and separators overriding for this call. *)
Theorem C28_encoder_options : forall e n a kw ops s f o i p, bwf s -> Forall (keeps_opts n) ops ->
  let s' := brun e ops (snd (set_encoder_options n a kw s)) in
  sget n (b_enc s') = Some f -> enc_call s' o i p n = Some (BEnc f o a (override i p kw)).
Proof. exact enc_call_after_set. Qed.
Print Assumptions C28_encoder_options.
Theorem C28_decoder_options : forall e n a kw ops s f t, bwf s -> Forall (keeps_opts n) ops ->
  let s' := brun e ops (snd (set_decoder_options n a kw s)) in
  sget n (b_dec s') = Some f -> dec_call s' t n = Some (BDec f t a kw).
Proof. exact dec_call_after_set. Qed.
Print Assumptions C28_decoder_options.
(** C28: encode and decode change nothing that is stored. *)
Theorem C28_encode_keeps_state : forall e o i p s, bwf s -> same_but s (snd (bencode e o i p s)).
Proof. exact encode_same. Qed.
Print Assumptions C28_encode_keeps_state.
Theorem C28_decode_keeps_state : forall e t s, bwf s -> same_but s (snd (bdecode e t s)).
Proof. exact decode_same. Qed.
Print Assumptions C28_decode_keeps_state.

(** ** Cases *)
(** json and ujson can be imported, simplejson cannot; function 10 (json.dumps) rejects
    object 99 with TypeError, 20 (ujson.dumps) accepts everything. *)
Definition env0 : benv :=
  {| be_import := fun n => if seqb n (u "json") then Ret 1 else if seqb n (u "ujson") then Ret 2 else Exc EImportError;
     be_getattr := fun m a => if seqb a (u "dumps") then Ret (10 * m) else if seqb a (u "loads") then Ret (10 * m + 1)
                              else Exc EAttributeError;
     be_encode := fun f o a k => if (f =? 10) && (o =? 99) then Exc ETypeError else Ret (u "text");
     be_decode := fun f t a k => if f =? 11 then Exc EValueError else Exc EKeyError;
     be_isinst := fun _ x => is_ValueError x;
     be_valueerror := 7 |}.
Definition B0 : bst := snd (binit env0 true 0 (empty_bst true)).
Example C27_init_ok : fst (binit env0 true 0 (empty_bst true)) = Ret tt.
Proof. reflexivity. Qed.
Example C27_init_names : b_names B0 = [u "json"; u "ujson"].
Proof. vm_compute. reflexivity. Qed.
Example C26_case : fst (bencode env0 99 (Some 4) None B0) = Ret (Some (u "text")) /\ length (b_log (snd (bencode env0 99 (Some 4) None B0))) = 2.
Proof. vm_compute. auto. Qed.
(** The decode error of json is declared, so ujson is tried; its KeyError is not. *)
Example C26_decode_case : fst (bdecode env0 (u "x") B0) = Exc EKeyError /\ length (b_log (snd (bdecode env0 (u "x") B0))) = 2.
Proof. vm_compute. auto. Qed.
Example C27_clean_case : clean env0 [OpRemove (u "json"); OpLoad (u "json") (u "dumps") (u "loads") (inr 7); OpPrefer (u "json")] B0.
Proof. vm_compute. repeat split; auto. intros [H|[]]. discriminate. Qed.
Example C28_case : enc_call (brun env0 [OpEncode 1 None None; OpPrefer (u "ujson")] (snd (set_encoder_options (u "json") [] [(u "indent", 2); (u "sort_keys", 1)] B0)))
    5 (Some 4) None (u "json") = Some (BEnc 10 5 [] [(u "indent", 4); (u "sort_keys", 1)]).
Proof. vm_compute. reflexivity. Qed.

Example C27_load_case :
  fst (load_backend env0 (u "json") (u "dumps") (u "loads") (inr 7) B0) = Ret true /\
  fst (load_backend env0 (u "simplejson") (u "dumps") (u "loads") (inr 7) B0) = Ret false /\
  fst (load_backend env0 (u "json") (u "encode") (u "loads") (inr 7) B0) = Ret false.
Proof. vm_compute. auto. Qed.
(** C27 in general is false: loading a loaded backend lists it twice; removing it then leaves it
    listed without encoder, and encode raises KeyError. *)
Theorem C27_double_load_refuted : exists ops,
  let s := brun env0 ops B0 in
  In (u "json") (b_names s) /\ sget (u "json") (b_enc s) = None /\
  fst (bencode env0 5 None None s) = Exc EKeyError.
Proof.
  exists [OpFall false; OpRemove (u "ujson"); OpLoad (u "json") (u "dumps") (u "loads") (inr 7); OpRemove (u "json")].
  vm_compute. auto.
Qed.
Print Assumptions C27_double_load_refuted.
