(** C46 (pandas): run lengths and payloads. *)
From Verif Require Import PyStr B64 Json Base Utf8 Pandas.
Open Scope nat_scope.

(** Runs as they should be: positive lengths, neighbours different. *)
Fixpoint good_runs {A} (l : list (A * nat)) : Prop :=
  match l with
  | [] => True
  | (t, n) :: r => 1 <= n /\ match r with (t', _) :: _ => t <> t' | [] => True end /\ good_runs r
  end.
(** What runs stand for. *)
Definition expand {A} (l : list (A * nat)) : list A := concat (map (fun tn => repeat (fst tn) (snd tn)) l).

Section rle.
  Context {A : Type} (eqb : A -> A -> bool).
  Hypothesis Heq : forall a b, eqb a b = true <-> a = b.
  Lemma decode_expand (l : list (A * nat)) : rle_decode l = expand l.
  Proof.
    assert (H : forall d, rle_decode_loop d l = d ++ expand l).
    { unfold expand. induction l as [|[t n] l IH]; intros d; cbn [rle_decode_loop map concat fst snd]; [rewrite app_nil_r; auto|].
      rewrite IH, app_assoc. reflexivity. }
    apply H.
  Qed.
  Lemma expand_app (a b : list (A * nat)) : expand (a ++ b) = expand a ++ expand b.
  Proof. unfold expand. rewrite map_app, concat_app. reflexivity. Qed.
  Lemma loop_expand r : forall (t : A) n enc, expand (rle_loop eqb t n enc r) = expand enc ++ repeat t n ++ r.
  Proof.
    induction r as [|x r IH]; intros t n enc; cbn [rle_loop].
    - rewrite expand_app. unfold expand at 2. cbn [map concat fst snd]. reflexivity.
    - destruct (eqb x t) eqn:E.
      + apply Heq in E. subst. rewrite IH. f_equal. cbn [repeat]. rewrite repeat_cons, <- app_assoc. reflexivity.
      + rewrite IH, expand_app. unfold expand at 2. cbn [map concat fst snd repeat app]. rewrite app_nil_r, <- !app_assoc. reflexivity.
  Qed.
  Lemma loop_good r : forall (t : A) n enc, 1 <= n ->
    good_runs (enc ++ [(t, n)]) -> good_runs (rle_loop eqb t n enc r).
  Proof.
    induction r as [|x r IH]; intros t n enc L G; cbn [rle_loop]; auto. destruct (eqb x t) eqn:E.
    - apply IH; [lia|]. clear - G. induction enc as [|[a b] enc IHe]; cbn in *; [repeat split; lia|].
      destruct G as (G1 & G2 & G3). split; auto. split; [|auto]. destruct enc as [|[]]; auto.
    - apply IH; [lia|]. assert (N : t <> x) by (intros ->; rewrite (proj2 (Heq x x) eq_refl) in E; discriminate).
      clear - G N. rewrite <- app_assoc. cbn [app]. induction enc as [|[a b] enc IHe]; cbn in *.
      + destruct G as (G1 & _ & _). repeat split; auto.
      + destruct G as (G1 & G2 & G3). split; auto. split; [|auto]. destruct enc as [|[]]; auto.
  Qed.
  Lemma runs_unique (a : list (A * nat)) : forall b, good_runs a -> good_runs b -> expand a = expand b -> a = b.
  Proof.
    assert (Hd : forall t n (r : list (A * nat)), 1 <= n -> expand ((t, n) :: r) = t :: expand ((t, n - 1) :: r)).
    { intros t n r L. destruct n; [lia|]. unfold expand. cbn [map concat fst snd repeat app]. rewrite Nat.sub_succ, Nat.sub_0_r. reflexivity. }
    assert (X : forall n m t (r r' : list (A * nat)), good_runs r -> good_runs r' ->
      match r with (x, _) :: _ => t <> x | [] => True end -> match r' with (x, _) :: _ => t <> x | [] => True end ->
      repeat t n ++ expand r = repeat t m ++ expand r' -> n = m /\ expand r = expand r').
    { assert (F : forall t (r : list (A * nat)) s, good_runs r -> match r with (x, _) :: _ => t <> x | [] => True end -> expand r <> t :: s).
      { intros t [|[x n] r] s G N E; [discriminate|]. destruct G as (G1 & _). rewrite Hd in E; auto. inversion E. congruence. }
      induction n as [|n IH]; intros [|m] t r r' G G' N N' E; cbn [repeat app] in E; auto.
      - exfalso. exact (F t r _ G N E).
      - exfalso. exact (F t r' _ G' N' (eq_sym E)).
      - inversion E. destruct (IH m t r r' G G' N N' H0). auto. }
    induction a as [|[t n] a IH]; intros [|[t' m] b] G G' E; auto.
    - destruct G' as (G' & _). rewrite Hd in E; auto. discriminate.
    - destruct G as (G & _). rewrite Hd in E; auto. discriminate.
    - pose proof G as Ga. pose proof G' as Gb. destruct G as (G1 & G2 & G3). destruct G' as (G1' & G2' & G3').
      assert (t = t'). { rewrite (Hd t n a G1), (Hd t' m b G1') in E. inversion E; auto. } subst t'.
      destruct (X n m t a b) as [-> E']; auto. f_equal. apply IH; auto.
  Qed.
End rle.

(** C46, run lengths: decoding gives the list back; the runs are maximal and positive, and
    are the only such runs that stand for the list. *)
Theorem C46_rle_roundtrip :
  forall A (eqb : A -> A -> bool) l, (forall a b, eqb a b = true <-> a = b) -> rle_decode (rle_encode eqb l) = l.
Proof.
  intros A eqb l H. rewrite decode_expand. destruct l as [|t r]; [reflexivity|]. unfold rle_encode. rewrite (loop_expand eqb H). reflexivity.
Qed.
Print Assumptions C46_rle_roundtrip.
Theorem C46_rle_runs :
  forall A (eqb : A -> A -> bool) l, (forall a b, eqb a b = true <-> a = b) ->
  good_runs (rle_encode eqb l) /\ forall r, good_runs r -> expand r = l -> r = rle_encode eqb l.
Proof.
  intros A eqb l H. assert (G : good_runs (rle_encode eqb l)).
  { destruct l as [|t r]; [exact I|]. unfold rle_encode. apply (loop_good eqb H); [lia|]. cbn. repeat split; lia. }
  split; auto. intros r Gr E. eapply runs_unique with (eqb := eqb); auto. rewrite E, <- decode_expand. symmetry. apply C46_rle_roundtrip. auto.
Qed.
Print Assumptions C46_rle_runs.
Example C46_rle_case :
  rle_encode seqb (map u ["np/i"; "np/i"; "py/jp"; "np/i"; "np/f"; "np/f"; "np/f"]%string) =
  [(u "np/i", 2); (u "py/jp", 1); (u "np/i", 1); (u "np/f", 3)].
Proof. vm_compute. reflexivity. Qed.

(** C46, payloads: any text and any metadata come back, at any threshold, with any
    compression that can be undone.  The dict handed over must not yet have a "comp" entry. *)
Theorem C46_payload :
  forall p buf data meta d, sget (u "comp") data = None ->
  (forall c dc b, pr_compression p = Some (c, dc) -> dc (c b) = Ret b) ->
  flatten_pandas p buf data meta = Ret d -> restore_pandas p d = Ret (BStr buf, meta).
Proof.
  intros p buf data meta d Nc Hc. unfold flatten_pandas. cbv zeta.
  assert (G : forall a b (x : jobj) v, a <> b -> sget a (sset b v x) = sget a x) by (intros; apply sget_sset_other; auto).
  destruct (match pr_threshold p with Some t => t <? length buf | None => false end).
  - destruct (pr_compression p) as [[c dc]|] eqn:C; [|discriminate]. destruct (utf8_encode buf) as [b| |] eqn:E; try discriminate.
    intros H. apply (f_equal (fun r => match r with Ret x => x | _ => [] end)) in H. subst d. unfold restore_pandas. cbv zeta.
    rewrite sget_sset_same. rewrite (G (u "txt") (u "meta")) by discriminate. rewrite sget_sset_same. cbn [jtruthy].
    rewrite (G (u "values") (u "meta")), (G (u "values") (u "txt")) by discriminate. rewrite sget_sset_same.
    rewrite (G (u "comp") (u "meta")), (G (u "comp") (u "txt")), (G (u "comp") (u "values")) by discriminate. rewrite sget_sset_same. cbn [jtruthy].
    replace (existsb (fun c0 : N => (128 <=? c0)%N) (b64encode (c b))) with false.
    + rewrite b64_roundtrip, C, (Hc c dc b eq_refl), (utf8_roundtrip buf b E). reflexivity.
    + symmetry. pose proof (b64encode_ascii (c b)) as F. induction F as [|x l [Hx1 Hx2] F IH]; auto. cbn [existsb]. rewrite IH, orb_false_r.
      apply N.leb_gt. lia.
  - intros H. apply (f_equal (fun r => match r with Ret x => x | _ => [] end)) in H. subst d. unfold restore_pandas. cbv zeta.
    rewrite sget_sset_same. rewrite (G (u "txt") (u "meta")) by discriminate. rewrite sget_sset_same. cbn [jtruthy].
    rewrite (G (u "values") (u "meta")), (G (u "values") (u "txt")) by discriminate. rewrite sget_sset_same. reflexivity.
Qed.
Print Assumptions C46_payload.
(** flatten_pandas succeeds if there is a compression module or no threshold, on every text
    without lone surrogates (U+D800 to U+DFFF); with one, it fails if and only if the text is
    longer than the threshold. *)
Theorem C46_payload_total :
  forall p buf data meta, Forall (fun c => (c < 55296 \/ 57343 < c /\ c < 1114112)%N) buf ->
  pr_compression p <> None \/ pr_threshold p = None -> exists d, flatten_pandas p buf data meta = Ret d.
Proof.
  intros p buf data meta F H. unfold flatten_pandas. destruct (utf8_encode_total buf) as (b & E).
  { eapply Forall_impl; [|exact F]. cbv beta. lia. }
  { unfold utf8_ok. apply forallb_forall. intros c I. rewrite Forall_forall in F. specialize (F c I). cbv beta in F.
    apply negb_true_iff. unfold is_surrogate. apply andb_false_iff. rewrite !N.leb_gt. lia. }
  rewrite E. destruct (pr_threshold p) as [t|].
  - destruct (t <? length buf); [|eexists; reflexivity]. destruct (pr_compression p) as [[]|]; [eexists; reflexivity|]. destruct H; congruence.
  - eexists; reflexivity.
Qed.
Print Assumptions C46_payload_total.
Theorem C46_surrogates :
  forall p buf data meta c, In c buf -> (55296 <= c <= 57343)%N -> pr_compression p <> None ->
  ((exists t, pr_threshold p = Some t /\ t < length buf) <-> exists e, flatten_pandas p buf data meta = Exc e).
Proof.
  intros p buf data meta c I R H. assert (E : exists e, utf8_encode buf = Exc e).
  { clear - I R. induction buf as [|x buf IH]; [destruct I|]. cbn [utf8_encode]. destruct I as [->|I].
    - assert (X : utf8_char c = None).
      { unfold utf8_char. replace (c <? 128)%N with false by (symmetry; apply N.ltb_ge; lia).
        replace (c <? 2048)%N with false by (symmetry; apply N.ltb_ge; lia). unfold is_surrogate.
        replace (55296 <=? c)%N with true by (symmetry; apply N.leb_le; lia).
        replace (c <=? 57343)%N with true by (symmetry; apply N.leb_le; lia). reflexivity. }
      rewrite X. eauto.
    - destruct (IH I) as (e & E). rewrite E. destruct (utf8_char x); eauto. }
  destruct E as (e & E). unfold flatten_pandas. rewrite E. destruct (pr_threshold p) as [t|].
  - destruct (Nat.ltb_spec t (length buf)) as [L|L].
    + destruct (pr_compression p) as [[]|]; [|congruence]. split; eauto.
    + split; [intros (t' & E' & L'); inversion E'; subst; lia|intros (x & X); discriminate].
  - split; [intros (t & X & _); discriminate|intros (x & X); discriminate].
Qed.
Print Assumptions C46_surrogates.
(** compression=None, documented as "no compression is applied", fails above the threshold. *)
Theorem C46_no_compression_refuted :
  exists p buf, pr_compression p = None /\ flatten_pandas p buf [] JNull = Exc ETypeError.
Proof. exists (mkProc (Some 2) None), (u "a,b"). split; reflexivity. Qed.
Print Assumptions C46_no_compression_refuted.
Definition proc_id : processor := mkProc (Some 3) (Some (fun b => rev b, fun b => Ret (rev b))).
Example C46_payload_case :
  flatten_pandas proc_id [97; 233; 8364; 128512]%N [(u "py/object", JStr (u "df"))] (JObj [(u "x", JInt 1)]) =
    Ret [(u "py/object", JStr (u "df")); (u "comp", JBool true); (u "values", JStr (u "gJif8KyC4qnDYQ==")); (u "txt", JBool false); (u "meta", JObj [(u "x", JInt 1)])] /\
  forall c dc b, pr_compression proc_id = Some (c, dc) -> dc (c b) = Ret b.
Proof. split; [vm_compute; reflexivity|]. intros c dc b H. inversion H. cbv beta. rewrite rev_involutive. reflexivity. Qed.
