(** C45: objects of standard library types round trip through jsonpickle's own handlers. *)
From Verif Require Import PyStr Tags Json JsonText JsonTextProofs Base Heap Registry LoadClass Pickler Unpickler B64 CodecProofs Handlers SpecGraph PGen PTerm RTBase RTMain RTProps Samples PropEncode PropRoundtrip.
Open Scope nat_scope.

(** ** Hexadecimal *)
Lemma hexn_length k : forall n, length (hexn k n) = k.
Proof. induction k; intros n; cbn [hexn]; auto. rewrite app_length, IHk. simpl. lia. Qed.
Lemma hexdigit_cases d : (d < 16)%N -> unhexdigit (hexdigit d) = Some d /\
  (48 <= hexdigit d <= 57 \/ 97 <= hexdigit d <= 102)%N.
Proof.
  intros H. unfold hexdigit, unhexdigit. destruct (N.ltb_spec d 10).
  - replace ((48 <=? 48 + d) && (48 + d <=? 57))%N with true by (symmetry; apply andb_true_iff; split; apply N.leb_le; lia).
    split; [f_equal; lia|]. lia.
  - replace ((48 <=? 87 + d) && (87 + d <=? 57))%N with false by (symmetry; apply andb_false_iff; right; apply N.leb_gt; lia).
    replace ((97 <=? 87 + d) && (87 + d <=? 102))%N with true by (symmetry; apply andb_true_iff; split; apply N.leb_le; lia).
    split; [f_equal; lia|]. lia.
Qed.
Lemma hexn_digits k : forall n, Forall (fun c => 48 <= c <= 57 \/ 97 <= c <= 102)%N (hexn k n).
Proof.
  induction k; intros n; cbn [hexn]; [constructor|]. apply Forall_app. split; auto. constructor; [|constructor].
  apply hexdigit_cases. apply N.mod_lt. discriminate.
Qed.
Lemma unhex_app a : forall acc b, unhex acc (a ++ b) = match unhex acc a with Some n => unhex n b | None => None end.
Proof. induction a as [|c a IH]; intros acc b; cbn [unhex app]; auto. destruct (unhexdigit c); auto. Qed.
Lemma unhex_hexn k : forall n, (n < 16 ^ N.of_nat k)%N -> unhex 0 (hexn k n) = Some n.
Proof.
  induction k; intros n H.
  - cbn [hexn unhex]. f_equal. simpl in H. lia.
  - cbn [hexn]. rewrite unhex_app, IHk.
    + cbn [unhex]. destruct (hexdigit_cases (n mod 16)%N) as [-> _]; [apply N.mod_lt; discriminate|]. f_equal.
      symmetry. apply N.div_mod. discriminate.
    + apply N.div_lt_upper_bound; [discriminate|]. replace (N.of_nat (Datatypes.S k)) with (N.succ (N.of_nat k)) in H by lia. rewrite N.pow_succ_r' in H. exact H.
Qed.
Lemma srem_none c0 r0 s : Forall (fun x => x <> c0) s -> srem (c0 :: r0) 0 s = s.
Proof.
  intros H. induction H as [|x s HX H IH]; auto. cbn [srem prefixb]. destruct (N.eqb_spec c0 x) as [E|_]; [congruence|].
  cbn [andb]. f_equal. exact IH.
Qed.
Lemma lstrip_none s : Forall (fun c => brace c = false) s -> lstrip s = s.
Proof. intros H. destruct H; auto. cbn [lstrip]. rewrite H. reflexivity. Qed.
Lemma uuid_hex n : (n < 2 ^ 128)%N -> uuid_of (hexn 32 n) = Some n.
Proof.
  intros H. pose proof (hexn_digits 32 n) as D. unfold uuid_of.
  change (u "urn:") with (117%N :: u "rn:"). rewrite (srem_none 117%N (u "rn:")) by (eapply Forall_impl; [|exact D]; cbv beta; intros; lia).
  change (u "uuid:") with (117%N :: u "uid:"). rewrite (srem_none 117%N (u "uid:")) by (eapply Forall_impl; [|exact D]; cbv beta; intros; lia).
  unfold strip. assert (B : Forall (fun c => brace c = false) (hexn 32 n)).
  { eapply Forall_impl; [|exact D]. cbv beta. intros c X. unfold brace. apply orb_false_iff. split; apply N.eqb_neq; lia. }
  rewrite (lstrip_none (hexn 32 n)) by exact B. rewrite lstrip_none by (apply Forall_rev; exact B). rewrite rev_involutive.
  change (u "-") with (45%N :: u ""). rewrite (srem_none 45%N (u "")) by (eapply Forall_impl; [|exact D]; cbv beta; intros; lia).
  rewrite hexn_length, Nat.eqb_refl. apply unhex_hexn. exact H.
Qed.

(** ** The handlers meet their contract *)
Definition olist {A} (x : option A) : list A := match x with Some v => [v] | None => [] end.
(** Values of these types. *)
Definition builtin_ok (c : nat) (b : builtin) : Prop :=
  match b with
  | BUuid n => (n < 2 ^ 128)%N
  | BDatetime c' _ tz => c' = c /\ tz <> Some (VType c)
  | BArray tc _ => str_ok tc = true /\ tc <> u "c"
  | BRegex p _ => str_ok p = true
  | BQueue | BLock _ => True
  | BRegexBytes _ _ | BText => False
  end.
Definition constants (b : builtin) : list val :=
  match b with
  | BUuid n => [VInt (Z.of_N n)] | BDatetime _ p _ => [VBytes p] | BArray tc _ => [VStr tc] | BRegex p f => [VStr p; VInt f]
  | BLock l => [VBool l] | _ => []
  end.
Definition contents (b : builtin) : list val :=
  match b with BDatetime _ _ tz => olist tz | BArray _ l => [VLoc l] | _ => [] end.

Lemma handled_builtin w bv iso kd c hd l i : installed w bv iso kd c hd -> i_cls i = c -> c_isfun (w_cls w c) = false ->
  str_ok (importable_name (w_cls w c)) = true -> kind_of (bv l) = kd -> builtin_ok c (bv l) ->
  handled w l i hd (constants (bv l)) (contents (bv l)).
Proof.
  intros (RL & HF & HR) EC NF NM KD OK. unfold handled. rewrite EC. split; [exact NM|]. split; [exact RL|]. split; [exact NF|].
  split; [destruct (bv l); reflexivity|].
  assert (OB : forall a tg, In tg [TUPLE; SET_; B64; B85; BYTEARRAY; ID; ITERATOR] -> In a [u "typecode"; u "values"; u "__reduce__"; u "pattern"; u "flags"; u "hex"; u "locked"] -> a <> tg).
  { intros a tg I1 I2 E. subst a. cbn [In] in I1, I2. repeat (destruct I1 as [<-|I1]; [repeat (destruct I2 as [I2|I2]; [vm_compute in I2; discriminate I2|]); destruct I2|]). destruct I1. }
  assert (OB2 : forall a, In a [u "typecode"; u "values"; u "__reduce__"; u "pattern"; u "flags"; u "hex"; u "locked"] -> ~ In a [TUPLE; SET_; B64; B85; BYTEARRAY; ID; ITERATOR]).
  { intros a I1 I2. exact (OB a a I2 I1 eq_refl). }
  destruct (bv l) as [n|c' p tz|tc vs|p f|p f| |lk|] eqn:B; cbn [builtin_ok] in OK; try contradiction; cbn [constants contents kind_of] in *.
  - exists (fun _ => [(u "hex", JStr (hexn 32 n))]). split; [|intros js L J; split; [|split]].
    + intros ctx. rewrite HF, B by (rewrite B; auto). apply (af_done w c (fun _ => JObj [(OBJECT, _); (u "hex", JStr (hexn 32 n))])).
    + cbn [jwf map fst forallb]. rewrite NM. rewrite (ascii_str_ok (hexn 32 n)); [reflexivity|]. eapply Forall_impl; [|apply hexn_digits]. cbv beta. intros; lia.
    + intros a [<-|[]]. apply OB2. cbn; auto 10.
    + intros ctx. destruct js; [|discriminate L]. rewrite HR, <- KD. unfold brest.
      change (sget (u "hex") _) with (Some (JStr (hexn 32 n))). cbv iota. rewrite uuid_hex by exact OK. apply (ar_done w c (fun vs => _ :: vs)).
  - destruct OK as [-> NT]. exists (fun js => [(u "__reduce__", JList [class_doc w c; JList (JStr (b64encode p) :: js)])]). split; [|intros js L J; split; [|split]].
    + intros ctx. rewrite HF, B by (rewrite B; auto). cbn [bflat]. destruct tz as [v|]; cbn [olist].
      * apply af_val; [congruence|]. intros j. apply af_class. apply (af_done w c (fun js => JObj [_; (_, JList [_; JList (_ :: j :: js)])])).
      * apply af_class. apply (af_done w c (fun js => JObj [_; (_, JList [_; JList (_ :: js)])])).
    + cbn [jwf map fst forallb class_doc]. rewrite NM, J, (ascii_str_ok _ (b64encode_ascii p)). reflexivity.
    + intros a [<-|[]]. apply OB2. cbn; auto 10.
    + intros ctx. rewrite HR, <- KD. unfold brest. change (sget (u "__reduce__") _) with (Some (JList [class_doc w c; JList (JStr (b64encode p) :: js)])). cbv iota.
      apply ar_class. rewrite b64_roundtrip. destruct tz as [v|], js as [|j [|j2 js]]; try discriminate L; cbn [olist restore_all].
      * apply ar_val; [congruence|]. intros v' _. cbn [rev app]. apply (ar_done w c (fun vs => _ :: v' :: vs)).
      * cbn [rev]. apply (ar_done w c (fun vs => _ :: vs)).
  - destruct OK as [OK NC]. exists (fun js => [(u "typecode", JStr tc); (u "values", nth 0 js JNull)]). split; [|intros js L J; split; [|split]].
    + intros ctx. rewrite HF, B by (rewrite B; auto). cbn [bflat]. apply af_val; [discriminate|]. intros j.
      apply (af_done w c (fun js => JObj [_; (_, JStr tc); (_, j)])).
    + destruct js as [|j [|j2 js]]; try discriminate L. cbn [forallb] in J. apply andb_true_iff in J. destruct J as [J _].
      cbn [jwf map fst forallb nth]. rewrite NM, OK, J. reflexivity.
    + intros a [<-|[<-|[]]]; apply OB2; cbn; auto 10.
    + intros ctx. destruct js as [|j [|j2 js]]; try discriminate L. rewrite HR, <- KD. unfold brest. cbn [nth].
      change (sget (u "typecode") _) with (Some (JStr tc)). change (sget (u "values") _) with (Some j). cbv iota.
      destruct (seqb_spec tc (u "c")) as [E|_]; [contradiction|]. apply ar_val; [discriminate|]. intros v' _. apply (ar_done w c (fun vs => _ :: v' :: vs)).
  - exists (fun _ => [(u "pattern", JStr p); (u "flags", JInt f)]). split; [|intros js L J; split; [|split]].
    + intros ctx. rewrite HF, B by (rewrite B; auto). apply (af_done w c (fun _ => JObj [_; (_, JStr p); (_, JInt f)])).
    + cbn [jwf map fst forallb]. rewrite NM, OK. reflexivity.
    + intros a [<-|[<-|[]]]; apply OB2; cbn; auto 10.
    + intros ctx. destruct js; [|discriminate L]. rewrite HR, <- KD. unfold brest.
      change (sget (u "pattern") _) with (Some (JStr p)). change (sget (u "flags") _) with (Some (JInt f)). apply (ar_done w c (fun vs => _ :: _ :: vs)).
  - exists (fun _ => []). split; [|intros js L J; split; [|split]].
    + intros ctx. rewrite HF, B by (rewrite B; auto). apply (af_done w c (fun _ => JObj [_])).
    + cbn [jwf map fst forallb]. rewrite NM. reflexivity.
    + intros a [].
    + intros ctx. destruct js; [|discriminate L]. rewrite HR, <- KD. unfold brest. apply (ar_done w c (fun vs => vs)).
  - exists (fun _ => [(u "locked", JBool lk)]). split; [|intros js L J; split; [|split]].
    + intros ctx. rewrite HF, B by (rewrite B; auto). apply (af_done w c (fun _ => JObj [_; (_, JBool lk)])).
    + cbn [jwf map fst forallb]. rewrite NM. reflexivity.
    + intros a [<-|[]]; apply OB2; cbn; auto 10.
    + intros ctx. destruct js; [|discriminate L]. rewrite HR, <- KD. unfold brest.
      change (sget (u "locked") _) with (Some (JBool lk)). apply (ar_done w c (fun vs => _ :: vs)).
Qed.

(** ** C45 *)
(** Wherever an object of one of these types occurs, its copy was constructed from the same
    UUID number, datetime payload (and a copy of the time zone), typecode and copy of the
    list of values, pattern and flags, locked state; a queue is constructed empty. *)
Theorem C45_builtin_handlers :
  forall w k po uo classes h dm N v bv iso, rt_case w k po uo classes h dm N v ->
  roundtrips w k po uo classes h v (fun h' b v' => at_instance w k (po_keys po) h h' b v v' (fun l i i' =>
    forall kd hd, installed w bv iso kd (i_cls i) hd -> c_isfun (w_cls w (i_cls i)) = false ->
    str_ok (importable_name (w_cls w (i_cls i))) = true -> kind_of (bv l) = kd -> builtin_ok (i_cls i) (bv l) ->
    match bv l with
    | BUuid n => i_rec i' = CHandler hd [VInt (Z.of_N n)]
    | BDatetime _ p None => i_rec i' = CHandler hd [VBytes p]
    | BDatetime _ p (Some tz) => exists tz', i_rec i' = CHandler hd [VBytes p; tz'] /\ is_copy w k (po_keys po) h h' b tz tz'
    | BArray tc x => exists x', i_rec i' = CHandler hd [VStr tc; x'] /\ is_copy w k (po_keys po) h h' b (VLoc x) x'
    | BRegex p f => i_rec i' = CHandler hd [VStr p; VInt f]
    | BQueue => i_rec i' = CHandler hd []
    | BLock lk => i_rec i' = CHandler hd [VBool lk]
    | BRegexBytes _ _ | BText => False
    end)).
Proof.
  intros w k po uo classes h dm N v bv iso HC. eapply (roundtrips_instances w k po uo classes h dm N v HC (fun h' b l i i' => _)).
  intros h' b l i i' (F & _). intros kd hd IN NF NM KD OK.
  destruct (F _ _ _ (handled_builtin w bv iso kd (i_cls i) hd l i IN eq_refl NF NM KD OK)) as (vs' & E & M).
  destruct (bv l) as [n|c p [tz|]|tc x|p f|p f| |lk|]; cbn [constants contents olist builtin_ok app] in *; try contradiction;
    try (inversion M; subst; exact E).
  - inversion M as [|? tz' ? ? M1 M2]; subst. inversion M2; subst. eauto.
  - inversion M as [|? x' ? ? M1 M2]; subst. inversion M2; subst. eauto.
Qed.
Print Assumptions C45_builtin_handlers.
(** The values of an array are numbers or characters: the copy of the list has the same. *)
Theorem C45_array_values :
  forall w k keys h h' b x x' xs, is_copy w k keys h h' b (VLoc x) x' -> hget h x = Some (OList xs) -> forallb atom xs = true ->
  exists l', x' = VLoc l' /\ hget h' l' = Some (OList xs).
Proof.
  intros w k keys h h' b x x' xs (R & _ & _ & OM & M) G A.
  destruct (object_copy h h' b R x x') as (l' & -> & Rl); [unfold is_object; rewrite G; reflexivity|exact M|].
  exists l'. split; auto. destruct (OM x l' Rl) as [ys zs G1 _ G2 F|? ? G1|? ? G1]; try congruence.
  rewrite G in G1. injection G1 as <-. rewrite G2. do 2 f_equal. clear - F A. induction F as [|y z ys zs M F IH]; auto.
  cbn [forallb] in A. apply andb_true_iff in A. destruct A as [A1 A2]. f_equal; auto. inversion M; subst; auto; discriminate.
Qed.
Print Assumptions C45_array_values.

(** A graph with all of them. *)
Definition bv_bh (l : loc) : builtin :=
  match l with
  | 1 => BUuid 81985529216486895 | 2 => BDatetime cState [Ascii.one; Ascii.zero] (Some (VLoc 6)) | 3 => BArray (u "i") 7
  | 4 => BRegex (u "a+b") 34 | 5 => BLock true | 8 => BQueue | _ => BRegexBytes [Ascii.one] 0
  end.
Definition kinds_bh (hd : nat) : bkind := nth hd [HUuid; HDatetime; HArray; HRegex; HLock; HQueue] HText.
Definition classes_bh (hd : nat) : nat := nth hd [cOther; cState; cEx; cHandled; cIO; cNone] cFun.
Definition W_bh : world :=
  sample_world (fold_left (fun r hd => reg_register sample_cls r (classes_bh hd) hd false) [0; 1; 2; 3; 4; 5] (mkReg [] []))
    (fun hd _ l data => bflat true (fun _ => []) (bv_bh l) data) (fun hd _ data => brest (kinds_bh hd) (classes_bh hd) data).
Definition H_bh : heap :=
  [ OList [VLoc 1; VLoc 2; VLoc 3; VLoc 4; VLoc 5; VLoc 8; VLoc 6; VLoc 3];
    OInst (mkInst cOther None [] [] [] None CSrc [] 0); OInst (mkInst cState None [] [] [] None CSrc [] 0);
    OInst (mkInst cEx None [] [] [] None CSrc [] 0); OInst (mkInst cHandled None [] [] [] None CSrc [] 0);
    OInst (mkInst cIO None [] [] [] None CSrc [] 0); OList [VInt 5]; OList [VInt 3; VInt 1];
    OInst (mkInst cNone None [] [] [] None CSrc [] 0) ].
Lemma installed_bh hd : hd < 6 -> installed W_bh bv_bh (fun _ => []) (kinds_bh hd) (classes_bh hd) hd.
Proof.
  intros L. split; [|split; reflexivity]. do 6 (destruct hd as [|hd]; [vm_compute; reflexivity|]). lia.
Qed.
Definition all_bh : list val := map VLoc [0; 1; 2; 3; 4; 5; 6; 7; 8] ++ [VInt 1; VInt 3; VInt 5].
Lemma handled_bh l i hd : hget H_bh l = Some (OInst i) -> hd < 6 -> i_cls i = classes_bh hd -> kind_of (bv_bh l) = kinds_bh hd ->
  builtin_ok (classes_bh hd) (bv_bh l) -> handled W_bh l i hd (constants (bv_bh l)) (contents (bv_bh l)).
Proof.
  intros G L EC KD OK. apply (handled_builtin W_bh bv_bh (fun _ => []) (kinds_bh hd) (classes_bh hd) hd); auto.
  - apply installed_bh; auto.
  - do 6 (destruct hd as [|hd]; [vm_compute; reflexivity|]). lia.
  - do 6 (destruct hd as [|hd]; [vm_compute; reflexivity|]). lia.
Qed.
Lemma cases_bh l : In (VLoc l) all_bh -> (exists xs, hget H_bh l = Some (OList xs) /\ incl xs all_bh) \/
  exists i hd, hget H_bh l = Some (OInst i) /\ hd < 6 /\ i_cls i = classes_bh hd /\ kind_of (bv_bh l) = kinds_bh hd /\
    builtin_ok (classes_bh hd) (bv_bh l) /\ incl (contents (bv_bh l)) [VLoc 6; VLoc 7] /\ l <> 6 /\ l <> 7 /\
    loadclass W_bh [] (JStr (importable_name (w_cls W_bh (i_cls i)))) = Ret (VType (i_cls i)).
Proof.
  intros I. unfold all_bh in I. rewrite in_app_iff in I. destruct I as [I|I].
  2: { exfalso. cbn [In] in I. repeat (destruct I as [I|I]; [discriminate|]). exact I. }
  apply in_map_iff in I. destruct I as (x & E & I). injection E as ->.
  repeat (destruct I as [<-|I]); [..|destruct I];
    try (left; eexists; split; [reflexivity|incl_tac]).
  - right. eexists. exists 0. do 4 (split; [first [reflexivity|lia]|]). split; [vm_compute; reflexivity|]. split; [incl_tac|]. repeat split; discriminate.
  - right. eexists. exists 1. do 4 (split; [first [reflexivity|lia]|]). split; [split; [reflexivity|discriminate]|]. split; [incl_tac|]. repeat split; discriminate.
  - right. eexists. exists 2. do 4 (split; [first [reflexivity|lia]|]). split; [split; [reflexivity|discriminate]|]. split; [incl_tac|]. repeat split; discriminate.
  - right. eexists. exists 3. do 4 (split; [first [reflexivity|lia]|]). split; [reflexivity|]. split; [incl_tac|]. repeat split; discriminate.
  - right. eexists. exists 4. do 4 (split; [first [reflexivity|lia]|]). split; [exact Logic.I|]. split; [incl_tac|]. repeat split; discriminate.
  - right. eexists. exists 5. do 4 (split; [first [reflexivity|lia]|]). split; [exact Logic.I|]. split; [incl_tac|]. repeat split; discriminate.
Qed.
Lemma closed_bh : closed W_bh K0 false [] H_bh all_bh.
Proof.
  intros x I. destruct x; auto.
  - exfalso. apply in_app_or in I. destruct I as [I|I]; [apply in_map_iff in I; destruct I as (? & ? & _); discriminate|].
    cbn [In] in I. repeat (destruct I as [I|I]; [discriminate|]). exact I.
  - destruct (cases_bh l I) as [(xs & G & IN)|(i & hd & G & L & EC & KD & OK & IN & _ & _ & LC)].
    + exists xs. split; [apply sh_list; auto|auto].
    + eexists. split; [eapply sh_handled; eauto; apply handled_bh; eauto|]. intros y Hy. apply IN in Hy. destruct Hy as [<-|[<-|[]]]; cbn; auto 15.
Qed.
Lemma supported_bh : supported W_bh K0 false [] H_bh (VLoc 0).
Proof.
  apply (closed_supported W_bh K0 false [] H_bh all_bh); [exact closed_bh|left; reflexivity|].
  intros x I. destruct x; try exact Logic.I;
    try (apply in_app_or in I; destruct I as [I|I]; [apply in_map_iff in I; destruct I as (? & ? & _); discriminate|];
         cbn [In] in I; repeat (destruct I as [I|I]; [discriminate I|]); destruct I).
  assert (CL : closed W_bh K0 false [] H_bh [VLoc 6; VLoc 7; VInt 1; VInt 3; VInt 5]).
  { intros x I2. cbn [In] in I2. repeat (destruct I2 as [<-|I2]; [try exact Logic.I|]); [| |destruct I2]; eexists; (split; [eapply sh_list; reflexivity|incl_tac]). }
  destruct (cases_bh l I) as [(xs & G & IN)|(i & hd & G & L & EC & KD & OK & IN & N6 & N7 & LC)].
  - split; [exists xs; apply sh_list; auto|]. intros x E.
    exfalso. inversion E as [l0 i cs args kw x0 G1|l0 i st G1|l0 i hd pre vs x0 G1|l0 i f args mkrec st li ys di d x0 G1]; congruence.
  - pose proof (handled_bh l i hd G L EC KD OK) as HA. split; [eexists; eapply sh_handled; eauto|].
    intros x E R. assert (Ix : In x [VLoc 6; VLoc 7]).
    { inversion E as [l0 i0 cs args kw x0 G1 OR|l0 i0 st G1 OR|l0 i0 hd0 pre vs x0 G1 HA2 Ix|l0 i0 f args mkrec st li ys di d x0 G1 RD]; subst;
        rewrite G in G1; injection G1 as <-.
      - destruct (handled_ordinary W_bh K0 _ _ _ _ _ HA OR).
      - destruct (handled_ordinary W_bh K0 _ _ _ _ _ HA OR).
      - destruct (handled_det W_bh _ _ _ _ _ _ _ _ HA HA2) as (_ & _ & <-). apply IN; auto.
      - destruct (handled_reduced W_bh K0 H_bh _ _ _ _ _ _ _ _ _ _ _ _ _ HA RD). }
    assert (X : In (VLoc l) [VLoc 6; VLoc 7; VInt 1; VInt 3; VInt 5]).
    { eapply closed_reach; [exact CL| |exact R]. destruct Ix as [<-|[<-|[]]]; cbn; auto. }
    cbn [In] in X. destruct X as [X|[X|X]]; [congruence|congruence|]. repeat (destruct X as [X|X]; [discriminate X|]). exact X.
Qed.
Lemma finite_bh : finite_graph W_bh K0 PO H_bh 2 0.
Proof.
  destruct (finite_sample PO H_bh 2 eq_refl ltac:(lia) ltac:(vm_compute; reflexivity)) as [F1 F2 F3 F4 F5 F6 F7 F8 F9 F10 F11 F12 F13 F14 F15].
  constructor; auto.
  intros hd ctx l ob. change (w_hflat W_bh hd ctx l ob) with (bflat true (fun _ => []) (bv_bh l) ob).
  do 9 (destruct l as [|l]; [cbn; repeat (split; auto; intros)|]). cbn. auto.
Qed.
Example C45_case : rt_case W_bh K0 PO UO None H_bh 2 0 (VLoc 0) /\
  before W_bh K0 H_bh (VLoc 0) [PIdx 2] = Some (VLoc 3) /\
  show (enc W_bh K0 PO 20 H_bh (VLoc 0)) = Ret "[{""py/object"": ""m.Other"", ""hex"": ""00000000000000000123456789abcdef""}, {""py/object"": ""m.State"", ""__reduce__"": [{""py/type"": ""m.State""}, [""AQA="", [5]]]}, {""py/object"": ""m.Ex"", ""typecode"": ""i"", ""values"": [3, 1]}, {""py/object"": ""m.Handled"", ""pattern"": ""a+b"", ""flags"": 34}, {""py/object"": ""m.TextIO"", ""locked"": true}, {""py/object"": ""m.NoneType""}, {""py/id"": 3}, {""py/id"": 4}]"%string.
Proof.
  split; [split; [repeat split|]; split; [exact supported_bh|]; split; [exact finite_bh|]; split; vm_compute; auto|].
  split; [reflexivity|]. vm_compute. reflexivity.
Qed.

(** A compiled bytes pattern cannot be encoded. *)
Definition W_re : world :=
  sample_world (reg_register sample_cls (mkReg [] []) cHandled 0 false)
    (fun hd _ l data => bflat true (fun _ => []) (BRegexBytes [Ascii.one] 0) data) (fun hd _ data => brest HRegex cHandled data).
Theorem C45_bytes_pattern_refuted :
  exists w k h bv i hd p f, hget h 0 = Some (OInst i) /\ bv 0 = BRegexBytes p f /\ installed w bv (fun _ => []) HRegex (i_cls i) hd /\
    enc w k PO 20 h (VLoc 0) = Exc ETypeError.
Proof.
  exists W_re, K0, [OInst (mkInst cHandled None [] [] [] None CSrc [] 0)], (fun _ => BRegexBytes [Ascii.one] 0).
  eexists. exists 0. eexists. eexists. split; [reflexivity|]. split; [reflexivity|]. split; [|vm_compute; reflexivity].
  split; [vm_compute; reflexivity|]. split; reflexivity.
Qed.
Print Assumptions C45_bytes_pattern_refuted.
