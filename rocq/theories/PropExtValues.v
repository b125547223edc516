(** C67: numpy dtypes and scalars, pandas Series, Timestamps, Periods and Intervals, gmpy numbers. *)
From Verif Require Import PyStr Tags Json JsonText JsonTextProofs Base Heap Registry LoadClass Pickler Unpickler Pandas CodecProofs ExtValues SpecGraph PGen PTerm RTBase RTMain RTProps Samples PropEncode PropRoundtrip PropCustom.
From Coq Require Import List ZArith Lia.
Import ListNotations.
Open Scope nat_scope.

(** Scalars that a JSON text can hold: names of Series, ends of Intervals. *)
Definition plain_ok (v : val) : bool :=
  match v with VNone | VBool _ | VInt _ => true | VFloat t => float_ok t | VStr s => str_ok s | _ => false end.
Definition evalue_ok (sn : pystr) (c : nat) (e : evalue) : Prop :=
  match e with
  | XDtype t => str_ok t = true /\ prefixb RECORD t = false
  | XScalar t v => str_ok t = true /\ prefixb RECORD t = false /\ v <> VType c
  | XSeries n i vs => plain_ok n = true /\ i <> VType c /\ vs <> VType c
  | XStamp iso => str_ok iso = true
  | XInterval l r cl => plain_ok l = true /\ plain_ok r = true /\ str_ok cl = true
  | XMpz _ => True
  | XPeriod iso fq => str_ok sn = true /\ str_ok iso = true /\ str_ok fq = true
  end.
(** What the object is made of: as it is, and to be encoded. *)
Definition given (e : evalue) : list val :=
  match e with
  | XDtype t => [VStr t] | XScalar t _ => [VStr t] | XSeries n _ _ => [n] | XStamp iso => [VStr iso] | XInterval l r cl => [l; r; VStr cl] | XMpz z => [VInt z] | XPeriod iso fq => [VStr iso; VStr fq]
  end.
Definition inner (e : evalue) : list val :=
  match e with XScalar _ v => [v] | XSeries _ i vs => [i; vs] | _ => [] end.

Lemma plain_prim v : plain_ok v = true -> exists j, prim_json v = Some j /\ raw_json v = Some j /\ raw_val j = Some v /\ jwf j = true /\ atom v = true.
Proof. destruct v; try discriminate; intros H; eexists; repeat split; assumption. Qed.
Lemma dtype_same t : prefixb RECORD t = false -> dtype_text t = t.
Proof. unfold dtype_text. intros ->. reflexivity. Qed.
Lemma pandas_small p data meta : flatten_pandas p [] data meta = Ret (sset (u "meta") meta (sset (u "txt") (JBool true) (sset (u "values") (JStr []) data))).
Proof. unfold flatten_pandas. destruct (pr_threshold p); reflexivity. Qed.
Lemma dumps_ok j : jwf j = true -> str_ok (dumps j) = true.
Proof. intros H. apply ascii_str_ok. eapply Forall_impl; [|apply RTPure.dumps_ascii; exact H]. cbv beta. unfold RTPure.asc. intros; lia. Qed.
Definition names_ev : list pystr := [u "dtype"; u "value"; u "values"; u "index"; u "name"; u "txt"; u "meta"; u "int"].
Lemma names_free a : In a names_ev -> ~ In a [TUPLE; SET_; B64; B85; BYTEARRAY; ID; ITERATOR].
Proof.
  intros I2 I1. unfold names_ev in I2. cbn [In] in I1, I2.
  repeat (destruct I1 as [<-|I1]; [repeat (destruct I2 as [I2|I2]; [vm_compute in I2; discriminate I2|]); destruct I2|]). destruct I1.
Qed.

Lemma handled_ev w p sn ev kd c hd l i : einstalled w p sn ev kd c hd -> i_cls i = c -> c_isfun (w_cls w c) = false ->
  str_ok (importable_name (w_cls w c)) = true -> ekind_of (ev l) = kd -> evalue_ok sn c (ev l) ->
  handled w l i hd (given (ev l)) (inner (ev l)).
Proof.
  intros (RL & HF & HR) EC NF NM KD OK. unfold handled. rewrite EC. split; [exact NM|]. split; [exact RL|]. split; [exact NF|].
  destruct (ev l) as [t|t v|n ix vs|iso|a b cl|z|iso fq] eqn:B; cbn [evalue_ok] in OK; cbn [given inner ekind_of] in *.
  - destruct OK as [S R]. split; [reflexivity|]. exists (fun _ => [(u "dtype", JStr t)]). split; [|intros js L J; split; [|split]].
    + intros ctx. rewrite HF, B by (rewrite B; auto). cbn [eflat]. rewrite dtype_same by exact R. apply (af_done w c (fun _ => JObj [_; (u "dtype", JStr t)])).
    + cbn [jwf map fst forallb]. rewrite NM, S. reflexivity.
    + intros x [<-|[]]. apply names_free. cbn; auto 10.
    + intros ctx. destruct js; [|discriminate L]. rewrite HR, <- KD. unfold erest. change (sget (u "dtype") _) with (Some (JStr t)). apply (ar_done w c (fun vs => _ :: vs)).
  - destruct OK as (S & R & NT). split; [reflexivity|]. exists (fun js => [(u "dtype", JStr t); (u "value", nth 0 js JNull)]). split; [|intros js L J; split; [|split]].
    + intros ctx. rewrite HF, B by (rewrite B; auto). cbn [eflat]. rewrite dtype_same by exact R. apply af_val; [exact NT|]. intros j.
      apply (af_done w c (fun js => JObj [_; (_, JStr t); (_, j)])).
    + destruct js as [|j [|j2 js]]; try discriminate L. cbn [forallb] in J. apply andb_true_iff in J. destruct J as [J _].
      cbn [jwf map fst forallb nth]. rewrite NM, S, J. reflexivity.
    + intros x [<-|[<-|[]]]; apply names_free; cbn; auto 10.
    + intros ctx. destruct js as [|j [|j2 js]]; try discriminate L. rewrite HR, <- KD. unfold erest. cbn [nth].
      change (sget (u "value") _) with (Some j). cbv iota. apply ar_val; [exact NT|]. intros v' _. change (sget (u "dtype") _) with (Some (JStr t)).
      apply (ar_done w c (fun vs => _ :: v' :: vs)).
  - destruct OK as (PN & N1 & N2). destruct (plain_prim n PN) as (jn & _ & RJ & RV & W & AT). split; [cbn [forallb]; rewrite AT; reflexivity|].
    exists (fun js => [(u "name", jn); (u "index", nth 0 js JNull); (u "values", nth 1 js JNull)]). split; [|intros js L J; split; [|split]].
    + intros ctx. rewrite HF, B by (rewrite B; auto). cbn [eflat]. rewrite RJ. apply af_val; [exact N1|]. intros ji. apply af_val; [exact N2|]. intros jv.
      apply (af_done w c (fun js => JObj [_; (_, jn); (_, ji); (_, jv)])).
    + destruct js as [|j [|j2 [|j3 js]]]; try discriminate L. cbn [forallb] in J. rewrite !andb_true_iff in J. destruct J as (J1 & J2 & _).
      cbn [jwf map fst forallb nth]. rewrite NM, W, J1, J2. reflexivity.
    + intros x [<-|[<-|[<-|[]]]]; apply names_free; cbn; auto 10.
    + intros ctx. destruct js as [|j [|j2 [|j3 js]]]; try discriminate L. rewrite HR, <- KD. unfold erest. cbn [nth].
      change (sget (u "name") _) with (Some jn). change (sget (u "index") _) with (Some j). cbv iota. apply ar_val; [exact N1|]. intros i' _.
      change (sget (u "values") _) with (Some j2). cbv iota. apply ar_val; [exact N2|]. intros v' _. rewrite RV.
      apply (ar_done w c (fun vs => _ :: i' :: v' :: vs)).
  - split; [reflexivity|]. exists (fun _ => [(u "values", JStr []); (u "txt", JBool true); (u "meta", JObj [(u "isoformat", JStr iso)])]). split; [|intros js L J; split; [|split]].
    + intros ctx. rewrite HF, B by (rewrite B; auto). cbn [eflat]. rewrite pandas_small. apply (af_done w c (fun _ => JObj [_; _; _; (_, JObj [(u "isoformat", JStr iso)])])).
    + cbn [jwf map fst forallb]. rewrite NM, OK. reflexivity.
    + intros x [<-|[<-|[<-|[]]]]; apply names_free; cbn; auto 10.
    + intros ctx. destruct js; [|discriminate L]. rewrite HR, <- KD. unfold erest, of_meta, restore_pandas.
      change (sget (u "meta") _) with (Some (JObj [(u "isoformat", JStr iso)])). change (sget (u "txt") _) with (Some (JBool true)). change (sget (u "values") _) with (Some (JStr [])).
      cbv iota. cbn [jtruthy]. change (sget (u "isoformat") _) with (Some (JStr iso)). apply (ar_done w c (fun vs => _ :: vs)).
  - destruct OK as (PA & PB & SC). destruct (plain_prim a PA) as (ja & PJ & _ & RV & W & AT). destruct (plain_prim b PB) as (jb & PJ2 & _ & RV2 & W2 & AT2).
    split; [cbn [forallb]; rewrite AT, AT2; reflexivity|].
    set (meta := [(u "left", JStr (dumps ja)); (u "right", JStr (dumps jb)); (u "closed", JStr cl)]).
    exists (fun _ => [(u "values", JStr []); (u "txt", JBool true); (u "meta", JObj meta)]). split; [|intros js L J; split; [|split]].
    + intros ctx. rewrite HF, B by (rewrite B; auto). cbn [eflat]. rewrite PJ, PJ2, pandas_small. apply (af_done w c (fun _ => JObj [_; _; _; (_, JObj meta)])).
    + unfold meta. cbn [jwf map fst forallb]. rewrite NM, SC, (dumps_ok ja W), (dumps_ok jb W2). reflexivity.
    + intros x [<-|[<-|[<-|[]]]]; apply names_free; cbn; auto 10.
    + intros ctx. destruct js; [|discriminate L]. rewrite HR, <- KD. unfold erest, of_meta, restore_pandas.
      change (sget (u "meta") _) with (Some (JObj meta)). change (sget (u "txt") _) with (Some (JBool true)). change (sget (u "values") _) with (Some (JStr [])).
      cbv iota. cbn [jtruthy]. change (sget (u "left") meta) with (Some (JStr (dumps ja))). change (sget (u "right") meta) with (Some (JStr (dumps jb))).
      change (sget (u "closed") meta) with (Some (JStr cl)). cbv iota. unfold number. rewrite !loads_dumps by assumption. rewrite RV, RV2.
      apply (ar_done w c (fun vs => _ :: _ :: _ :: vs)).
  - split; [reflexivity|]. exists (fun _ => [(u "int", JInt z)]). split; [|intros js L J; split; [|split]].
    + intros ctx. rewrite HF, B by (rewrite B; auto). apply (af_done w c (fun _ => JObj [_; (u "int", JInt z)])).
    + cbn [jwf map fst forallb]. rewrite NM. reflexivity.
    + intros x [<-|[]]. apply names_free. cbn; auto 10.
    + intros ctx. destruct js; [|discriminate L]. rewrite HR, <- KD. unfold erest. change (sget (u "int") _) with (Some (JInt z)). apply (ar_done w c (fun vs => _ :: vs)).
  - destruct OK as (SN & SI & SF). split; [reflexivity|].
    set (stamp := JObj [(OBJECT, JStr sn); (u "values", JStr []); (u "txt", JBool true); (u "meta", JObj [(u "isoformat", JStr iso)])]).
    assert (WS : jwf stamp = true) by (unfold stamp; cbn [jwf map fst forallb]; rewrite SN, SI; reflexivity).
    assert (ST : stamp_text p sn iso = Ret (dumps stamp)) by (unfold stamp_text; rewrite pandas_small; reflexivity).
    set (meta := [(u "start_time", JStr (dumps stamp)); (u "freqstr", JStr fq)]).
    exists (fun _ => [(u "values", JStr []); (u "txt", JBool true); (u "meta", JObj meta)]). split; [|intros js L J; split; [|split]].
    + intros ctx. rewrite HF, B by (rewrite B; auto). cbn [eflat]. rewrite ST, pandas_small. apply (af_done w c (fun _ => JObj [_; _; _; (_, JObj meta)])).
    + unfold meta. cbn [jwf map fst forallb]. rewrite NM, SF, (dumps_ok stamp WS). reflexivity.
    + intros x [<-|[<-|[<-|[]]]]; apply names_free; cbn; auto 10.
    + intros ctx. destruct js; [|discriminate L]. rewrite HR, <- KD. unfold erest, of_meta. unfold restore_pandas at 1.
      change (sget (u "meta") _) with (Some (JObj meta)). change (sget (u "txt") _) with (Some (JBool true)). change (sget (u "values") _) with (Some (JStr [])).
      cbv iota. cbn [jtruthy]. change (sget (u "start_time") meta) with (Some (JStr (dumps stamp))). change (sget (u "freqstr") meta) with (Some (JStr fq)). cbv iota.
      assert (SO : stamp_of p sn (JStr (dumps stamp)) = Ret iso).
      { unfold stamp_of. rewrite loads_dumps by exact WS. unfold stamp. change (sget OBJECT _) with (Some (JStr sn)). cbv iota. rewrite seqb_refl. unfold restore_pandas.
        change (sget (u "meta") _) with (Some (JObj [(u "isoformat", JStr iso)])). change (sget (u "txt") _) with (Some (JBool true)). change (sget (u "values") _) with (Some (JStr [])).
        cbv iota. cbn [jtruthy]. reflexivity. }
      rewrite SO. apply (ar_done w c (fun vs => _ :: _ :: vs)).
Qed.

(** Wherever such an object occurs, its copy was made from the same dtype, time, number or name, and
    from copies of the value of the scalar, of the index and of the values of the Series. *)
Theorem C67_values :
  forall w k po uo classes h dm N v p sn ev, rt_case w k po uo classes h dm N v ->
  roundtrips w k po uo classes h v (fun h' b v' => at_instance w k (po_keys po) h h' b v v' (fun l i i' =>
    forall kd hd, einstalled w p sn ev kd (i_cls i) hd -> c_isfun (w_cls w (i_cls i)) = false ->
    str_ok (importable_name (w_cls w (i_cls i))) = true -> ekind_of (ev l) = kd -> evalue_ok sn (i_cls i) (ev l) ->
    match ev l with
    | XDtype t => i_rec i' = CHandler hd [VStr t]
    | XScalar t x => exists x', i_rec i' = CHandler hd [VStr t; x'] /\ is_copy w k (po_keys po) h h' b x x'
    | XSeries n x y => exists x' y', i_rec i' = CHandler hd [n; x'; y'] /\ is_copy w k (po_keys po) h h' b x x' /\ is_copy w k (po_keys po) h h' b y y'
    | XStamp iso => i_rec i' = CHandler hd [VStr iso]
    | XInterval x y cl => i_rec i' = CHandler hd [x; y; VStr cl]
    | XMpz z => i_rec i' = CHandler hd [VInt z]
    | XPeriod iso fq => i_rec i' = CHandler hd [VStr iso; VStr fq]
    end)).
Proof.
  intros w k po uo classes h dm N v p sn ev HC. eapply (roundtrips_instances w k po uo classes h dm N v HC (fun h' b l i i' => _)).
  intros h' b l i i' (F & _). intros kd hd IN NF NM KD OK.
  destruct (F _ _ _ (handled_ev w p sn ev kd (i_cls i) hd l i IN eq_refl NF NM KD OK)) as (vs' & E & M).
  destruct (ev l) as [t|t x|n x y|iso|x y cl|z|iso fq]; cbn [given inner app] in *; try (inversion M; subst; exact E).
  - inversion M as [|? x' ? ? M1 M2]; subst. inversion M2; subst. eauto.
  - inversion M as [|? x' ? ? M1 M2]; subst. inversion M2 as [|? y' ? ? M3 M4]; subst. inversion M4; subst. eauto 6.
Qed.
Print Assumptions C67_values.

(** Two Series with one index have one index afterwards, and two with two have two. *)
Theorem C67_shared_index :
  forall w k po uo classes h dm N v p sn ev, rt_case w k po uo classes h dm N v ->
  roundtrips w k po uo classes h v (fun h' b v' =>
    forall pa l i pb l2 i2 hd n n2 x y vs vs2,
    encoded_path w k h v pa -> before w k h v pa = Some (VLoc l) -> hget h l = Some (OInst i) ->
    encoded_path w k h v pb -> before w k h v pb = Some (VLoc l2) -> hget h l2 = Some (OInst i2) -> i_cls i2 = i_cls i ->
    einstalled w p sn ev ESeries (i_cls i) hd -> c_isfun (w_cls w (i_cls i)) = false -> str_ok (importable_name (w_cls w (i_cls i))) = true ->
    ev l = XSeries n (VLoc x) vs -> evalue_ok sn (i_cls i) (ev l) -> is_object h x = true ->
    ev l2 = XSeries n2 (VLoc y) vs2 -> evalue_ok sn (i_cls i) (ev l2) -> is_object h y = true ->
    exists x' y', part_after w h' v' pa hd 1 x' /\ part_after w h' v' pb hd 1 y' /\ (x = y <-> x' = y')).
Proof.
  intros w k po uo classes h dm N v p sn ev HC. destruct (C65_parts_of_two w k po uo classes h dm N v HC) as (text & n0 & m0 & E & D).
  exists text, n0, m0. split; [exact E|]. intros m t L. destruct (D m t L) as (v' & t' & Dx & C & Fr). exists v', t'. split; [exact Dx|]. split; [|exact Fr].
  intros pa l i pb l2 i2 hd n n2 x y vs vs2 EA BA GA EB BB GB EC IN NF NM EV OK IX EV2 OK2 IY.
  pose proof (handled_ev w p sn ev ESeries (i_cls i) hd l i IN eq_refl NF NM) as HA. rewrite EV in *. specialize (HA eq_refl OK).
  pose proof (handled_ev w p sn ev ESeries (i_cls i) hd l2 i2 IN EC NF NM) as HB. rewrite EV2 in *. specialize (HB eq_refl OK2).
  cbn [given inner] in *. exact (C pa l i hd [n] [VLoc x; vs] 0 x pb l2 i2 hd [n2] [VLoc y; vs2] 0 y EA BA GA HA eq_refl IX EB BB GB HB eq_refl IY).
Qed.
Print Assumptions C67_shared_index.

(** A graph with all of them; the two Series have one index. *)
Definition proc0 : processor := mkProc (Some 500) None.
Definition stamp_name : pystr := u "m.Ex".
Definition ev_ev (l : loc) : evalue :=
  match l with
  | 1 => XSeries (VStr (u "a")) (VLoc 8) (VLoc 9) | 2 => XSeries (VInt 3) (VLoc 8) (VLoc 10) | 3 => XScalar (u "int64") (VInt 5)
  | 4 => XStamp (u "2020-02-03T00:00:00") | 5 => XInterval (VInt 0) (VFloat (u "1.5")) (u "right") | 6 => XMpz 7 | 11 => XPeriod (u "2020-02-01T00:00:00") (u "M") | _ => XDtype (u "float32")
  end.
Definition kinds_ev (hd : nat) : ekind := nth hd [ESeries; EScalar; EStamp; EInterval; EMpz; EDtype; EPeriod] EDtype.
Definition classes_ev (hd : nat) : nat := nth hd [cOther; cState; cEx; cHandled; cIO; cNone; cNode] cFun.
Definition W_ex (ev : loc -> evalue) : world :=
  sample_world (fold_left (fun r hd => reg_register sample_cls r (classes_ev hd) hd false) [0; 1; 2; 3; 4; 5; 6] (mkReg [] []))
    (fun _ _ l data => eflat proc0 stamp_name (ev l) data) (fun hd _ data => erest proc0 stamp_name (kinds_ev hd) (classes_ev hd) data).
Definition W_ev : world := W_ex ev_ev.
Definition bare (c : nat) : obj := OInst (mkInst c None [] [] [] None CSrc [] 0).
Definition H_ev : heap :=
  [ OList (map VLoc [1; 2; 3; 4; 5; 6; 7; 9; 11]); bare cOther; bare cOther; bare cState; bare cEx; bare cHandled; bare cIO; bare cNone;
    OList [VInt 0; VInt 1]; OList [VInt 4; VInt 5]; OList [VInt 6; VInt 7]; bare cNode ].
Lemma installed_ev hd : hd < 7 -> einstalled W_ev proc0 stamp_name ev_ev (kinds_ev hd) (classes_ev hd) hd.
Proof. intros L. split; [|split; reflexivity]. do 7 (destruct hd as [|hd]; [vm_compute; reflexivity|]). lia. Qed.
Definition inner_ev : list val := map VLoc [8; 9; 10] ++ map VInt [0; 1; 4; 5; 6; 7]%Z.
Definition all_ev : list val := map VLoc [0; 1; 2; 3; 4; 5; 6; 7; 11] ++ inner_ev.
Lemma cases_ev l : In (VLoc l) all_ev -> (exists xs, hget H_ev l = Some (OList xs) /\ incl xs all_ev) \/
  exists i hd, hget H_ev l = Some (OInst i) /\ hd < 7 /\ i_cls i = classes_ev hd /\ ekind_of (ev_ev l) = kinds_ev hd /\
    evalue_ok stamp_name (classes_ev hd) (ev_ev l) /\ incl (inner (ev_ev l)) inner_ev /\ ~ In (VLoc l) inner_ev /\
    loadclass W_ev [] (JStr (importable_name (w_cls W_ev (i_cls i)))) = Ret (VType (i_cls i)).
Proof.
  intros I. unfold all_ev, inner_ev in I. rewrite !in_app_iff in I. destruct I as [I|[I|I]]; apply in_map_iff in I; destruct I as (x & E & I); try discriminate E; injection E as ->.
  - repeat (destruct I as [<-|I]); [..|destruct I]; try (left; eexists; split; [reflexivity|incl_tac]); right; eexists.
    + exists 0. do 4 (split; [first [reflexivity|lia]|]). split; [repeat split; discriminate|]. split; [incl_tac|]. split; [cbn; intuition discriminate|vm_compute; reflexivity].
    + exists 0. do 4 (split; [first [reflexivity|lia]|]). split; [repeat split; discriminate|]. split; [incl_tac|]. split; [cbn; intuition discriminate|vm_compute; reflexivity].
    + exists 1. do 4 (split; [first [reflexivity|lia]|]). split; [repeat split; discriminate|]. split; [incl_tac|]. split; [cbn; intuition discriminate|vm_compute; reflexivity].
    + exists 2. do 4 (split; [first [reflexivity|lia]|]). split; [reflexivity|]. split; [incl_tac|]. split; [cbn; intuition discriminate|vm_compute; reflexivity].
    + exists 3. do 4 (split; [first [reflexivity|lia]|]). split; [repeat split|]. split; [incl_tac|]. split; [cbn; intuition discriminate|vm_compute; reflexivity].
    + exists 4. do 4 (split; [first [reflexivity|lia]|]). split; [exact Logic.I|]. split; [incl_tac|]. split; [cbn; intuition discriminate|vm_compute; reflexivity].
    + exists 5. do 4 (split; [first [reflexivity|lia]|]). split; [repeat split|]. split; [incl_tac|]. split; [cbn; intuition discriminate|vm_compute; reflexivity].
    + exists 6. do 4 (split; [first [reflexivity|lia]|]). split; [repeat split|]. split; [incl_tac|]. split; [cbn; intuition discriminate|vm_compute; reflexivity].
  - left. repeat (destruct I as [<-|I]); [..|destruct I]; eexists; (split; [reflexivity|incl_tac]).
Qed.
Lemma handled_evs l i hd : hget H_ev l = Some (OInst i) -> hd < 7 -> i_cls i = classes_ev hd -> ekind_of (ev_ev l) = kinds_ev hd ->
  evalue_ok stamp_name (classes_ev hd) (ev_ev l) -> handled W_ev l i hd (given (ev_ev l)) (inner (ev_ev l)).
Proof.
  intros G L EC KD OK. apply (handled_ev W_ev proc0 stamp_name ev_ev (kinds_ev hd) (classes_ev hd) hd); auto.
  - apply installed_ev; auto.
  - do 7 (destruct hd as [|hd]; [vm_compute; reflexivity|]). lia.
  - do 7 (destruct hd as [|hd]; [vm_compute; reflexivity|]). lia.
Qed.
Lemma atoms_ev x : In x all_ev -> match x with VLoc _ | VInt _ => True | _ => False end.
Proof. intros I. unfold all_ev, inner_ev in I. rewrite !in_app_iff in I. destruct I as [I|[I|I]]; apply in_map_iff in I; destruct I as (? & <- & _); exact Logic.I. Qed.
Lemma closed_ev : closed W_ev K0 false [] H_ev all_ev.
Proof.
  intros x I. pose proof (atoms_ev x I) as A. destruct x; try destruct A; [exact Logic.I|].
  destruct (cases_ev l I) as [(xs & G & IN)|(i & hd & G & L & EC & KD & OK & IN & _ & LC)].
  - exists xs. split; [apply sh_list; auto|auto].
  - eexists. split; [eapply sh_handled; eauto; apply handled_evs; eauto|]. intros y Hy. apply IN in Hy. unfold all_ev. apply in_or_app. auto.
Qed.
Lemma supported_ev : supported W_ev K0 false [] H_ev (VLoc 0).
Proof.
  apply (closed_supported W_ev K0 false [] H_ev all_ev); [exact closed_ev|left; reflexivity|].
  intros x I. pose proof (atoms_ev x I) as A. destruct x; try destruct A; [exact Logic.I|].
  assert (CL : closed W_ev K0 false [] H_ev inner_ev).
  { intros x I2. unfold inner_ev in I2. rewrite in_app_iff in I2. destruct I2 as [I2|I2]; apply in_map_iff in I2; destruct I2 as (a & <- & I2); [|exact Logic.I].
    repeat (destruct I2 as [<-|I2]); [..|destruct I2]; eexists; (split; [eapply sh_list; reflexivity|incl_tac]). }
  destruct (cases_ev l I) as [(xs & G & IN)|(i & hd & G & L & EC & KD & OK & IN & NI & LC)].
  - split; [exists xs; apply sh_list; auto|]. intros x E.
    exfalso. inversion E as [l0 i cs args kw x0 G1|l0 i st G1|l0 i hd pre vs x0 G1|l0 i f args mkrec st li ys di d x0 G1]; congruence.
  - pose proof (handled_evs l i hd G L EC KD OK) as HA. split; [eexists; eapply sh_handled; eauto|].
    intros x E R. assert (Ix : In x inner_ev).
    { inversion E as [l0 i0 cs args kw x0 G1 OR|l0 i0 st G1 OR|l0 i0 hd0 pre vs x0 G1 HA2 Ix|l0 i0 f args mkrec st li ys di d x0 G1 RD]; subst;
        rewrite G in G1; injection G1 as <-.
      - destruct (handled_ordinary W_ev K0 _ _ _ _ _ HA OR).
      - destruct (handled_ordinary W_ev K0 _ _ _ _ _ HA OR).
      - destruct (handled_det W_ev _ _ _ _ _ _ _ _ HA HA2) as (_ & _ & <-). apply IN; auto.
      - destruct (handled_reduced W_ev K0 H_ev _ _ _ _ _ _ _ _ _ _ _ _ _ HA RD). }
    apply NI. eapply closed_reach; [exact CL|exact Ix|exact R].
Qed.
Lemma finite_ev : finite_graph W_ev K0 PO H_ev 2 0.
Proof.
  destruct (finite_sample PO H_ev 2 eq_refl ltac:(lia) ltac:(vm_compute; reflexivity)) as [F1 F2 F3 F4 F5 F6 F7 F8 F9 F10 F11 F12 F13 F14 F15].
  constructor; auto.
  intros hd ctx l ob. change (w_hflat W_ev hd ctx l ob) with (eflat proc0 stamp_name (ev_ev l) ob).
  do 12 (destruct l as [|l]; [cbn; repeat (split; auto; intros)|]). cbn. auto.
Qed.
Example C67_case : rt_case W_ev K0 PO UO None H_ev 2 0 (VLoc 0) /\
  encoded_path W_ev K0 H_ev (VLoc 0) [PIdx 0] /\ before W_ev K0 H_ev (VLoc 0) [PIdx 0] = Some (VLoc 1) /\
  encoded_path W_ev K0 H_ev (VLoc 0) [PIdx 1] /\ before W_ev K0 H_ev (VLoc 0) [PIdx 1] = Some (VLoc 2) /\
  show (enc W_ev K0 PO 20 H_ev (VLoc 0)) = Ret (
    "[{""py/object"": ""m.Other"", ""name"": ""a"", ""index"": [0, 1], ""values"": [4, 5]}, " ++
    "{""py/object"": ""m.Other"", ""name"": 3, ""index"": {""py/id"": 2}, ""values"": [6, 7]}, " ++
    "{""py/object"": ""m.State"", ""dtype"": ""int64"", ""value"": 5}, " ++
    "{""py/object"": ""m.Ex"", ""values"": """", ""txt"": true, ""meta"": {""isoformat"": ""2020-02-03T00:00:00""}}, " ++
    "{""py/object"": ""m.Handled"", ""values"": """", ""txt"": true, ""meta"": {""left"": ""0"", ""right"": ""1.5"", ""closed"": ""right""}}, " ++
    "{""py/object"": ""m.TextIO"", ""int"": 7}, {""py/object"": ""m.NoneType"", ""dtype"": ""float32""}, {""py/id"": 3}, " ++
    "{""py/object"": ""m.Node"", ""values"": """", ""txt"": true, ""meta"": {""start_time"": " ++
    """{\""py/object\"": \""m.Ex\"", \""values\"": \""\"", \""txt\"": true, \""meta\"": {\""isoformat\"": \""2020-02-01T00:00:00\""}}"", ""freqstr"": ""M""}}]")%string.
Proof.
  split; [split; [repeat split|]; split; [exact supported_ev|]; split; [exact finite_ev|]; split; vm_compute; auto|].
  assert (EP : forall n, encoded_path W_ev K0 H_ev (VLoc 0) [PIdx n])
    by (intros n; split; [discriminate|]; split; [intros l i E; injection E as <-; discriminate|intros; exact Logic.I]).
  split; [apply EP|]. split; [reflexivity|]. split; [apply EP|]. split; [reflexivity|]. vm_compute. reflexivity.
Qed.

(** The text of a dtype of records loses the record type. *)
Theorem C67_record_refuted :
  exists ev text v t hd, enc (W_ex ev) K0 PO 20 H_ev (VLoc 7) = Ret text /\ dec (W_ex ev) UO 30 text = (Ret v, t) /\
    einstalled (W_ex ev) proc0 stamp_name ev EDtype cNone hd /\ ev 7 = XDtype (u "(numpy.record, [('a', '<i4')])") /\
    exists l i, v = VLoc l /\ hget (u_heap t) l = Some (OInst i) /\ i_rec i = CHandler hd [VStr (u "[('a', '<i4')]")].
Proof.
  exists (fun _ => XDtype (u "(numpy.record, [('a', '<i4')])")). do 3 eexists. exists 5.
  split; [vm_compute; reflexivity|]. split; [vm_compute; reflexivity|]. split; [split; [vm_compute; reflexivity|split; reflexivity]|]. split; [reflexivity|].
  do 2 eexists. split; [reflexivity|]. split; vm_compute; reflexivity.
Qed.
Print Assumptions C67_record_refuted.
(** A Series named by a tuple, as the columns of a table with several levels are, cannot be read back. *)
Theorem C67_series_name_refuted :
  exists ev text t hd, enc (W_ex ev) K0 PO 20 H_ev (VLoc 1) = Ret text /\ dec (W_ex ev) UO 30 text = (Exc ETypeError, t) /\
    einstalled (W_ex ev) proc0 stamp_name ev ESeries cOther hd /\ ev 1 = XSeries (VTuple [VStr (u "a"); VInt 1]) (VLoc 8) (VLoc 9).
Proof.
  exists (fun _ => XSeries (VTuple [VStr (u "a"); VInt 1]) (VLoc 8) (VLoc 9)). do 2 eexists. exists 0.
  split; [vm_compute; reflexivity|]. split; [vm_compute; reflexivity|]. split; [split; [vm_compute; reflexivity|split; reflexivity]|]. reflexivity.
Qed.
Print Assumptions C67_series_name_refuted.
