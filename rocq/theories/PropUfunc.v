(** C79: ufuncs of numpy. *)
From Verif Require Import PyStr Tags Json JsonText JsonTextProofs Base Heap Registry LoadClass LoadClassProofs Pickler Unpickler RTBase RTMain RTProps PStep PlainEncode HolesProofs Ufunc SpecUfunc UfuncProofs Samples.
From Coq Require Import List Lia. Import ListNotations.
Open Scope nat_scope.
Local Open Scope monad_scope.

Lemma udocs_wf w fi c tab ls js tab' : udocs w fi c tab ls js tab' -> str_ok (importable_name (w_cls w c)) = true ->
  Forall (fun l => str_ok (importable_fname (fi l)) = true) ls -> forallb jwf js = true.
Proof.
  intros U Sc. induction U as [tab|tab l ls js tab' N U IH|tab l i ls js tab' E U IH]; intros F; auto; inversion F as [|? ? A Fs]; subst; cbn [forallb]; rewrite IH by auto; rewrite andb_true_r; [|reflexivity].
  unfold udoc. cbn [jwf map fst nodupb forallb]. rewrite Sc, A. reflexivity.
Qed.
Lemma decode_run w uo m classes j t x t1 : jwf j = true ->
  restore w uo m j (mkUst (u_heap t) [] [] (u_prox t) [] (class_table w classes) (u_log t)) = (Ret x, t1) -> u_swaps t1 = [] ->
  exists t', decode w uo m classes (dumps j) t = (Ret x, t') /\ u_heap t' = u_heap t1.
Proof.
  intros J R Sw. exists (mkUst (u_heap t1) [] [] (u_prox t1) [] [] (u_log t1)). split; [|reflexivity].
  unfold decode. rewrite loads_dumps by exact J. rewrite (bind_eq _ _ t x (us_swaps [] t1)); [reflexivity|].
  unfold unpickle. rewrite (bind_eq _ _ t tt (mkUst (u_heap t) [] [] (u_prox t) [] [] (u_log t))) by reflexivity.
  rewrite (bind_eq _ _ _ tt (mkUst (u_heap t) [] [] (u_prox t) [] (class_table w classes) (u_log t))) by (unfold class_table; destruct classes; reflexivity).
  rewrite (bind_eq _ _ _ _ _ R). rewrite (bind_eq _ _ t1 tt (us_swaps [] t1)); [reflexivity|].
  unfold swap_proxies. rewrite (bind_eq _ _ t1 [] t1); [reflexivity|]. unfold gets. rewrite Sw. reflexivity.
Qed.
Lemma encode_run w k po h v j tab : po_sort po = false -> goes w k po h [] v j tab ->
  exists N, forall n s, N <= n -> p_heap s = h -> exists s', encode w k po n v s = (Ret (dumps j), s').
Proof.
  intros Os (N & Go). exists N. intros n s L E. destruct (Go n (p_reset_st s) L) as (s1 & H1 & E1 & _); [split; [auto|]; split; [cbn; lia|reflexivity]|].
  exists s1. unfold encode, pickle, pflatten. rewrite Os. unfold bind, p_reset, modify, ret. rewrite H1. reflexivity.
Qed.

(** C79.  A list of ufuncs, which may occur several times: decode of its text makes one new list; a
    ufunc that is found under its name is there the very same object in all its places, and one
    that is not found is None.  The classes given to decode are not asked for the ufuncs. *)
Theorem C79_list :
  forall w k po uo classes h fi c hd l0 ls bs,
  po_unpicklable po = true -> po_make_refs po = true -> po_max_depth po = None -> po_sort po = false ->
  ufunc_installed w fi c hd -> hget h l0 = Some (OList (map VLoc ls)) -> Forall (ufunc_at h c) ls ->
  str_ok (importable_name (w_cls w c)) = true -> Forall (fun l => str_ok (importable_fname (fi l)) = true) ls ->
  loadclass w (class_table w classes) (JStr (importable_name (w_cls w c))) = Ret (VType c) ->
  Forall2 (fun l v => comes_back w (fi l) l v) ls bs ->
  exists text n0,
    (forall n s, n0 <= n -> p_heap s = h -> exists s', encode w k po n (VLoc l0) s = (Ret text, s')) /\
    forall m t, 2 <= m -> exists t', decode w uo m classes text t = (Ret (VLoc (length (u_heap t))), t') /\
      u_heap t' = u_heap t ++ [OList bs].
Proof.
  intros w k po uo classes h fi c hd l0 ls bs O1 O2 O3 O4 Ui G F Sc Sn Lc CB.
  destruct (udocs_ex w fi c ls [l0]) as (js & tab & U).
  destruct (encode_run w k po h _ _ _ O4 (ulist_go w k po h fi c hd O1 O2 O3 Ui l0 ls js tab G F U)) as (N & E).
  exists (dumps (JList js)), N. split; [exact E|]. intros m t Lm. destruct m as [|[|m]]; [lia|lia|].
  set (t0 := mkUst (u_heap t) [] [] (u_prox t) [] (class_table w classes) (u_log t)). set (p := length (u_heap t)).
  set (t1 := us_objs [VLoc p] (us_idx [(VLoc p, 0)] (us_heap (u_heap t ++ [OList []]) t0))).
  assert (S1 : Ust (class_table w classes) t1 [VLoc p]).
  { constructor; try reflexivity. intros n q [[=]|[]]. }
  assert (NI : ~ In l0 ls). { intros I. rewrite Forall_forall in F. destruct (F l0 I) as (i & Gi & _). congruence. }
  destruct (udocs_back w po fi c hd Ui uo (class_table w classes) Lc m p l0 _ _ _ _ U t1 [] [] bs eq_refl NI CB S1 ltac:(constructor)) as (t2 & R & Hh & Sw).
  set (t3 := us_heap (hset (u_heap t2) p (OList bs)) t2).
  assert (NP : list_swaps (VLoc p) bs = []).
  { apply LackProofs.list_swaps_none. clear -CB. induction CB as [|l v ls bs H _ IH]; constructor; auto. destruct H; reflexivity. }
  destruct (decode_run w uo (S (S m)) classes (JList js) t (VLoc p) t3) as (t' & D & Ht).
  - cbn [jwf]. eapply udocs_wf; eauto.
  - fold t0. change (restore w uo (S (S m)) (JList js) t0) with (restore_list (restore w uo (S m)) (JList js) t0). unfold restore_list.
    rewrite (bind_eq _ _ t0 (VLoc p) (us_heap (u_heap t ++ [OList []]) t0)) by reflexivity.
    rewrite (bind_eq _ _ _ (VLoc p) t1) by reflexivity. cbn [jiter]. rewrite (bind_eq _ _ t1 js t1) by reflexivity.
    rewrite (bind_eq _ _ _ _ _ R). rewrite (bind_eq _ _ t2 tt t3) by reflexivity.
    rewrite (bind_eq _ _ t3 tt t3); [reflexivity|]. rewrite NP. unfold modify. rewrite app_nil_r. destruct t3; reflexivity.
  - exact Sw.
  - exists t'. split; [exact D|]. rewrite Ht. cbn [t3 u_heap us_heap]. rewrite Hh. cbn [t1 u_heap us_objs us_idx us_heap].
    unfold p. clear. induction (u_heap t) as [|x hp IH]; [reflexivity|]. cbn [app length hset]. rewrite IH. reflexivity.
Qed.
Print Assumptions C79_list.

(** C79.  One ufunc: nothing new is made. *)
Theorem C79_same :
  forall w k po uo classes h fi c hd l v,
  po_unpicklable po = true -> po_make_refs po = true -> po_max_depth po = None -> po_sort po = false ->
  ufunc_installed w fi c hd -> ufunc_at h c l ->
  str_ok (importable_name (w_cls w c)) = true -> str_ok (importable_fname (fi l)) = true ->
  loadclass w (class_table w classes) (JStr (importable_name (w_cls w c))) = Ret (VType c) ->
  comes_back w (fi l) l v ->
  exists text n0,
    (forall n s, n0 <= n -> p_heap s = h -> exists s', encode w k po n (VLoc l) s = (Ret text, s')) /\
    forall m t, 1 <= m -> exists t', decode w uo m classes text t = (Ret v, t') /\ u_heap t' = u_heap t.
Proof.
  intros w k po uo classes h fi c hd l v O1 O2 O3 O4 Ui A Sc Sn Lc CB.
  destruct (encode_run w k po h _ _ _ O4 (ufunc_go w k po h fi c hd O1 O2 O3 Ui [] l ltac:(intros []) A)) as (N & E).
  exists (dumps (udoc w fi c l)), N. split; [exact E|]. intros m t Lm. destruct m as [|m]; [lia|].
  destruct (udoc_back w fi c hd Ui uo (class_table w classes) Lc m (mkUst (u_heap t) [] [] (u_prox t) [] (class_table w classes) (u_log t)) [] l v) as (t1 & R & S1 & Hh); auto.
  { constructor; try reflexivity. intros n q []. }
  destruct (decode_run w uo (S m) classes (udoc w fi c l) t v t1) as (t' & D & Ht); auto; [|exact (us_s _ _ _ S1)|].
  - unfold udoc. cbn [jwf map fst nodupb forallb]. rewrite Sc, Sn. reflexivity.
  - exists t'. split; auto. rewrite Ht, Hh; reflexivity.
Qed.
Print Assumptions C79_same.

(** m.add and m.mul are found, m.gone is not; [add, gone, add, mul, mul] *)
Definition fi_uf (l : loc) : finfo :=
  let q := if Nat.eqb l 1 then u "add" else if Nat.eqb l 2 then u "mul" else u "gone" in {| f_name := q; f_qualname := q; f_module := u "m"; f_modfun := false |}.
Definition with_uf (w : world) : world :=
  {| w_cls := w_cls w; w_fun := w_fun w; w_mod := w_mod w; w_sub := w_sub w; w_import := w_import w; w_import_top := w_import_top w;
     w_sysmod := w_sysmod w;
     w_getattr := fun v a => match v with VMod _ => if seqb a (u "add") then Ret (VLoc 1) else if seqb a (u "mul") then Ret (VLoc 2) else w_getattr w v a | _ => w_getattr w v a end;
     w_new := w_new w; w_call := w_call w; w_blank := w_blank w; w_ext_callable := w_ext_callable w; w_setstate := w_setstate w;
     w_setter := w_setter w; w_eval := w_eval w; w_reg := w_reg w; w_hflat := w_hflat w; w_hrest := w_hrest w;
     w_hctx_flat := w_hctx_flat w; w_hctx_rest := w_hctx_rest w; w_clone := w_clone w; w_nonetype := w_nonetype w |}.
Definition W_uf : world :=
  with_uf (sample_world (reg_register sample_cls (mkReg [] []) cOther 0 true) (fun _ _ l data => ufunc_flat (fi_uf l) data)
    (fun _ _ data => ufunc_rest (with_uf W0) data)).
Definition uf : obj := OInst (mkInst cOther None [] [] [] None CSrc [] 0).
Definition H_uf : heap := [ OList (map VLoc [1; 3; 1; 2; 2]); uf; uf; uf ].
Lemma found_uf q l : l < 3 -> 0 < l -> q = f_qualname (fi_uf l) -> importable W_uf (u "m") q (VLoc l).
Proof.
  intros L1 L2 ->. assert (E : l = 1 \/ l = 2) by lia. destruct E as [-> | ->];
    (split; [exists (VMod 0); split; [reflexivity|]; cbn; eapply fo_cons; [reflexivity|constructor]|vm_compute; intros; lia]).
Qed.
Example C79_case : ufunc_installed W_uf fi_uf cOther 0 /\ Forall (ufunc_at H_uf cOther) [1; 3; 1; 2; 2] /\
  Forall2 (fun l v => comes_back W_uf (fi_uf l) l v) [1; 3; 1; 2; 2] [VLoc 1; VNone; VLoc 1; VLoc 2; VLoc 2] /\
  loadclass W_uf (class_table W_uf None) (JStr (importable_name (w_cls W_uf cOther))) = Ret (VType cOther) /\
  show (enc W_uf K0 PO 20 H_uf (VLoc 0)) = Ret (
    "[{""py/object"": ""m.Other"", ""importable_name"": ""m.add""}, {""py/object"": ""m.Other"", ""importable_name"": ""m.gone""}, " ++
    "{""py/id"": 1}, {""py/object"": ""m.Other"", ""importable_name"": ""m.mul""}, {""py/id"": 3}]")%string.
Proof.
  split; [split; [vm_compute; reflexivity|split; reflexivity]|].
  split; [repeat constructor; eexists; split; reflexivity|]. split; [|split; vm_compute; reflexivity].
  assert (G : comes_back W_uf (fi_uf 3) 3 VNone).
  { apply cb_lost. split; [vm_compute; discriminate|]. intros i Hi. assert (i = 1) by (vm_compute in Hi; lia). subst i. right.
    exists (VMod 0), [], (u "gone"), [], (VMod 0). split; [reflexivity|]. split; [reflexivity|]. split; [constructor|]. vm_compute. reflexivity. }
  repeat (constructor; [try exact G; apply cb_found; apply found_uf; (reflexivity || lia)|]). constructor.
Qed.
