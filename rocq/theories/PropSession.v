(** C63: one Pickler or Unpickler for several documents, with reset=False. *)
From Verif Require Import PyStr Tags Json JsonText Base Heap Registry LoadClass Pickler Unpickler Session SpecGraph PGen PTerm RTBase RTMain RTProps SessionProofs Samples PropEncode PropRoundtrip.
From Coq Require Import List ZArith Lia.
Import ListNotations.
Open Scope nat_scope.

(** Calls of encode with one Pickler: the objects as they are at the call (they may change between
    the calls), the flag and the value. *)
Fixpoint session (w : world) (k : hooks) (o : popts) (n : nat) (calls : list (heap * bool * val)) (s : pst) : list (res pystr) :=
  match calls with
  | [] => []
  | (h, r, v) :: rest => let '(x, s') := encode_r w k o n r v (set_heap h s) in x :: session w k o n rest s'
  end.
(** Writing: whatever the flags, each text is the one that encode gives by itself. *)
Theorem C63_encode_session :
  forall w k po uo classes calls,
  (forall h r v, In (h, r, v) calls -> exists dm N, rt_case w k po uo classes h dm N v) ->
  exists texts n0, forall n h0, n0 <= n ->
    session w k po n calls (new_pickler h0) = map Ret texts /\
    Forall2 (fun c text => forall s, p_heap s = fst (fst c) -> fst (encode w k po n (snd c) s) = Ret text) calls texts.
Proof.
  intros w k po uo classes calls HC.
  assert (X : exists texts n0, forall n s, n0 <= n -> quiet s ->
    session w k po n calls s = map Ret texts /\
    Forall2 (fun c text => forall s, p_heap s = fst (fst c) -> fst (encode w k po n (snd c) s) = Ret text) calls texts).
  { induction calls as [|[[h r] v] calls IH].
    - exists [], 0. intros. split; [reflexivity|constructor].
    - destruct IH as (texts & n1 & IH). { intros h' r' v' I. apply (HC h' r' v'). right. exact I. }
      destruct (HC h r v (or_introl eq_refl)) as (dm & N & RC).
      destruct (decode_first w k po uo classes h dm N v RC) as (text & n2 & m0 & EN & _).
      destruct RC as ((Ou & Or & Od & Op & Oro & Os & Uk & Uv) & SU & _).
      exists (text :: texts), (Nat.max n1 n2). intros n s L Q.
      destruct (EN n (set_heap h s)) as (s1 & E); [lia|reflexivity|].
      assert (E1 : encode_r w k po n r v (set_heap h s) = (Ret text, s1)) by (rewrite quiet_flag by (apply quiet_heap; exact Q); exact E).
      assert (Q1 : quiet s1) by (eapply (encode_quiet w k po uo (class_table w classes) h Ou Or Od Op Oro Os Uk Uv n r v (set_heap h s)); eauto; apply quiet_heap; exact Q).
      destruct (IH n s1) as [A B]; [lia|exact Q1|]. cbn [session]. rewrite E1, A. split; [reflexivity|]. constructor; [|exact B].
      intros s2 Hs. destruct (EN n s2) as (s3 & E3); [lia|exact Hs|]. cbn [snd]. rewrite E3. reflexivity. }
  destruct X as (texts & n0 & X). exists texts, n0. intros n h0 L. apply X; [exact L|apply quiet_new].
Qed.
Print Assumptions C63_encode_session.
(** Reading the first document: the flag does not matter, and nothing remains to be swapped. *)
Theorem C63_decode_first :
  forall w k po uo classes h dm N v, rt_case w k po uo classes h dm N v ->
  exists text n0 m0,
    (forall n s, n0 <= n -> p_heap s = h -> exists s', encode w k po n v s = (Ret text, s')) /\
    forall m t r, m0 <= m -> u_objs t = [] -> u_idx t = [] -> u_swaps t = [] -> u_classes t = [] ->
      exists v' t', decode_r w uo m r classes text t = (Ret v', t') /\
        fst (decode w uo m classes text t) = Ret v' /\ u_heap (snd (decode w uo m classes text t)) = u_heap t' /\
        is_copy w k (po_keys po) h (u_heap t') (length (u_heap t)) v v' /\ u_swaps t' = [].
Proof. intros w k po uo classes h dm N v HC. exact (decode_first w k po uo classes h dm N v HC). Qed.
Print Assumptions C63_decode_first.

Example C63_case :
  (forall h r v, In (h, r, v) [(H_rt, false, VLoc 0); (H_rt, true, VLoc 0); (H_rt, false, VLoc 0)] ->
    exists dm N, rt_case W0 K_rt PO UO None h dm N v) /\
  let texts := session W0 K_rt PO 40 [(H_rt, false, VLoc 0); (H_rt, true, VLoc 0); (H_rt, false, VLoc 0)] (new_pickler []) in
  match texts with [Ret a; Ret b; Ret c] => seqb a b && seqb b c = true | _ => False end.
Proof.
  split; [|vm_compute; reflexivity]. intros h r v I. exists 2, 0.
  destruct I as [I|[I|[I|[]]]]; injection I as <- <- <-; exact C01_case.
Qed.

(** Reading more with reset=False is wrong: the documents begin with number 0 each, the unpickler
    goes on counting.  In the second document, [[1], the same list] comes back as
    [[1], the outer list itself]. *)
Definition H_two : heap := [ OList [VInt 5]; OList [VLoc 2; VLoc 2]; OList [VInt 1] ].
Theorem C63_decode_session_refuted :
  exists w k h a b ta tb va t v t2,
    session w k PO 20 [(h, false, a); (h, false, b)] (new_pickler h) = [Ret ta; Ret tb] /\
    decode_r w UO 30 false None ta (new_unpickler []) = (Ret va, t) /\ decode_r w UO 30 false None tb t = (Ret v, t2) /\
    before w k h b [PIdx 1] = before w k h b [PIdx 0] /\ before w k h b [PIdx 1; PIdx 0] = Some (VInt 1) /\
    after w (u_heap t2) v [PIdx 0; PIdx 0] = Some (VInt 1) /\ after w (u_heap t2) v [PIdx 1] = Some v.
Proof.
  exists W0, K0, H_two, (VLoc 0), (VLoc 1). eexists. eexists. eexists. eexists. eexists. eexists.
  split; [vm_compute; reflexivity|]. split; [vm_compute; reflexivity|]. split; [vm_compute; reflexivity|]. vm_compute. auto.
Qed.
Print Assumptions C63_decode_session_refuted.
(** Without references (make_refs=False) a Pickler keeps the last document: after the list has been
    changed, encode with reset=False gives the old text. *)
Theorem C63_stale_refuted :
  exists w k h h' v t1 t2, session w k PO_norefs 20 [(h, true, v); (h', false, v)] (new_pickler h) = [Ret t1; Ret t1] /\
    enc w k PO_norefs 20 h' v = Ret t2 /\ t1 = u "[1]" /\ t2 = u "[2]".
Proof.
  exists W0, K0, [OList [VInt 1]], [OList [VInt 2]], (VLoc 0). eexists. eexists. split; [vm_compute; reflexivity|].
  split; [vm_compute; reflexivity|]. split; reflexivity.
Qed.
Print Assumptions C63_stale_refuted.
(** After a call that raised, encode with reset=False writes references to objects that are in no
    document. *)
Theorem C63_after_failure_refuted :
  exists w k k' h v e s text, pickle w k PO 20 true v (new_pickler h) = (Exc e, s) /\
    fst (encode_r w k' PO 20 false v s) = Ret text /\ text = dumps (JObj [(u "py/id", JInt 0)]).
Proof.
  exists W0, K_bad, K0, H_bad, (VLoc 0). eexists. eexists. eexists. split; [vm_compute; reflexivity|].
  split; [vm_compute; reflexivity|]. vm_compute. reflexivity.
Qed.
Print Assumptions C63_after_failure_refuted.
(** An object whose [__reduce__] state leads back to it: with reset=True the copy does, too; with
    reset=False, also for a new unpickler, an internal placeholder stays in its place. *)
Definition K_cyc : hooks :=
  {| k_reduce := fun _ => Ret (RTup [VType cNode; VTuple []; VLoc 2]); k_getstate := k_getstate K0;
     k_newargs := k_newargs K0; k_newargs_ex := k_newargs_ex K0; k_initargs := k_initargs K0; k_iter := k_iter K0;
     k_attr := k_attr K0; k_dir := k_dir K0; k_props := k_props K0; k_eqdict := k_eqdict K0; k_members := k_members K0;
     k_repr := k_repr K0; k_str := k_str K0; k_call0 := k_call0 K0 |}.
Definition H_cyc : heap := [ plain_inst cReduce 1; ODict []; ODict [(VStr (u "l"), VLoc 3)]; OList [VLoc 0] ].
Theorem C63_placeholder_refuted :
  exists w k h x text v t v2 t2 i, enc w k PO 20 h x = Ret text /\
    decode_r w UO 30 true None text (new_unpickler []) = (Ret v, t) /\ after w (u_heap t) v [PAttr (u "l"); PIdx 0] = Some v /\
    decode_r w UO 30 false None text (new_unpickler []) = (Ret v2, t2) /\ after w (u_heap t2) v2 [PAttr (u "l"); PIdx 0] = Some (VProxy i).
Proof.
  exists W0, K_cyc, H_cyc, (VLoc 0). eexists. eexists. eexists. eexists. eexists. eexists.
  split; [vm_compute; reflexivity|]. split; [vm_compute; reflexivity|]. split; [vm_compute; reflexivity|].
  split; [vm_compute; reflexivity|]. vm_compute. reflexivity.
Qed.
Print Assumptions C63_placeholder_refuted.
