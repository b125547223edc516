(** Binary data through encode and decode (C05, C06). *)
From Verif Require Import PyStr Tags Json JsonText JsonTextProofs B64 B85 Base Heap Registry LoadClass Pickler Unpickler Samples.
Open Scope nat_scope.
Local Open Scope monad_scope.

Lemma ascii_str_ok s : Forall (fun c => 32 <= c < 127)%N s -> str_ok s = true.
Proof.
  intros H. unfold str_ok. apply andb_true_iff. split.
  - apply forallb_forall. intros c Hc. rewrite Forall_forall in H. apply H in Hc. apply N.ltb_lt. lia.
  - induction H as [|c s Hc H IH]; auto. cbn [no_pair].
    assert (Hh : is_high c = false).
    { unfold is_high. destruct (N.leb_spec 55296 c); auto. lia. }
    destruct s as [|d s]; auto. rewrite Hh. exact IH.
Qed.

Section codec.
  Variables (w : world) (k : hooks) (o : popts) (uo : uopts).

  Lemma jwf_bytes b : jwf (flatten_bytestring o b) = true.
  Proof.
    unfold flatten_bytestring. destruct (po_b85 o); cbn [jwf map fst nodupb forallb];
      rewrite ?(ascii_str_ok _ (b64encode_ascii b)), ?(ascii_str_ok _ (b85encode_ascii b)); reflexivity.
  Qed.

  Lemma flatten_impl_bytes n rec b s :
    flatten_impl w k o n rec (VBytes b) s = (Ret (flatten_bytestring o b), s).
  Proof. reflexivity. Qed.
  Lemma flatten_impl_bytearray n rec l b s : hget (p_heap s) l = Some (OByteArray b) ->
    flatten_impl w k o n rec (VLoc l) s = (Ret (JObj [(BYTEARRAY, flatten_bytestring o b)]), s).
  Proof. intros H. unfold flatten_impl, gets, bind, prim_json. rewrite H. reflexivity. Qed.

  Lemma flatten_of_impl n v s j s1 : cache_get v (p_cache s) = None ->
    flatten_impl w k o n (flatten w k o n) v s = (Ret j, s1) ->
    exists s2, flatten w k o (S n) v s = (Ret j, s2) /\ p_heap s2 = p_heap s1.
  Proof.
    intros C H. cbn [flatten]. unfold flatten_step.
    destruct (po_unpicklable o && po_make_refs o); [eauto|].
    unfold bind at 1, gets. rewrite C. unfold bind at 1. rewrite H. eexists; split; reflexivity.
  Qed.

  Lemma restore_bytes_doc m b t :
    restore w uo (S m) (flatten_bytestring o b) t = (Ret (VBytes b), t).
  Proof.
    unfold flatten_bytestring. destruct (po_b85 o); cbn [restore restore_step].
    - change (restore_base85 [(B85, JStr (b85encode b))] t = (Ret (VBytes b), t)).
      unfold restore_base85. cbn [sget]. rewrite seqb_refl. rewrite b85_roundtrip. reflexivity.
    - change (restore_base64 [(B64, JStr (b64encode b))] t = (Ret (VBytes b), t)).
      unfold restore_base64. cbn [sget]. rewrite seqb_refl. rewrite b64_roundtrip. reflexivity.
  Qed.
  Lemma restore_bytearray_doc m b t :
    restore w uo (S m) (JObj [(BYTEARRAY, flatten_bytestring o b)]) t =
    (Ret (VLoc (length (u_heap t))), us_heap (u_heap t ++ [OByteArray b]) t).
  Proof.
    cbn [restore restore_step].
    change (restore_bytearray [(BYTEARRAY, flatten_bytestring o b)] t =
      (Ret (VLoc (length (u_heap t))), us_heap (u_heap t ++ [OByteArray b]) t)).
    unfold restore_bytearray. cbn [sget]. rewrite seqb_refl. unfold flatten_bytestring.
    destruct (po_b85 o).
    - change (shas B85 [(B85, JStr (b85encode b))]) with true. cbv iota.
      unfold restore_base85. cbn [sget]. rewrite seqb_refl, b85_roundtrip. reflexivity.
    - change (shas B85 [(B64, JStr (b64encode b))]) with false. cbv iota.
      unfold restore_base64. cbn [sget]. rewrite seqb_refl, b64_roundtrip. reflexivity.
  Qed.

  Lemma sort_bytes b s : sort_attrs w o (VBytes b) s = (Ret tt, s).
  Proof. reflexivity. Qed.
  Lemma sort_bytearray l b s : hget (p_heap s) l = Some (OByteArray b) -> sort_attrs w o (VLoc l) s = (Ret tt, s).
  Proof. intros H. unfold sort_attrs, bind, gets. rewrite H. reflexivity. Qed.

  Lemma encode_run n v s j s2 :
    (po_sort o = true -> sort_attrs w o v (p_reset_st s) = (Ret tt, p_reset_st s)) ->
    flatten w k o n v (p_reset_st s) = (Ret j, s2) ->
    encode w k o n v s = (Ret (dumps j), s2).
  Proof.
    intros HS HF. unfold encode.
    rewrite (bind_eq _ _ s j s2); [reflexivity|].
    unfold pickle, pflatten. rewrite (bind_eq _ _ s tt (p_reset_st s)) by reflexivity.
    rewrite (bind_eq _ _ _ tt (p_reset_st s)); [exact HF|].
    destruct (po_sort o); auto.
  Qed.
  Lemma unpickle_run n cl j t v t' :
    restore w uo n j (match cl with
                      | Some c => us_classes (register_classes w c []) (snd (u_reset t))
                      | None => snd (u_reset t)
                      end) = (Ret v, t') ->
    u_swaps t' = [] ->
    unpickle w uo n true cl j t = (Ret v, us_swaps [] t').
  Proof.
    intros HR HS. unfold unpickle. rewrite (bind_eq _ _ t tt (snd (u_reset t))) by reflexivity.
    destruct cl as [c|].
    - rewrite (bind_eq _ _ _ tt (us_classes (register_classes w c []) (snd (u_reset t)))) by reflexivity.
      rewrite (bind_eq _ _ _ v t') by exact HR.
      unfold swap_proxies. unfold bind, gets. rewrite HS. reflexivity.
    - rewrite (bind_eq _ _ _ tt (snd (u_reset t))) by reflexivity.
      rewrite (bind_eq _ _ _ v t') by exact HR.
      unfold swap_proxies. unfold bind, gets. rewrite HS. reflexivity.
  Qed.
  Lemma decode_run n cl j t v t' : jwf j = true ->
    restore w uo n j (match cl with
                      | Some c => us_classes (register_classes w c []) (snd (u_reset t))
                      | None => snd (u_reset t)
                      end) = (Ret v, t') ->
    u_swaps t' = [] ->
    decode w uo n cl (dumps j) t = (Ret v, snd (u_reset (us_swaps [] t'))).
  Proof.
    intros HJ HR HS. unfold decode. rewrite loads_dumps by exact HJ.
    rewrite (bind_eq _ _ t v (us_swaps [] t')) by (apply unpickle_run; auto). reflexivity.
  Qed.

  Lemma bytes_text_roundtrip b h n m cl :
    exists text s', encode w k o (S n) (VBytes b) (new_pickler h) = (Ret text, s') /\
    forall t, fst (decode w uo (S m) cl text t) = Ret (VBytes b).
  Proof.
    destruct (flatten_of_impl n (VBytes b) (new_pickler h) (flatten_bytestring o b) (new_pickler h)) as (s2 & E & _);
      [reflexivity | apply flatten_impl_bytes |].
    exists (dumps (flatten_bytestring o b)), s2. split.
    - apply encode_run; [reflexivity | exact E].
    - intros t. erewrite decode_run; [reflexivity | apply jwf_bytes | apply restore_bytes_doc | destruct cl; reflexivity].
  Qed.
  Lemma bytearray_text_roundtrip b h l n m cl : hget h l = Some (OByteArray b) ->
    exists text s', encode w k o (S n) (VLoc l) (new_pickler h) = (Ret text, s') /\
    forall t, exists l' t', decode w uo (S m) cl text t = (Ret (VLoc l'), t') /\
                            hget (u_heap t') l' = Some (OByteArray b) /\
                            hget (u_heap t) l' = None.
  Proof.
    intros Hl.
    destruct (flatten_of_impl n (VLoc l) (new_pickler h) (JObj [(BYTEARRAY, flatten_bytestring o b)]) (new_pickler h)) as (s2 & E & _);
      [reflexivity | apply flatten_impl_bytearray; auto |].
    assert (J : jwf (JObj [(BYTEARRAY, flatten_bytestring o b)]) = true).
    { cbn [jwf map fst nodupb forallb]. rewrite jwf_bytes. reflexivity. }
    exists (dumps (JObj [(BYTEARRAY, flatten_bytestring o b)])), s2. split.
    - apply encode_run; [intros _; apply sort_bytearray with b; exact Hl | exact E].
    - intros t. exists (length (u_heap t)).
      destruct cl as [c|]; (eexists; split;
        [erewrite decode_run; [|exact J | apply restore_bytearray_doc | reflexivity]; reflexivity
        |cbn; rewrite hget_app_new; split; [reflexivity|]; apply nth_error_None; auto]).
  Qed.
End codec.

(** C06 *)
Lemma binary_payload_total w uo m ob t p :
  shas TUPLE ob = false -> shas SET_ ob = false ->
  (sget B64 ob = Some p \/ (sget B64 ob = None /\ sget B85 ob = Some p)) ->
  exists b, restore w uo (S m) (JObj ob) t = (Ret (VBytes b), t) /\
            ((forall s, p <> JStr s) -> b = []).
Proof.
  intros HT HS H. cbn [restore restore_step]. rewrite HT, HS.
  destruct H as [H|[H0 H]].
  - unfold shas at 1. rewrite H. unfold restore_base64. rewrite H.
    destruct p; eexists; (split; [reflexivity|]); intros Hns; auto; exfalso; eapply Hns; eauto.
  - unfold shas at 1 2. rewrite H0, H. unfold restore_base85. rewrite H.
    destruct p; eexists; (split; [reflexivity|]); intros Hns; auto; exfalso; eapply Hns; eauto.
Qed.
(** A character outside the base 85 alphabet makes the whole payload malformed. *)
Lemma dechunk_bad s : (exists c, In c s /\ dec85 c = None) -> dechunk s = None.
Proof.
  intros (c & HI & HN). unfold dechunk.
  assert (G : forall s acc, (acc = None \/ (exists c, In c s /\ dec85 c = None)) ->
     fold_left (fun acc c => match acc, dec85 c with Some a, Some v => Some (a * 85 + v)%N | _, _ => None end) s acc = None).
  { clear. induction s as [|x s IH]; intros acc [H|(c & HI & HN)]; cbn [fold_left]; auto.
    - destruct HI.
    - subst. apply IH; auto.
    - destruct HI as [->|HI].
      + apply IH. left. rewrite HN. destruct acc; auto.
      + apply IH. right. eauto. }
  rewrite G; auto. right. eauto.
Qed.
Lemma list_ind5 {A} (P : list A -> Prop) :
  P [] -> (forall a, P [a]) -> (forall a b, P [a; b]) -> (forall a b c, P [a; b; c]) ->
  (forall a b c d, P [a; b; c; d]) ->
  (forall a b c d e r, P r -> P (a :: b :: c :: d :: e :: r)) -> forall l, P l.
Proof.
  intros H0 H1 H2 H3 H4 H5. fix IH 1.
  intros [|a [|b [|c [|d [|e r]]]]]; [exact H0 | apply H1 | apply H2 | apply H3 | apply H4 | apply H5; apply IH].
Qed.
Lemma b85_bad_char s c : In c s -> dec85 c = None -> b85decode s = [].
Proof.
  intros HI HN. unfold b85decode.
  cut (dec85_all s = None); [intros ->; destruct (utf8_ok s); reflexivity|].
  revert HI. induction s as [|a|a b|a b d|a b d e|a b d e f r IH] using list_ind5; intros HI;
    cbn [dec85_all].
  - destruct HI.
  - rewrite dechunk_bad; auto. exists c; split; auto. simpl in *; tauto.
  - rewrite dechunk_bad; auto. exists c; split; auto. simpl in *; tauto.
  - rewrite dechunk_bad; auto. exists c; split; auto. simpl in *; tauto.
  - rewrite dechunk_bad; auto. exists c; split; auto. simpl in *; tauto.
  - destruct (dechunk [a; b; d; e; f]) eqn:E; auto.
    rewrite IH; auto. simpl in HI.
    destruct HI as [->|[->|[->|[->|[->|HI]]]]]; auto;
      (rewrite dechunk_bad in E; [discriminate|]; exists c; split; auto; simpl; auto 10).
Qed.
