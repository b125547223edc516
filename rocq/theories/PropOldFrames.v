(** C82: the columns of data frames written by version 3.3. *)
From Verif Require Import PyStr Json Base OldFrames SpecOldFrames.
From Coq Require Import List. Import ListNotations.

Definition is_dt (kv : pystr * pystr) : bool := prefixb (u "datetime") (snd kv).
Definition is_co (kv : pystr * pystr) : bool := prefixb (u "complex") (snd kv).
Definition is_td (kv : pystr * pystr) : bool := prefixb (u "timedelta") (snd kv).
Lemma apart a b v : a <> [] -> b <> [] -> hd_error a <> hd_error b -> prefixb a v = true -> prefixb b v = false.
Proof.
  destruct a as [|x a], b as [|y b]; try contradiction. intros _ _ N. destruct v as [|z v]; [discriminate|]. cbn [prefixb].
  intros H. apply andb_prop in H. destruct H as [H _]. apply N.eqb_eq in H. subst z.
  destruct (N.eqb_spec y x) as [->|]; [|reflexivity]. exfalso. apply N. reflexivity.
Qed.
Definition way_for (d : option pystr) : way :=
  match d with
  | None => Unsaid
  | Some v => if prefixb (u "datetime") v then Dates else if prefixb (u "complex") v then Complex
              else if prefixb (u "timedelta") v then Given (u "object") else Given v
  end.
Lemma smem_app k l x : smem k (l ++ [x]) = smem k l || seqb k x.
Proof. unfold smem. rewrite existsb_app. cbn. rewrite Bool.orb_false_r. reflexivity. Qed.
Lemma sget_app_one {V} k (l : list (pystr * V)) x v :
  sget k (l ++ [(x, v)]) = match sget k l with Some y => Some y | None => if seqb k x then Some v else None end.
Proof. induction l as [|[k' v'] l IH]; cbn [app sget]; [reflexivity|]. destruct (seqb k k'); auto. Qed.

(** What has been sorted out after a number of entries. *)
Lemma sorted_form l : NoDup (map fst l) ->
  let s := make_read_csv_params l in
  so_timedeltas s = map fst (filter (fun kv => negb (is_dt kv) && negb (is_co kv) && is_td kv) l) /\
  so_datetimes s = filter is_dt l /\
  (forall k, way_of (so_params s) k = way_for (sget k l)) /\
  (forall k, ~ In k (map fst l) -> smem k (p_dates (so_params s)) = false /\ smem k (p_converters (so_params s)) = false /\
             sget k (p_dtype (so_params s)) = None).
Proof.
  induction l as [|[x v] l IH] using rev_ind; intros ND; [repeat split; reflexivity|].
  rewrite map_app in ND. cbn [map fst] in ND.
  assert (Nx : ~ In x (map fst l)).
  { apply NoDup_remove_2 in ND. rewrite app_nil_r in ND. exact ND. }
  assert (ND' : NoDup (map fst l)).
  { apply NoDup_remove_1 in ND. rewrite app_nil_r in ND. exact ND. }
  specialize (IH ND'). unfold make_read_csv_params in *. rewrite fold_left_app. cbn [fold_left].
  set (s := fold_left sort_column l _) in *. destruct s as [[dt da co] td dv].
  cbn [so_timedeltas so_datetimes so_params p_dates p_converters p_dtype] in *. destruct IH as (T & D & W & F).
  rewrite !filter_app, map_app. cbn [filter map fst].
  assert (Gx : sget x l = None) by (apply sget_None; exact Nx).
  destruct (F x Nx) as (F1 & F2 & F3).
  assert (Wo : forall da' co' dt', 
     (forall k, k <> x -> smem k da' = smem k da) -> (forall k, k <> x -> smem k co' = smem k co) ->
     (forall k, k <> x -> sget k dt' = sget k dt) ->
     way_of (mkParams dt' da' co') x = way_for (Some v) ->
     forall k, way_of (mkParams dt' da' co') k = way_for (sget k (l ++ [(x, v)]))).
  { intros da' co' dt' H1 H2 H3 H4 k. rewrite sget_app_one. destruct (seqb_spec k x) as [->|N].
    - rewrite Gx. exact H4.
    - transitivity (way_of (mkParams dt da co) k); [unfold way_of; cbn [p_dates p_converters p_dtype]; rewrite H1, H2, H3 by exact N; reflexivity|].
      rewrite W. destruct (sget k l); reflexivity. }
  assert (Ap : forall L k, k <> x -> smem k (L ++ [x]) = smem k L).
  { intros L k N. rewrite smem_app. destruct (seqb_spec k x); [contradiction|]. apply Bool.orb_false_r. }
  assert (So : forall y k, k <> x -> sget k (sset x y dt) = sget k dt) by (intros; apply sget_sset_other; auto).
  assert (Ne : forall k, ~ In k (map fst l ++ [x]) -> k <> x /\ ~ In k (map fst l)).
  { intros k H. split; [intros ->; apply H; apply in_or_app; right; left; reflexivity|].
    intros I. apply H. apply in_or_app. left. exact I. }
  assert (Sx : forall L, smem x (L ++ [x]) = true) by (intros L; rewrite smem_app, seqb_refl; apply Bool.orb_true_r).
  unfold sort_column, is_dt, is_co, is_td. cbn [snd].
  destruct (prefixb (u "datetime") v) eqn:E1; [|destruct (prefixb (u "complex") v) eqn:E2;
    [|destruct (prefixb (u "timedelta") v) eqn:E3]];
    cbn [so_timedeltas so_datetimes so_params p_dates p_converters p_dtype negb andb map fst].
  - split; [rewrite app_nil_r; exact T|]. split; [rewrite sset_app; [unfold is_dt in D; rewrite D; reflexivity|]|].
    + rewrite D. intros I. apply Nx. unfold keys in I. apply in_map_iff in I as (q & <- & I). apply filter_In in I as (I & _). apply in_map. exact I.
    + split.
      * apply Wo; auto. unfold way_of. cbn [p_dates]. rewrite Sx. cbn [way_for]. rewrite E1. reflexivity.
      * intros k H. rewrite map_app in H. destruct (Ne k H) as (N & I). rewrite Ap by exact N. apply F. exact I.
  - split; [rewrite app_nil_r; exact T|]. split; [rewrite app_nil_r; exact D|]. split.
    + apply Wo; auto. unfold way_of. cbn [p_dates p_converters]. rewrite F1, Sx. cbn [way_for]. rewrite E1, E2. reflexivity.
    + intros k H. rewrite map_app in H. destruct (Ne k H) as (N & I). rewrite Ap by exact N. apply F. exact I.
  - split; [rewrite T; reflexivity|]. split; [rewrite app_nil_r; exact D|]. split.
    + apply Wo; auto. unfold way_of. cbn [p_dates p_converters p_dtype]. rewrite F1, F2, sget_sset_same. cbn [way_for].
      rewrite E1, E2, E3. reflexivity.
    + intros k H. rewrite map_app in H. destruct (Ne k H) as (N & I). rewrite So by exact N. apply F. exact I.
  - split; [rewrite app_nil_r; exact T|]. split; [rewrite app_nil_r; exact D|]. split.
    + apply Wo; auto. unfold way_of. cbn [p_dates p_converters p_dtype]. rewrite F1, F2, sget_sset_same. cbn [way_for].
      rewrite E1, E2, E3. reflexivity.
    + intros k H. rewrite map_app in H. destruct (Ne k H) as (N & I). rewrite So by exact N. apply F. exact I.
Qed.

Section frames.
  Variables (cells column : Type).
  Variables (read : way -> cells -> column) (to_timedelta : column -> column) (astype : pystr -> column -> column).
  Lemma update_form k f (df : list (pystr * column)) : NoDup (map fst df) -> In k (map fst df) ->
    update column k f df = Ret (map (fun kc => (fst kc, if seqb (fst kc) k then f (snd kc) else snd kc)) df).
  Proof.
    intros ND I. unfold update. destruct (sget k df) as [c|] eqn:G; [|exfalso; apply sget_None in G; contradiction].
    f_equal. revert ND G. clear I. induction df as [|[k' c'] df IH]; intros ND G; [discriminate G|].
    cbn [map fst snd sset sget] in *. inversion ND as [|? ? Nk ND']; subst.
    destruct (seqb_spec k k') as [->|N].
    - injection G as <-. rewrite seqb_refl. f_equal. rewrite <- (map_id df) at 1. apply map_ext_in.
      intros [a b] Ia. cbn [fst snd]. destruct (seqb_spec a k') as [->|]; [|reflexivity].
      exfalso. apply Nk. exact (in_map fst _ _ Ia).
    - destruct (seqb_spec k' k) as [->|]; [contradiction|]. f_equal. auto.
  Qed.
  Lemma updates_form fs : forall (df : list (pystr * column)), NoDup (map fst fs) -> NoDup (map fst df) ->
    (forall k, In k (map fst fs) -> In k (map fst df)) ->
    updates column fs df =
      Ret (map (fun kc => (fst kc, match sget (fst kc) fs with Some f => f (snd kc) | None => snd kc end)) df).
  Proof.
    induction fs as [|[k f] fs IH]; intros df Nf Nd S; cbn [updates].
    - f_equal. rewrite <- (map_id df) at 1. apply map_ext. intros [a b]. reflexivity.
    - cbn [map fst] in Nf. inversion Nf as [|? ? Nk Nf']; subst.
      rewrite update_form; [|exact Nd|apply S; left; reflexivity].
      rewrite IH; [|exact Nf'|rewrite map_map; exact Nd|].
      + f_equal. rewrite map_map. apply map_ext. intros [a b]. cbn [fst snd sget].
        destruct (seqb_spec a k) as [->|]; [|reflexivity].
        destruct (sget k fs) eqn:G; [|reflexivity].
        exfalso. apply Nk. destruct (in_dec (list_eq_dec N.eq_dec) k (map fst fs)) as [X|X]; [exact X|].
        apply sget_None in X. congruence.
      + intros x I. rewrite map_map. cbn [fst]. apply S. right. exact I.
  Qed.
  Lemma sget_marked {V W} (p : pystr * V -> bool) (g : pystr * V -> W) l k : NoDup (map fst l) ->
    sget k (map (fun kv => (fst kv, g kv)) (filter p l)) =
      match sget k l with Some v => if p (k, v) then Some (g (k, v)) else None | None => None end.
  Proof.
    induction l as [|[k' v'] l IH]; intros ND; [reflexivity|]. cbn [map fst] in ND. inversion ND as [|? ? Nk ND']; subst.
    cbn [filter sget]. destruct (seqb_spec k k') as [->|N].
    - destruct (p (k', v')); cbn [map sget fst]; [rewrite seqb_refl; reflexivity|].
      rewrite IH by exact ND'. apply sget_None in Nk. rewrite Nk. reflexivity.
    - destruct (p (k', v')); cbn [map sget fst]; [destruct (seqb_spec k k'); [contradiction|]|]; auto.
  Qed.
  Lemma sub_nodup {V} (p : pystr * V -> bool) l : NoDup (map fst l) -> NoDup (map fst (filter p l)).
  Proof.
    induction l as [|[k v] l IH]; intros ND; [exact ND|]. cbn [map fst] in ND. inversion ND as [|? ? Nk ND']; subst.
    cbn [filter]. destruct (p (k, v)); [|auto]. cbn [map fst]. constructor; auto.
    intros I. apply Nk. apply in_map_iff in I as (q & E & I). apply filter_In in I as (I & _). rewrite <- E. apply in_map. exact I.
  Qed.
  Lemma sub_in {V} (p : pystr * V -> bool) l x : In x (map fst (filter p l)) -> In x (map fst l).
  Proof. intros I. apply in_map_iff in I as (q & E & I). apply filter_In in I as (I & _). rewrite <- E. apply in_map. exact I. Qed.

End frames.

(** C82.  Every column is made from its text by its own dtype, whatever the other columns are and in whatever
    order the dtypes are written. *)
Theorem C82_columns :
  forall (cells column : Type) (read : way -> cells -> column) (to_timedelta : column -> column)
         (astype : pystr -> column -> column) dtypes csv, NoDup (map fst dtypes) -> NoDup (map fst csv) ->
  (forall k, In k (map fst dtypes) -> In k (map fst csv)) ->
  restore_v3_3 cells column read to_timedelta astype dtypes csv =
    Ret (map (fun kc => (fst kc, one_column cells column read to_timedelta astype (sget (fst kc) dtypes) (snd kc))) csv).
Proof.
  intros cells column read to_timedelta astype dtypes csv Nd Nc S. unfold restore_v3_3. destruct (sorted_form dtypes Nd) as (T & D & W & _).
  set (s := make_read_csv_params dtypes) in *. rewrite T, D.
  set (td := fun kv => negb (is_dt kv) && negb (is_co kv) && is_td kv).
  rewrite map_map.
  rewrite updates_form.
  - rewrite updates_form.
    + f_equal. unfold read_csv. rewrite !map_map. apply map_ext. intros [k c]. cbn [fst snd]. f_equal.
      rewrite (sget_marked is_dt (fun kd => astype (snd kd))) by exact Nd.
      rewrite (sget_marked td (fun _ => to_timedelta)) by exact Nd. rewrite W.
      destruct (sget k dtypes) as [v|]; [|reflexivity].
      unfold td, is_dt, is_co, is_td, one_column, way_for. cbn [snd].
      destruct (prefixb (u "datetime") v) eqn:E1; [reflexivity|]. cbn [negb andb].
      destruct (prefixb (u "complex") v) eqn:E2; cbn [negb andb].
      * rewrite (apart (u "complex") (u "timedelta") v ltac:(discriminate) ltac:(discriminate) ltac:(discriminate) E2). reflexivity.
      * destruct (prefixb (u "timedelta") v); reflexivity.
    + rewrite map_map. apply sub_nodup. exact Nd.
    + unfold read_csv. rewrite !map_map. exact Nc.
    + intros k I. unfold read_csv. rewrite !map_map in *. cbn [fst] in *. apply S. exact (sub_in _ _ _ I).
  - rewrite map_map. apply sub_nodup. exact Nd.
  - unfold read_csv. rewrite map_map. exact Nc.
  - intros k I. unfold read_csv. rewrite map_map in *. cbn [fst] in *. apply S. exact (sub_in _ _ _ I).
Qed.
Print Assumptions C82_columns.

(** Four columns, one of each kind, and one that the document says nothing about. *)
Example C82_case :
  let dtypes := [(u "t", u "timedelta64[ns]"); (u "a", u "int64"); (u "d", u "datetime64[ns]"); (u "z", u "complex128")] in
  let csv := [(u "a", 1); (u "d", 2); (u "n", 3); (u "t", 4); (u "z", 5)] in
  NoDup (map fst dtypes) /\ NoDup (map fst csv) /\ (forall k, In k (map fst dtypes) -> In k (map fst csv)) /\
  restore_v3_3 nat (list nat * way * list pystr) (fun w c => ([c], w, [])) (fun c => (fst c, [u "to_timedelta"]))
    (fun d c => (fst c, [d])) dtypes csv =
  Ret [(u "a", ([1], Given (u "int64"), [])); (u "d", ([2], Dates, [u "datetime64[ns]"])); (u "n", ([3], Unsaid, []));
       (u "t", ([4], Given (u "object"), [u "to_timedelta"])); (u "z", ([5], Complex, []))].
Proof.
  cbn zeta. split; [repeat constructor; cbn; intuition discriminate|]. split; [repeat constructor; cbn; intuition discriminate|].
  split; [cbn; intuition subst; auto 10|]. vm_compute. reflexivity.
Qed.
