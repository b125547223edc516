(** C60 (data frames), C61 (index names), C62 (dtype tags of another process). *)
From Verif Require Import PyStr B64 Json Base Utf8 Pandas DtypeTags Frames PropPandas PropDtypeTags.
Open Scope nat_scope.

Section frames.
  Context {L C : Type} (leqb : L -> L -> bool) (is_complex : C -> bool) (encode_item : C -> C) (decode_item : C -> res C).
  Context (encode_data : list (L * list C) -> pystr) (decode_data : pystr -> res (list (L * list C))).
  Context (encode_labels : list L -> pystr) (decode_labels : pystr -> res (list L)).
  Context (encode_index : list C -> pystr) (decode_index : pystr -> res (list C)).
  Context (build : list C -> pystr * list C) (astype : pystr -> pystr * list C -> res (pystr * list C)).
  Context (tags names : list (pystr * pystr)).
  Hypothesis Leq : forall a b, leqb a b = true <-> a = b.
  Hypothesis Inv : forall s t, sget s tags = Some t -> sget t names = Some s.
  Hypothesis NoJp : forall s, sget s tags <> Some JP.
  Hypothesis NoObj : sget OBJECT_ names = None.

  Definition items (c : column (L := L) (C := C)) : bool := seqb (col_dtype c) OBJECT_ && existsb is_complex (col_values c).
  Definition stored (c : column (L := L) (C := C)) : list C := if items c then map encode_item (col_values c) else col_values c.
  Definition code (c : column (L := L) (C := C)) : pystr :=
    if items c then JP else match sget (col_dtype c) tags with Some t => t | None => OBJECT_ end.

  Lemma leqb_refl l : leqb l l = true. Proof. apply Leq; auto. Qed.
  Lemma lset_new {V} l (v : V) m : ~ In l (map fst m) -> lset leqb l v m = m ++ [(l, v)].
  Proof.
    induction m as [|[x y] m IH]; cbn [lset app map fst]; intros N; auto. destruct (leqb l x) eqn:E.
    - apply Leq in E. subst. destruct N. left. auto.
    - rewrite IH; auto. intros I. apply N. right. auto.
  Qed.
  Lemma lget_in {V} l (v : V) m : NoDup (map fst m) -> In (l, v) m -> lget leqb l m = Some v.
  Proof.
    induction m as [|[x y] m IH]; intros N I; [destruct I|]. cbn [lget]. cbn [map fst] in N. inversion N; subst. destruct I as [I|I].
    - inversion I; subst. rewrite leqb_refl. auto.
    - destruct (leqb l x) eqn:E; auto. apply Leq in E. subst. destruct H1. apply (in_map fst) in I. exact I.
  Qed.
  Lemma lget_out {V} l (m : list (L * V)) : ~ In l (map fst m) -> lget leqb l m = None.
  Proof.
    induction m as [|[x y] m IH]; intros N; auto. cbn [lget]. destruct (leqb l x) eqn:E.
    - apply Leq in E. subst. destruct N. left. auto.
    - apply IH. intros I. apply N. right. auto.
  Qed.
  Lemma single c all : In c all -> NoDup (map col_label all) ->
    length (filter (fun c' : column (L := L) (C := C) => leqb (col_label c) (col_label c')) all) = 1.
  Proof.
    induction all as [|x all IH]; intros I N; [destruct I|]. cbn [map] in N. inversion N; subst. cbn [filter]. destruct I as [->|I].
    - rewrite leqb_refl. cbn [length]. f_equal. clear - H1 Leq. induction all as [|y all IH]; auto. cbn [filter].
      destruct (leqb (col_label c) (col_label y)) eqn:E; [apply Leq in E; destruct H1; left; auto|]. apply IH. intros I. apply H1. right. auto.
    - destruct (leqb (col_label c) (col_label x)) eqn:E; auto. apply Leq in E. destruct H1. rewrite <- E. apply in_map. exact I.
  Qed.
  Lemma flatten_columns_eq all : NoDup (map col_label all) -> forall cols data codes, incl cols all ->
    NoDup (map fst data ++ map col_label cols) ->
    flatten_columns leqb is_complex encode_item tags all cols data codes =
      Ret (data ++ map (fun c => (col_label c, stored c)) cols, codes ++ map code cols).
  Proof.
    intros N. induction cols as [|c cols IH]; intros data codes I D; cbn [flatten_columns map].
    - rewrite !app_nil_r. reflexivity.
    - rewrite (single c all) by (auto; apply I; left; auto). cbn [Nat.ltb Nat.leb]. cbv zeta.
      cbn [map] in D. assert (Nc : ~ In (col_label c) (map fst data)) by (intros X; apply NoDup_remove_2 in D; apply D; apply in_or_app; auto).
      assert (X : forall v cd, flatten_columns leqb is_complex encode_item tags all cols (lset leqb (col_label c) v data) (codes ++ [cd]) =
        Ret (data ++ (col_label c, v) :: map (fun c => (col_label c, stored c)) cols, codes ++ cd :: map code cols)).
      { intros v cd. rewrite IH.
        - rewrite lset_new by auto. rewrite <- !app_assoc. reflexivity.
        - intros y Y. apply I. right. auto.
        - rewrite lset_new by auto. rewrite map_app, <- app_assoc. exact D. }
      change (seqb (col_dtype c) OBJECT_ && existsb is_complex (col_values c)) with (items c).
      replace (stored c) with (if items c then map encode_item (col_values c) else col_values c) by reflexivity.
      replace (code c) with (if items c then JP else match sget (col_dtype c) tags with Some t => t | None => OBJECT_ end) by reflexivity.
      destruct (items c); apply X.
  Qed.
  Lemma duplicate_raises all p c q c' r : all = p ++ c :: q ++ c' :: r -> col_label c' = col_label c ->
    flatten_columns leqb is_complex encode_item tags all all [] [] = Exc EAttributeError.
  Proof.
    intros E Q.
    assert (Two : 1 < length (filter (fun x : column (L := L) (C := C) => leqb (col_label c) (col_label x)) all)).
    { subst all. rewrite filter_app. cbn [filter]. rewrite leqb_refl, filter_app. cbn [filter]. rewrite Q, leqb_refl.
      rewrite app_length. cbn [length]. rewrite app_length. cbn [length]. lia. }
    assert (G : forall cols data codes, In c cols -> flatten_columns leqb is_complex encode_item tags all cols data codes = Exc EAttributeError).
    { induction cols as [|x cols IH]; intros data codes I; [destruct I|]. cbn [flatten_columns]. destruct I as [->|I].
      - apply Nat.ltb_lt in Two. rewrite Two. reflexivity.
      - destruct (1 <? _); [reflexivity|]. cbv zeta. destruct (_ && _); apply IH; exact I. }
    apply G. rewrite E. apply in_elt.
  Qed.

  Definition undone (c : column (L := L) (C := C)) : Prop := items c = true -> forall x, In x (col_values c) -> decode_item (encode_item x) = Ret x.
  Lemma decode_items_eq l : (forall x, In x l -> decode_item (encode_item x) = Ret x) -> decode_items decode_item (map encode_item l) = Ret l.
  Proof.
    induction l as [|x l IH]; intros H; cbn [decode_items map]; auto. rewrite (H x) by (left; auto). rewrite IH; auto. intros y I. apply H. right. auto.
  Qed.
  (** the dtype that a column is given on decoding *)
  Definition given (c : column (L := L) (C := C)) : pystr :=
    match sget (col_dtype c) tags with Some _ => col_dtype c | None => OBJECT_ end.
  Definition type_entries (cols : list (column (L := L) (C := C))) : list (L * pystr) :=
    flat_map (fun c => if items c then [] else [(col_label c, given c)]) cols.
  Lemma entries_labels cols : incl (map fst (type_entries cols)) (map col_label cols).
  Proof.
    induction cols as [|c cols IH]; cbn [type_entries flat_map map]; [intros x []|].
    destruct (items c); cbn [app map fst]; intros x I; [right; apply IH; exact I|]. destruct I as [<-|I]; [left; auto|right; apply IH; exact I].
  Qed.
  Lemma code_jp c : seqb (code c) JP = items c.
  Proof.
    unfold code. destruct (items c); [apply seqb_refl|]. destruct (sget (col_dtype c) tags) as [t|] eqn:E; [|reflexivity].
    destruct (seqb_spec t JP) as [->|]; auto. destruct (NoJp _ E).
  Qed.
  Lemma code_given c : items c = false -> match sget (code c) names with Some d => d | None => OBJECT_ end = given c.
  Proof.
    intros E. unfold code, given. rewrite E. destruct (sget (col_dtype c) tags) as [t|] eqn:G; [rewrite (Inv _ _ G); auto|rewrite NoObj; auto].
  Qed.
  Lemma restore_columns_eq dc : NoDup (map fst dc) -> forall cols df dt,
    (forall c, In c cols -> In (col_label c, stored c) dc /\ undone c) ->
    NoDup (map fst df ++ map col_label cols) -> NoDup (map fst dt ++ map col_label cols) ->
    restore_columns leqb decode_item names (map (fun c => (col_label c, code c)) cols) dc df dt =
      Ret (df ++ map (fun c => (col_label c, col_values c)) cols, dt ++ type_entries cols).
  Proof.
    intros N. induction cols as [|c cols IH]; intros df dt H D1 D2; cbn [map restore_columns type_entries flat_map].
    - rewrite !app_nil_r. reflexivity.
    - destruct (H c (or_introl eq_refl)) as [I U]. rewrite (lget_in _ _ _ N I), code_jp.
      cbn [map] in D1, D2. assert (N1 : ~ In (col_label c) (map fst df)) by (intros X; apply NoDup_remove_2 in D1; apply D1; apply in_or_app; auto).
      assert (N2 : ~ In (col_label c) (map fst dt)) by (intros X; apply NoDup_remove_2 in D2; apply D2; apply in_or_app; auto).
      destruct (items c) eqn:E.
      + unfold stored. rewrite E, decode_items_eq by (apply U; exact E). rewrite IH.
        * rewrite lset_new by auto. rewrite <- app_assoc. reflexivity.
        * intros y Y. apply H. right. auto.
        * rewrite lset_new by auto. rewrite map_app, <- app_assoc. exact D1.
        * apply NoDup_remove_1 in D2. exact D2.
      + rewrite code_given by auto. unfold stored. rewrite E. rewrite IH.
        * rewrite !lset_new by auto. rewrite <- !app_assoc. reflexivity.
        * intros y Y. apply H. right. auto.
        * rewrite lset_new by auto. rewrite map_app, <- app_assoc. exact D1.
        * rewrite lset_new by auto. rewrite map_app, <- app_assoc. exact D2.
  Qed.
  (** What becomes of a column: its values, put into a new frame, are converted to the dtype. *)
  Definition converted (d : pystr) (c : column (L := L) (C := C)) : column :=
    let r := match astype d (build (col_values c)) with Ret x => x | _ => build (col_values c) end in mkCol (col_label c) (fst r) (snd r).
  Lemma typed_eq cols c : NoDup (map col_label cols) -> In c cols ->
    typed leqb build astype (type_entries cols) (col_label c, col_values c) = converted (if items c then OBJECT_ else given c) c.
  Proof.
    intros N I. unfold typed, converted. cbn [fst snd].
    replace (lget leqb (col_label c) (type_entries cols)) with (if items c then None else Some (given c)); [destruct (items c); reflexivity|].
    symmetry. assert (ND : NoDup (map fst (type_entries cols))).
    { clear - N. induction cols as [|x cols IH]; cbn [type_entries flat_map map]; [constructor|]. cbn [map] in N. inversion N; subst.
      destruct (items x); cbn [app map fst]; auto. constructor; auto. intros X. apply H1. apply (entries_labels cols). exact X. }
    destruct (items c) eqn:E.
    - apply lget_out. clear - N I E. induction cols as [|x cols IH]; [destruct I|]. cbn [map] in N. inversion N; subst.
      cbn [type_entries flat_map]. destruct I as [->|I].
      + rewrite E. cbn [app]. intros X. apply H1. apply (entries_labels cols). exact X.
      + destruct (items x) eqn:Ex; cbn [app map fst]; [apply IH; auto|]. intros [X|X]; [|apply IH in X; auto].
        apply H1. rewrite X. apply in_map. exact I.
    - apply lget_in; auto. unfold type_entries. apply in_flat_map. exists c. split; auto. rewrite E. left. reflexivity.
  Qed.
  Lemma read_runs_eq l : match runs_json l with JList x => read_runs x | _ => Ret [] end = Ret l.
  Proof.
    unfold runs_json. induction l as [|[t n] l IH]; cbn [map read_runs fst snd]; auto. rewrite IH, Nat2Z.id. reflexivity.
  Qed.

  Variables (p : processor) (f : frame (L := L) (C := C)) (data d : jobj).
  Let labels := map col_label (fr_cols f).
  Hypothesis Nl : NoDup labels.
  Hypothesis Hdata : forall dc, map fst dc = labels -> decode_data (encode_data dc) = Ret dc.
  Hypothesis Hlabels : decode_labels (encode_labels labels) = Ret labels.
  Hypothesis Hindex : decode_index (encode_index (fr_index f)) = Ret (fr_index f).
  Hypothesis Hitems : forall c, In c (fr_cols f) -> undone c.
  Hypothesis Nc : sget (u "comp") data = None.
  Hypothesis Hc : forall c dc b, pr_compression p = Some (c, dc) -> dc (c b) = Ret b.
  Lemma frame_back : flatten_frame leqb is_complex encode_item encode_data encode_labels encode_index tags p f data = Ret d ->
    restore_frame leqb decode_item decode_data decode_labels decode_index build astype names p d =
      Ret (mkFrame (map (fun c => converted (if items c then OBJECT_ else given c) c) (fr_cols f))
             (fr_colnames f) (fr_multicols f) (fr_index f) (fr_idxnames f) (fr_multiidx f)).
  Proof.
    unfold flatten_frame. rewrite flatten_columns_eq; [|exact Nl|apply incl_refl|exact Nl]. cbn [app]. cbv zeta. intros H.
    apply (C46_payload p _ data _ d Nc Hc) in H. unfold restore_frame. rewrite H. rewrite Hdata.
    2:{ rewrite map_map. reflexivity. }
    cbv [jget_or jget]. cbn [sget].
    repeat match goal with |- context [seqb (u ?a) (u ?b)] => let r := eval vm_compute in (seqb (u a) (u b)) in change (seqb (u a) (u b)) with r end. cbv iota.
    pose proof (read_runs_eq (rle_encode seqb (map code (fr_cols f)))) as RR. unfold runs_json in RR |- *. rewrite RR. fold labels. rewrite Hlabels.
    rewrite C46_rle_roundtrip by (intros; apply seqb_eq).
    replace (combine labels (map code (fr_cols f))) with (map (fun c => (col_label c, code c)) (fr_cols f)).
    2:{ unfold labels. clear. induction (fr_cols f) as [|c l IH]; cbn [map combine]; auto. rewrite IH. reflexivity. }
    assert (ML : forall (g : column -> list C) l, map fst (map (fun c : column (L := L) (C := C) => (col_label c, g c)) l) = map col_label l)
      by (intros g l; rewrite map_map; reflexivity).
    rewrite restore_columns_eq; [|rewrite ML; exact Nl| |exact Nl|exact Nl].
    2:{ intros c I. split; [|apply Hitems; exact I]. apply in_map_iff. exists c. auto. }
    cbn [app]. unfold labels. rewrite !map_length, Nat.eqb_refl. cbn [negb]. rewrite Hindex. cbn [jtruthy]. f_equal. f_equal.
    rewrite map_map. apply map_ext_in. intros c I. apply typed_eq; auto.
  Qed.
End frames.

Section maps.
  Variables (isdigit : N -> bool) (lower : pystr -> pystr) (np pd : list pystr) (tags : list (pystr * pystr)).
  Hypothesis Nn : NoDup np.
  Hypothesis Np : NoDup pd.
  Hypothesis T : type_map isdigit lower np pd = Ret tags.
  Lemma tags_form s t : sget s tags = Some t -> exists x, t = u "np" ++ u "/" ++ x \/ t = u "pd" ++ u "/" ++ x.
  Proof.
    unfold type_map in T. destruct (smallest_unique isdigit lower (u "np") np) as [a| |] eqn:A; try discriminate;
      destruct (smallest_unique isdigit lower (u "pd") pd) as [b| |] eqn:B; try discriminate. inversion T; subst tags.
    destruct (smallest_spec _ _ _ _ _ Nn A) as (Ka & Fa & _). destruct (smallest_spec _ _ _ _ _ Np B) as (Kb & Fb & _).
    rewrite fold_sset_get by (rewrite Kb; auto). intros G. destruct (sget s b) as [v|] eqn:E.
    - inversion G; subst. apply sget_In in E. destruct (Fb _ _ E) as (x & -> & _). eauto.
    - apply sget_In in G. destruct (Fa _ _ G) as (x & -> & _). eauto.
  Qed.
  Lemma tags_listed s : sget s tags = None <-> ~ (In s np \/ In s pd).
  Proof.
    unfold type_map in T. destruct (smallest_unique isdigit lower (u "np") np) as [a| |] eqn:A; try discriminate;
      destruct (smallest_unique isdigit lower (u "pd") pd) as [b| |] eqn:B; try discriminate. inversion T; subst tags.
    destruct (smallest_spec _ _ _ _ _ Nn A) as (Ka & _). destruct (smallest_spec _ _ _ _ _ Np B) as (Kb & _).
    rewrite fold_sset_get by (rewrite Kb; auto). rewrite <- Ka, <- Kb.
    destruct (sget s b) as [v|] eqn:E.
    - split; [discriminate|]. intros H. destruct H. right. apply sget_In in E. apply (in_map fst) in E. exact E.
    - split.
      + intros G [I|I]; revert I; apply sget_None; auto.
      + intros H. apply sget_None. tauto.
  Qed.
  Lemma reverse_keys m : forall r k, sget k (fold_left (fun r (kv : pystr * pystr) => sset (snd kv) (fst kv) r) m r) <> None -> sget k r <> None \/ In k (map snd m).
  Proof.
    induction m as [|[a t] m IH]; intros r k H; cbn [fold_left fst snd map] in *; auto. apply IH in H. destruct H as [H|H]; [|right; right; auto].
    destruct (seqb_spec k t) as [->|D]; [right; left; auto|]. rewrite sget_sset_other in H by auto. auto.
  Qed.
  Lemma no_object_tag : NoDup (keys tags) -> sget OBJECT_ (reverse_map tags) = None.
  Proof.
    intros N. destruct (sget OBJECT_ (reverse_map tags)) eqn:E; auto. exfalso.
    destruct (reverse_keys tags [] OBJECT_) as [H|H]; [unfold reverse_map in E; rewrite E; discriminate|apply H; reflexivity|].
    apply in_map_iff in H. destruct H as ([s t] & X & I). cbn [snd] in X. subst t. apply In_sget in I; auto.
    destruct (tags_form _ _ I) as (x & [Y|Y]); discriminate Y.
  Qed.
  Lemma tags_nodup : NoDup (keys tags).
  Proof.
    unfold type_map in T. destruct (smallest_unique isdigit lower (u "np") np) as [a| |] eqn:A; try discriminate;
      destruct (smallest_unique isdigit lower (u "pd") pd) as [b| |] eqn:B; try discriminate. inversion T; subst tags.
    destruct (smallest_spec _ _ _ _ _ Nn A) as (Ka & _). apply fold_sset_NoDup. rewrite Ka. exact Nn.
  Qed.
  Lemma no_jp s : sget s tags <> Some JP.
  Proof. intros H. destruct (tags_form _ _ H) as (x & [Y|Y]); discriminate Y. Qed.
End maps.

(** The nested calls of encode and decode give back the labels, the index, the columns' values
    and the cells that are encoded one by one; compression can be undone. *)
Record nested_ok {L C} (is_complex : C -> bool) (encode_item : C -> C) (decode_item : C -> res C)
    (encode_data : list (L * list C) -> pystr) (decode_data : pystr -> res (list (L * list C)))
    (encode_labels : list L -> pystr) (decode_labels : pystr -> res (list L))
    (encode_index : list C -> pystr) (decode_index : pystr -> res (list C)) (p : processor) (f : frame (L := L) (C := C)) : Prop := {
  no_data : forall dc, map fst dc = map col_label (fr_cols f) -> decode_data (encode_data dc) = Ret dc;
  no_labels : decode_labels (encode_labels (map col_label (fr_cols f))) = Ret (map col_label (fr_cols f));
  no_index : decode_index (encode_index (fr_index f)) = Ret (fr_index f);
  no_items : forall c x y, In c (fr_cols f) -> In x (col_values c) -> In y (col_values c) -> is_complex y = true ->
    decode_item (encode_item x) = Ret x;
  no_comp : forall c dc b, pr_compression p = Some (c, dc) -> dc (c b) = Ret b }.

(** C60.  A frame with distinct labels comes back with its labels, values and dtypes in order,
    its index and the names of both axes, for any lists of dtype names without ambiguity (C47)
    that have the frame's dtypes, if pandas can turn a column's values, put in a new frame, into
    the column again. *)
Theorem C60_frames :
  forall L C (leqb : L -> L -> bool) (is_complex : C -> bool) encode_item decode_item
    (encode_data : list (L * list C) -> pystr) decode_data encode_labels decode_labels encode_index decode_index build astype
    isdigit lower np pd tags p f data d,
  (forall a b, leqb a b = true <-> a = b) ->
  NoDup np -> NoDup pd ->
  (forall s s', In s np -> In s' np -> s <> s' -> ~ shortens isdigit lower s s') ->
  (forall s s', In s pd -> In s' pd -> s <> s' -> ~ shortens isdigit lower s s') ->
  type_map isdigit lower np pd = Ret tags ->
  nested_ok is_complex encode_item decode_item encode_data decode_data encode_labels decode_labels encode_index decode_index p f ->
  NoDup (map col_label (fr_cols f)) -> sget (u "comp") data = None ->
  (forall c, In c (fr_cols f) -> (In (col_dtype c) np \/ In (col_dtype c) pd \/ col_dtype c = u "object") /\
     astype (col_dtype c) (build (col_values c)) = Ret (col_dtype c, col_values c)) ->
  flatten_frame leqb is_complex encode_item encode_data encode_labels encode_index tags p f data = Ret d ->
  restore_frame leqb decode_item decode_data decode_labels decode_index build astype (reverse_map tags) p d = Ret f.
Proof.
  intros L C leqb is_complex ei di ed dd el dl ex dx build astype isdigit lower np pd tags p f data d Leq Nn Np Sn Sp T [O1 O2 O3 O4 O5] Nl Nc H Fl.
  erewrite (frame_back leqb is_complex ei di ed dd el dl ex dx build astype tags (reverse_map tags) Leq
    (C47_reverse_map isdigit lower np pd tags Nn Np Sn Sp T) (no_jp isdigit lower np pd tags Nn Np T)
    (no_object_tag isdigit lower np pd tags Nn Np T (tags_nodup isdigit lower np pd tags Nn T)) p f data d Nl); eauto.
  2:{ intros c I E x Ix. unfold items in E. apply andb_true_iff in E. destruct E as [_ E]. apply existsb_exists in E. destruct E as (y & Iy & E). eauto. }
  f_equal. destruct f as [cols a b x y z]. cbn [fr_cols fr_colnames fr_multicols fr_index fr_idxnames fr_multiidx] in *. f_equal.
  rewrite <- (map_id cols) at 2. apply map_ext_in. intros c I. destruct (H c I) as [HD HA]. unfold converted.
  replace (if items is_complex c then OBJECT_ else given tags c) with (col_dtype c).
  - rewrite HA. destruct c. reflexivity.
  - unfold items. destruct (seqb_spec (col_dtype c) OBJECT_) as [E|E]; cbn [andb].
    + unfold given. rewrite E. destruct (existsb _ _); [reflexivity|]. destruct (sget OBJECT_ tags); reflexivity.
    + unfold given. destruct (sget (col_dtype c) tags) eqn:G; auto. exfalso.
      apply (proj1 (tags_listed isdigit lower np pd tags Nn Np T _)) in G. destruct HD as [HD|[HD|HD]]; [tauto|tauto|exact (E HD)].
Qed.
Print Assumptions C60_frames.
(** It is written, if the text of the columns has no lone surrogates. *)
Theorem C60_total :
  forall L C (leqb : L -> L -> bool) (is_complex : C -> bool) encode_item (encode_data : list (L * list C) -> pystr) encode_labels encode_index tags p f data,
  (forall a b, leqb a b = true <-> a = b) -> NoDup (map col_label (fr_cols f)) ->
  (forall dc, Forall (fun c => (c < 55296 \/ 57343 < c /\ c < 1114112)%N) (encode_data dc)) ->
  pr_compression p <> None \/ pr_threshold p = None ->
  exists d, flatten_frame leqb is_complex encode_item encode_data encode_labels encode_index tags p f data = Ret d.
Proof.
  intros L C leqb is_complex ei ed el ex tags p f data Leq Nl S P. unfold flatten_frame.
  rewrite flatten_columns_eq; [|exact Leq|exact Nl|apply incl_refl|exact Nl]. apply C46_payload_total; auto.
Qed.
Print Assumptions C60_total.
(** Two columns with one label cannot be encoded. *)
Theorem C60_duplicate_labels_refuted :
  forall L C (leqb : L -> L -> bool) (is_complex : C -> bool) encode_item (encode_data : list (L * list C) -> pystr) encode_labels encode_index tags p f data
    before c between c' after,
  (forall a b, leqb a b = true <-> a = b) -> fr_cols f = before ++ c :: between ++ c' :: after -> col_label c' = col_label c ->
  flatten_frame leqb is_complex encode_item encode_data encode_labels encode_index tags p f data = Exc EAttributeError.
Proof.
  intros L C leqb is_complex ei ed el ex tags p f data p1 c q c' r Leq E Q. unfold flatten_frame.
  rewrite (duplicate_raises leqb is_complex ei tags Leq (fr_cols f) p1 c q c' r E Q). reflexivity.
Qed.
Print Assumptions C60_duplicate_labels_refuted.
(** A column whose dtype is not listed is given dtype object. *)
Theorem C60_unlisted_dtype :
  forall L C (leqb : L -> L -> bool) (is_complex : C -> bool) encode_item decode_item
    (encode_data : list (L * list C) -> pystr) decode_data encode_labels decode_labels encode_index decode_index build astype
    isdigit lower np pd tags p f data d,
  (forall a b, leqb a b = true <-> a = b) ->
  NoDup np -> NoDup pd ->
  (forall s s', In s np -> In s' np -> s <> s' -> ~ shortens isdigit lower s s') ->
  (forall s s', In s pd -> In s' pd -> s <> s' -> ~ shortens isdigit lower s s') ->
  type_map isdigit lower np pd = Ret tags ->
  nested_ok is_complex encode_item decode_item encode_data decode_data encode_labels decode_labels encode_index decode_index p f ->
  NoDup (map col_label (fr_cols f)) -> sget (u "comp") data = None ->
  flatten_frame leqb is_complex encode_item encode_data encode_labels encode_index tags p f data = Ret d ->
  exists f', restore_frame leqb decode_item decode_data decode_labels decode_index build astype (reverse_map tags) p d = Ret f' /\
    map col_label (fr_cols f') = map col_label (fr_cols f) /\ fr_index f' = fr_index f /\
    forall n c, nth_error (fr_cols f) n = Some c -> ~ In (col_dtype c) np -> ~ In (col_dtype c) pd ->
    forall r, astype (u "object") (build (col_values c)) = Ret r ->
    nth_error (fr_cols f') n = Some (mkCol (col_label c) (fst r) (snd r)).
Proof.
  intros L C leqb is_complex ei di ed dd el dl ex dx build astype isdigit lower np pd tags p f data d Leq Nn Np Sn Sp T [O1 O2 O3 O4 O5] Nl Nc Fl.
  eexists. split.
  { apply (frame_back leqb is_complex ei di ed dd el dl ex dx build astype tags (reverse_map tags) Leq
      (C47_reverse_map isdigit lower np pd tags Nn Np Sn Sp T) (no_jp isdigit lower np pd tags Nn Np T)
      (no_object_tag isdigit lower np pd tags Nn Np T (tags_nodup isdigit lower np pd tags Nn T)) p f data d Nl); eauto.
    intros c I E x Ix. unfold items in E. apply andb_true_iff in E. destruct E as [_ E]. apply existsb_exists in E. destruct E as (y & Iy & E). eauto. }
  cbn [fr_cols fr_index]. split; [rewrite map_map; reflexivity|]. split; [reflexivity|].
  intros n c E N1 N2 r A. rewrite nth_error_map, E. cbn [option_map]. unfold converted.
  replace (if items is_complex c then OBJECT_ else given tags c) with (u "object").
  - rewrite A. reflexivity.
  - unfold given. rewrite (proj2 (tags_listed isdigit lower np pd tags Nn Np T _)) by tauto. destruct (items is_complex c); reflexivity.
Qed.
Print Assumptions C60_unlisted_dtype.
(** The lists hold lower-case names only (tags_pd.py:141, 216, 227): no name with a capital, such as
    that of a nullable integer column ("Int64"), is listed. *)
Theorem C60_capitals_unlisted :
  forall (lower : pystr -> pystr) found s, (forall x, lower (lower x) = lower x) -> lower s <> s -> ~ In s (map lower found).
Proof. intros lower found s H N I. apply in_map_iff in I. destruct I as (x & <- & _). apply N. apply H. Qed.
Print Assumptions C60_capitals_unlisted.

(** ** A case *)
(** Labels and cells are numbers; cells from 100 on stand for lists and the like. *)
Definition enc_nats (l : list nat) : pystr := map N.of_nat l.
Definition dec_nats (s : pystr) : res (list nat) := Ret (map N.to_nat s).
Fixpoint enc_cols (dc : list (nat * list nat)) : pystr :=
  match dc with [] => [] | (l, vs) :: r => N.of_nat l :: N.of_nat (length vs) :: enc_nats vs ++ enc_cols r end.
Fixpoint dec_cols (fuel : nat) (s : pystr) : res (list (nat * list nat)) :=
  match fuel, s with
  | S f, l :: n :: r =>
      match dec_cols f (skipn (N.to_nat n) r) with
      | Ret m => Ret ((N.to_nat l, map N.to_nat (firstn (N.to_nat n) r)) :: m)
      | x => x
      end
  | _, [] => Ret []
  | _, _ => Exc EValueError
  end.
Lemma dec_enc_nats l : map N.to_nat (enc_nats l) = l.
Proof. unfold enc_nats. rewrite map_map. rewrite <- (map_id l) at 2. apply map_ext. intros. apply Nat2N.id. Qed.
Lemma dec_enc_cols dc : forall n, length dc <= n -> dec_cols n (enc_cols dc) = Ret dc.
Proof.
  induction dc as [|[l vs] dc IH]; intros n H; cbn [enc_cols]; [destruct n; reflexivity|]. destruct n; [cbn in H; lia|]. cbn [dec_cols].
  rewrite !Nat2N.id. assert (E : length vs = length (enc_nats vs)) by (unfold enc_nats; rewrite map_length; auto).
  rewrite E, skipn_app, skipn_all, Nat.sub_diag. cbn [app skipn]. rewrite IH by (cbn in H; lia).
  rewrite firstn_app, Nat.sub_diag, firstn_O, app_nil_r, firstn_all, dec_enc_nats. reflexivity.
Qed.
Definition D_cols (s : pystr) : res (list (nat * list nat)) := dec_cols (length s) s.
Definition complex_cell (c : nat) : bool := (100 <=? c) && (c <? 200).
Definition E_item (c : nat) : nat := c + 200.
Definition D_item (c : nat) : res nat := if c <? 200 then Exc ETypeError else Ret (c - 200).
Definition plain_build (vs : list nat) : pystr * list nat := (u "any", vs).
Definition plain_astype (d : pystr) (c : pystr * list nat) : res (pystr * list nat) := Ret (d, snd c).
Definition case_np : list pystr := map u ["bool"; "int8"; "int16"; "int64"; "float64"; "object"; "datetime64[ns]"]%string.
Definition case_pd : list pystr := map u ["int64"; "int32"; "boolean"; "category"]%string.
Definition case_tags : list (pystr * pystr) :=
  match type_map adigit alower case_np case_pd with Ret m => m | _ => [] end.
Definition case_frame : frame (L := nat) (C := nat) :=
  mkFrame [mkCol 3 (u "int64") [5; 6]; mkCol 1 (u "object") [101; 7]; mkCol 2 (u "int64") [8; 9]; mkCol 7 (u "boolean") [1; 0]]
    (JStr (u "cols")) false [70; 71] JNull false.
Definition case_flat (f : frame (L := nat) (C := nat)) : res jobj :=
  flatten_frame Nat.eqb complex_cell E_item enc_cols enc_nats enc_nats case_tags proc_id f [(u "py/object", JStr (u "df"))].
Definition case_rest (d : jobj) : res (frame (L := nat) (C := nat)) :=
  restore_frame Nat.eqb D_item D_cols dec_nats dec_nats plain_build plain_astype (reverse_map case_tags) proc_id d.
Lemma case_nested f : nested_ok complex_cell E_item D_item enc_cols D_cols enc_nats dec_nats enc_nats dec_nats proc_id f.
Proof.
  constructor.
  - intros dc _. unfold D_cols. apply dec_enc_cols. induction dc as [|[l vs] dc IH]; cbn [enc_cols length]; [lia|]. rewrite app_length. lia.
  - unfold dec_nats. rewrite dec_enc_nats. reflexivity.
  - unfold dec_nats. rewrite dec_enc_nats. reflexivity.
  - intros c x y _ _ _ _. unfold D_item, E_item. destruct (Nat.ltb_spec (x + 200) 200); [lia|]. f_equal. lia.
  - intros c dc b H. inversion H. cbv beta. rewrite rev_involutive. reflexivity.
Qed.
Example C60_case :
  NoDup case_np /\ NoDup case_pd /\
  (forall s s', In s case_np -> In s' case_np -> s <> s' -> ~ shortens adigit alower s s') /\
  (forall s s', In s case_pd -> In s' case_pd -> s <> s' -> ~ shortens adigit alower s s') /\
  type_map adigit alower case_np case_pd = Ret case_tags /\
  nested_ok complex_cell E_item D_item enc_cols D_cols enc_nats dec_nats enc_nats dec_nats proc_id case_frame /\
  NoDup (map col_label (fr_cols case_frame)) /\
  (forall c, In c (fr_cols case_frame) -> (In (col_dtype c) case_np \/ In (col_dtype c) case_pd \/ col_dtype c = u "object") /\
     plain_astype (col_dtype c) (plain_build (col_values c)) = Ret (col_dtype c, col_values c)) /\
  (exists d, case_flat case_frame = Ret d /\ case_rest d = Ret case_frame).
Proof.
  assert (ND : forall l, (fix nd (l : list pystr) : bool := match l with [] => true | x :: r => negb (smem x r) && nd r end) l = true -> NoDup l).
  { induction l as [|x l IH]; intros H; constructor; apply andb_true_iff in H; destruct H as [H1 H2]; auto.
    intros I. apply smem_In in I. rewrite I in H1. discriminate. }
  split; [apply ND; vm_compute; reflexivity|]. split; [apply ND; vm_compute; reflexivity|].
  split; [apply unshortened_ok; vm_compute; reflexivity|]. split; [apply unshortened_ok; vm_compute; reflexivity|].
  split; [vm_compute; reflexivity|]. split; [apply case_nested|].
  split; [repeat constructor; cbn; intuition discriminate|]. split.
  - intros c I. split; [|reflexivity]. cbn [fr_cols case_frame In] in I.
    repeat (destruct I as [<-|I]; [cbn [col_dtype]; rewrite <- !smem_In; vm_compute; auto|]). destruct I.
  - eexists. split; vm_compute; reflexivity.
Qed.
(** A nullable integer column: dtype "Int64" comes back as object. *)
Theorem C60_nullable_refuted :
  exists f d f', NoDup (map col_label (fr_cols f)) /\ case_flat f = Ret d /\ case_rest d = Ret f' /\
    map col_dtype (fr_cols f) = [u "Int64"; u "int64"] /\ map col_dtype (fr_cols f') = [u "object"; u "int64"].
Proof.
  exists (mkFrame [mkCol 1 (u "Int64") [5; 6]; mkCol 2 (u "int64") [5; 6]] JNull false [0; 1] JNull false).
  eexists. eexists. split; [repeat constructor; cbn; intuition discriminate|]. split; [vm_compute; reflexivity|].
  split; [vm_compute; reflexivity|]. split; vm_compute; reflexivity.
Qed.
Print Assumptions C60_nullable_refuted.

(** ** C61: indexes *)
(** A flat name: None, or a tuple of None, strings and numbers. *)
Definition atom (n : iname) : Prop := match n with NTup _ => False | _ => True end.
Lemma names_back l : Forall atom l -> all_names (map name_json l) = Ret l.
Proof.
  induction 1 as [|n l A F IH]; cbn [map all_names]; auto. rewrite IH. destruct n; cbn; auto. destruct A.
Qed.
Lemma index_back C (encode_list : list C -> pystr) decode_list p multi i data d :
  decode_list (encode_list (ix_values i)) = Ret (ix_values i) ->
  (forall c dc b, pr_compression p = Some (c, dc) -> dc (c b) = Ret b) -> sget (u "comp") data = None ->
  flatten_index encode_list p multi i data = Ret d ->
  restore_index decode_list p d =
    match match name_json (ix_name i) with JNull => Ret NNone | v => tuple_of v end with
    | Ret name => Ret (mkIndex (ix_values i) (ix_dtype i) name)
    | Exc e => Exc e
    | OOF => OOF
    end.
Proof.
  intros V Hc Nc H. unfold flatten_index in H. cbv zeta in H. apply (C46_payload p _ data _ d Nc Hc) in H. unfold restore_index. rewrite H.
  cbv [jget_or jget]. destruct multi; cbn [sget];
  repeat match goal with |- context [seqb (u ?a) (u ?b)] => let r := eval vm_compute in (seqb (u a) (u b)) in change (seqb (u a) (u b)) with r end;
  cbv iota; rewrite V; destruct (name_json (ix_name i)); reflexivity.
Qed.
(** C61.  An index without a name, one whose name is a tuple, and a MultiIndex (whose names are
    handed over as a tuple): the constructor is called with the values, the dtype and the name. *)
Theorem C61_index :
  forall C (encode_list : list C -> pystr) decode_list p multi i data d,
  decode_list (encode_list (ix_values i)) = Ret (ix_values i) ->
  (forall c dc b, pr_compression p = Some (c, dc) -> dc (c b) = Ret b) -> sget (u "comp") data = None ->
  ix_name i = NNone \/ (exists l, ix_name i = NTup l /\ Forall atom l) ->
  flatten_index encode_list p multi i data = Ret d -> restore_index decode_list p d = Ret i.
Proof.
  intros C el dl p multi i data d V Hc Nc Hn H. rewrite (index_back C el dl p multi i data d V Hc Nc H). destruct i as [vs dt n]. cbn [ix_name ix_values ix_dtype] in *.
  destruct Hn as [->|(l & -> & F)]; [reflexivity|]. cbn [name_json tuple_of]. rewrite names_back by auto. reflexivity.
Qed.
Print Assumptions C61_index.
(** A name that is a string is taken apart: the index named "ab" comes back named ("a", "b"). *)
Theorem C61_string_name_refuted :
  forall C (encode_list : list C -> pystr) decode_list p i data d s,
  decode_list (encode_list (ix_values i)) = Ret (ix_values i) ->
  (forall c dc b, pr_compression p = Some (c, dc) -> dc (c b) = Ret b) -> sget (u "comp") data = None ->
  ix_name i = NStr s -> flatten_index encode_list p false i data = Ret d ->
  restore_index decode_list p d = Ret (mkIndex (ix_values i) (ix_dtype i) (NTup (map (fun c => NStr [c]) s))).
Proof.
  intros C el dl p i data d s V Hc Nc Hn H. rewrite (index_back C el dl p false i data d V Hc Nc H), Hn. reflexivity.
Qed.
Print Assumptions C61_string_name_refuted.
(** One with a number for a name cannot be decoded. *)
Theorem C61_number_name_refuted :
  forall C (encode_list : list C -> pystr) decode_list p i data d z,
  decode_list (encode_list (ix_values i)) = Ret (ix_values i) ->
  (forall c dc b, pr_compression p = Some (c, dc) -> dc (c b) = Ret b) -> sget (u "comp") data = None ->
  ix_name i = NInt z -> flatten_index encode_list p false i data = Ret d -> restore_index decode_list p d = Exc ETypeError.
Proof.
  intros C el dl p i data d z V Hc Nc Hn H. rewrite (index_back C el dl p false i data d V Hc Nc H), Hn. reflexivity.
Qed.
Print Assumptions C61_number_name_refuted.
Example C61_case :
  let i := mkIndex [1; 2; 300] (u "int64") (NTup [NStr (u "a"); NNone; NInt 4]) in
  (exists d, flatten_index enc_nats proc_id false i [] = Ret d) /\ dec_nats (enc_nats (ix_values i)) = Ret (ix_values i) /\
  (exists d, flatten_index enc_nats proc_id false (mkIndex [1; 2] (u "int64") (NStr (u "ab"))) [] = Ret d) /\
  (exists d, flatten_index enc_nats proc_id false (mkIndex [1; 2] (u "int64") (NInt 5)) [] = Ret d).
Proof. cbv zeta. repeat split; try (eexists; vm_compute; reflexivity). Qed.

(** ** C62: tags of another process *)
Section later.
  Variables (isdigit : N -> bool) (lower : pystr -> pystr).
  Lemma tag_loop_keeps l : forall st st' s, tag_loop isdigit lower l st = Ret st' -> ~ In s l -> sget s (t_result st') = sget s (t_result st).
  Proof.
    induction l as [|x l IH]; intros st st' s H N; cbn [tag_loop] in H; [inversion H; auto|].
    destruct (tag_step isdigit lower x st) as [st1| |] eqn:E; try discriminate. rewrite (IH st1 st' s H) by (intros I; apply N; right; auto).
    apply tag_step_spec in E. destruct E as (t & -> & _). apply sget_sset_other. intros ->. apply N. left. auto.
  Qed.
  Lemma tag_loop_app l l' : forall st, tag_loop isdigit lower (l ++ l') st =
    match tag_loop isdigit lower l st with Ret st' => tag_loop isdigit lower l' st' | Exc e => Exc e | OOF => OOF end.
  Proof. induction l as [|x l IH]; intros st; cbn [app tag_loop]; auto. destruct (tag_step isdigit lower x st); auto. Qed.
  Lemma sget_map {V W} (g : V -> W) (k : pystr) (m : list (pystr * V)) : sget k (map (fun kv => (fst kv, g (snd kv))) m) = option_map g (sget k m).
  Proof. induction m as [|[a b] m IH]; cbn [map sget fst snd]; auto. destruct (seqb k a); auto. Qed.
End later.
(** Names added at the end leave the tags as they are. *)
Theorem C62_added_names :
  forall isdigit lower p l more m m', NoDup (l ++ more) ->
  smallest_unique isdigit lower p l = Ret m -> smallest_unique isdigit lower p (l ++ more) = Ret m' ->
  forall s, In s l -> sget s m' = sget s m /\ sget s m <> None.
Proof.
  intros isdigit lower p l more m m' N H H' s I.
  assert (Nl : NoDup l) by (clear - N; induction l as [|x l IH]; [constructor|]; cbn [app] in N; inversion N; subst; constructor; auto; intros X; apply H1; apply in_or_app; auto).
  destruct (smallest_spec isdigit lower p l m Nl H) as (K & _). split.
  - unfold smallest_unique in H, H'. rewrite tag_loop_app in H'. destruct (tag_loop isdigit lower l (mkT [] [] [])) as [st| |]; try discriminate.
    destruct (tag_loop isdigit lower more st) as [st'| |] eqn:E; try discriminate.
    apply (f_equal (fun r => match r with Ret x => x | _ => [] end)) in H, H'. subst m m'.
    rewrite !(sget_map (fun x => p ++ u "/" ++ x)). f_equal. eapply tag_loop_keeps; [exact E|].
    intros X. clear - N I X. induction l as [|x l IH]; [destruct I|]. cbn [app] in N. inversion N; subst. destruct I as [->|I]; auto. apply H1. apply in_or_app; auto.
  - intros G. apply sget_None in G. apply G. rewrite K. exact I.
Qed.
Print Assumptions C62_added_names.
(** So a document written with the shorter lists means the same with the longer ones, if no
    numpy name of the former is among the new pandas names. *)
Theorem C62_old_documents :
  forall isdigit lower np pd np' pd' tags tags', NoDup (np ++ np') -> NoDup (pd ++ pd') ->
  (forall s s', In s (np ++ np') -> In s' (np ++ np') -> s <> s' -> ~ shortens isdigit lower s s') ->
  (forall s s', In s (pd ++ pd') -> In s' (pd ++ pd') -> s <> s' -> ~ shortens isdigit lower s s') ->
  (forall s, In s np -> ~ In s pd') ->
  type_map isdigit lower np pd = Ret tags -> type_map isdigit lower (np ++ np') (pd ++ pd') = Ret tags' ->
  forall s t, sget s tags = Some t -> sget t (reverse_map tags') = Some s.
Proof.
  intros isdigit lower np pd np' pd' tags tags' Nn Np Sn Sp Sep T T' s t G.
  apply (C47_reverse_map isdigit lower (np ++ np') (pd ++ pd') tags' Nn Np Sn Sp T').
  assert (NDl : forall l r : list pystr, NoDup (l ++ r) -> NoDup l).
  { clear. induction l as [|x l IH]; intros r N; [constructor|]. cbn [app] in N. inversion N; subst. constructor; eauto. intros X. apply H1. apply in_or_app; auto. }
  unfold type_map in T, T'.
  destruct (smallest_unique isdigit lower (u "np") np) as [a| |] eqn:A; try discriminate;
    destruct (smallest_unique isdigit lower (u "pd") pd) as [b| |] eqn:B; try discriminate.
  destruct (smallest_unique isdigit lower (u "np") (np ++ np')) as [a'| |] eqn:A'; try discriminate;
    destruct (smallest_unique isdigit lower (u "pd") (pd ++ pd')) as [b'| |] eqn:B'; try discriminate.
  apply (f_equal (fun r => match r with Ret x => x | _ => [] end)) in T, T'. subst tags tags'.
  destruct (smallest_spec _ _ _ _ _ (NDl _ _ Nn) A) as (Ka & _). destruct (smallest_spec _ _ _ _ _ (NDl _ _ Np) B) as (Kb & _).
  destruct (smallest_spec _ _ _ _ _ Np B') as (Kb' & _).
  rewrite fold_sset_get in G by (rewrite Kb; eauto). rewrite fold_sset_get by (rewrite Kb'; eauto).
  destruct (sget s b) as [v|] eqn:E.
  - assert (I : In s pd) by (rewrite <- Kb; apply sget_In in E; apply (in_map fst) in E; exact E).
    destruct (C62_added_names _ _ _ _ _ _ _ Np B B' s I) as [-> _]. rewrite E. exact G.
  - assert (I : In s np) by (rewrite <- Ka; apply sget_In in G; apply (in_map fst) in G; exact G).
    replace (sget s b') with (@None pystr).
    + destruct (C62_added_names _ _ _ _ _ _ _ Nn A A' s I) as [-> _]. exact G.
    + symmetry. apply sget_None. rewrite Kb'. intros X. apply in_app_or in X. destruct X as [X|X]; [|exact (Sep s I X)].
      apply sget_None in E. apply E. rewrite Kb. exact X.
Qed.
Print Assumptions C62_old_documents.
(** The order matters, and that of the pandas names is that of a set of classes
    (tags_pd.py:125-131), which differs from process to process: with the same names in two
    orders the tag "pd/i" means int8 here and int16 there. *)
Theorem C62_order_refuted :
  exists np pd pd' tags tags' s s' t, NoDup pd /\ (forall x, In x pd <-> In x pd') /\
    type_map adigit alower np pd = Ret tags /\ type_map adigit alower np pd' = Ret tags' /\
    sget s tags = Some t /\ sget t (reverse_map tags) = Some s /\ sget t (reverse_map tags') = Some s' /\ s <> s'.
Proof.
  exists [u "float64"], [u "int8"; u "int16"], [u "int16"; u "int8"]. eexists. eexists. exists (u "int8"), (u "int16"), (u "pd/i").
  split; [repeat constructor; cbn [In]; intuition discriminate|]. split; [cbn [In]; tauto|].
  split; [vm_compute; reflexivity|]. split; [vm_compute; reflexivity|]. repeat split; try (vm_compute; reflexivity). discriminate.
Qed.
Print Assumptions C62_order_refuted.
(** A new pandas name that is a numpy name: the numpy tag is not known any more. *)
Theorem C62_shared_name_refuted :
  exists np pd' tags tags' s t, NoDup np /\ NoDup pd' /\
    type_map adigit alower np [] = Ret tags /\ type_map adigit alower np pd' = Ret tags' /\
    sget s tags = Some t /\ sget t (reverse_map tags') = None.
Proof.
  exists [u "int64"; u "float64"], [u "int64"]. eexists. eexists. exists (u "int64"), (u "np/i").
  split; [repeat constructor; cbn [In]; intuition discriminate|]. split; [repeat constructor; cbn [In]; tauto|].
  split; [vm_compute; reflexivity|]. split; [vm_compute; reflexivity|]. split; vm_compute; reflexivity.
Qed.
Print Assumptions C62_shared_name_refuted.
Example C62_case :
  let np := case_np in let np' := [u "uint8"; u "float32"] in
  NoDup (np ++ np') /\ (forall s s', In s (np ++ np') -> In s' (np ++ np') -> s <> s' -> ~ shortens adigit alower s s') /\
  match type_map adigit alower np [u "boolean"], type_map adigit alower (np ++ np') ([u "boolean"] ++ [u "category"]) with
  | Ret a, Ret b => map fst a = np ++ [u "boolean"] /\ length b = 11
  | _, _ => False
  end.
Proof.
  cbv zeta. split; [unfold case_np; cbn [map app]; repeat constructor; cbn [In]; intuition discriminate|].
  split; [apply unshortened_ok; vm_compute; reflexivity|]. vm_compute. auto.
Qed.
