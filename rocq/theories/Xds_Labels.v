(** Coordinates through stacking and unstacking. *)
From Verif Require Import Xds_Model Xds_Spec Xds_Proofs Xds_Stack Xds_Round.
From Verif Require Mom_Facts Gen_Facts.
Local Open Scope string_scope.
Local Open Scope list_scope.

Definition labelled (x : xds) (k d : string) (n : nat) (f : nat -> xr) : Prop :=
  sz x d = n /\ exists v, assoc (coords x) k = Some v /\ incl (vdims v) [d] /\ forall ix, ix d < n -> at_ v ix = f (ix d).
Definition nokey (x : xds) (k : string) : Prop := ~ In k (map fst (coords x)).

Lemma lab_dims x k d n f : labelled x k d n f -> exists v, assoc (coords x) k = Some v /\ incl (vdims v) (all_dims x).
Proof.
  intros (_ & v & A & I & _). exists v. split; [exact A|]. intros c Hc. apply in_dims. exists k, v.
  split; [apply in_all_vars; left; apply assoc_mem; exact A|exact Hc].
Qed.
Lemma lab_trans o x k d n f : incl (all_dims x) o -> labelled x k d n f -> labelled (on_ds (vtrans o) x) k d n f.
Proof.
  intros Io L. destruct (lab_dims _ _ _ _ _ L) as (w & A' & Iw). destruct L as (Z & v & A & I & E).
  assert (w = v) by congruence. subst w.
  split; [exact Z|]. exists (vtrans o v). split; [unfold on_ds; cbn [coords]; rewrite assoc_on_vals, A; reflexivity|].
  split; [intros c Hc; apply I; apply trans_dims in Hc; tauto|].
  intros ix Hx. rewrite at_trans by (intros c Hc; auto). auto.
Qed.
Lemma key_on_ds g x k : nokey x k -> nokey (on_ds g x) k.
Proof. unfold nokey, on_ds, on_vals. cbn [coords]. rewrite map_map. auto. Qed.
Lemma permute_inv m bo first m' : permute_dims m bo first = Ok m' ->
  exists o, incl (all_dims (mds m)) o /\ m' = with_ds m (on_ds (vtrans o) (mds m)).
Proof.
  unfold permute_dims, transpose. set (o := if first then _ else _).
  destruct (same_set o (all_dims (mds m))) eqn:E; [|discriminate]. cbn [bind]. intro H. injection H as <-.
  exists o. split; [|reflexivity]. unfold same_set in E. apply andb_prop in E as [_ E]. intros c Hc.
  apply memb_in. rewrite forallb_forall in E. apply E. exact Hc.
Qed.
Lemma lab_squeeze c x k d n f : (d = c -> n = 1) -> labelled x k d n f -> labelled (on_ds (vsqueeze [c]) x) k d n f.
Proof.
  intros H1 (Z & v & A & I & E). split; [exact Z|]. exists (vsqueeze [c] v).
  split; [unfold on_ds; cbn [coords]; rewrite assoc_on_vals, A; reflexivity|].
  split; [intros y Hy; apply I; apply filter_In in Hy; tauto|].
  intros ix Hx. rewrite at_squeeze, <- E by exact Hx. apply at_ext. intros y Hy. apply I in Hy as [<-|[]].
  unfold memb. cbn [existsb]. destruct (String.eqb_spec d c) as [->|]; [|reflexivity]. cbn [orb]. specialize (H1 eq_refl). lia.
Qed.
Lemma lab_drop c x k d n f vs : d <> c -> labelled x k d n f ->
  labelled (drop_dims c {| sz := sz x; coords := coords x; vars := vs |}) k d n f.
Proof.
  intros N (Z & v & A & I & E). split; [exact Z|]. exists v. split; [|auto].
  unfold drop_dims. cbn [coords]. apply assoc_filter; [exact A|]. cbn [snd].
  replace (memb c (vdims v)) with false; [reflexivity|]. symmetry. apply memb_out. intro H. apply I in H as [H|[]]. congruence.
Qed.
Lemma key_drop c x k vs : nokey x k -> nokey (drop_dims c {| sz := sz x; coords := coords x; vars := vs |}) k.
Proof.
  unfold nokey, drop_dims. cbn [coords]. intros N H. apply N. apply in_map_iff in H as (p & <- & H). apply filter_In in H.
  apply in_map. tauto.
Qed.
Lemma assoc_rn a b (l : list (string * var)) (g : var -> var) k : k <> b ->
  k <> a -> assoc (map (fun p => (rn a b (fst p), g (snd p))) l) k = option_map g (assoc l k).
Proof.
  intros N1 N2. induction l as [|[y w] l IH]; simpl; [reflexivity|]. unfold rn at 1.
  destruct (String.eqb_spec y a) as [->|].
  - rewrite eqb_f by congruence. rewrite eqb_f by congruence. exact IH.
  - destruct (String.eqb_spec y k); [reflexivity|exact IH].
Qed.
Lemma assoc_rn_same a b (l : list (string * var)) (g : var -> var) : ~ In b (map fst l) ->
  assoc (map (fun p => (rn a b (fst p), g (snd p))) l) b = option_map g (assoc l a).
Proof.
  induction l as [|[y w] l IH]; simpl; [reflexivity|]. intro N. unfold rn at 1.
  destruct (String.eqb_spec y a) as [->|].
  - rewrite String.eqb_refl. reflexivity.
  - rewrite eqb_f by tauto. apply IH. tauto.
Qed.
Lemma lab_rename_other a b x k d n f : k <> a -> k <> b -> d <> a -> d <> b ->
  labelled x k d n f -> labelled (rename a b x) k d n f.
Proof.
  intros K1 K2 D1 D2 (Z & v & A & I & E). split; [unfold rename; cbn [sz]; rewrite eqb_f by assumption; exact Z|].
  exists {| vdims := map (rn a b) (vdims v); vat := vat v |}. split.
  - unfold rename. cbn [coords]. rewrite (assoc_rn a b (coords x) (fun w => {| vdims := map (rn a b) (vdims w); vat := vat w |})) by assumption.
    rewrite A. reflexivity.
  - cbn [vdims]. split.
    + intros y Hy. apply in_map_iff in Hy as (c & <- & Hc). apply I in Hc as [<-|[]]. rewrite rn_other by assumption. left; reflexivity.
    + intros ix Hx. rewrite at_rename, <- E by exact Hx. apply at_ext. intros c Hc. apply I in Hc as [<-|[]]. rewrite rn_other by assumption. reflexivity.
Qed.
Lemma lab_rename_same a b x n f : nokey x b -> labelled x a a n f -> labelled (rename a b x) b b n f.
Proof.
  intros N (Z & v & A & I & E). split; [unfold rename; cbn [sz]; rewrite String.eqb_refl; exact Z|].
  exists {| vdims := map (rn a b) (vdims v); vat := vat v |}. split.
  - unfold rename. cbn [coords]. rewrite (assoc_rn_same a b (coords x) (fun w => {| vdims := map (rn a b) (vdims w); vat := vat w |})) by exact N.
    rewrite A. reflexivity.
  - cbn [vdims]. split.
    + intros y Hy. apply in_map_iff in Hy as (c & <- & Hc). apply I in Hc as [<-|[]]. rewrite rn_same. left; reflexivity.
    + intros ix Hx. rewrite at_rename. rewrite <- (rn_same a b) in Hx. rewrite (E (fun d => ix (rn a b d)) Hx). rewrite rn_same. reflexivity.
Qed.
Lemma key_rename a b x k : k <> b -> nokey x k -> nokey (rename a b x) k.
Proof.
  unfold nokey, rename. cbn [coords]. rewrite map_map. cbn [fst]. intros N H Q. apply in_map_iff in Q as (p & E & I).
  unfold rn in E. destruct (String.eqb (fst p) a); [congruence|]. apply H. rewrite <- E. apply in_map. exact I.
Qed.
Lemma lab_tmp_new d x f : (forall c, assoc (coords x) d = Some c -> vdims c = [d]) ->
  (forall ix, match assoc (coords x) d with Some c => at_ c ix | None => XF (INR (ix d)) end = f (ix d)) ->
  labelled (tmp_coord d x) (d ++ "_tmp")%string (d ++ "_tmp")%string (sz x d) f.
Proof.
  intros D E. unfold tmp_coord. split; [cbn [sz]; rewrite String.eqb_refl; reflexivity|].
  eexists. split; [cbn [coords]; apply Gen_Facts.assoc_put_same|]. cbn [vdims]. split; [apply incl_refl|].
  intros ix _. unfold at_. cbn [vdims vat map]. specialize (E (fun _ => ix (d ++ "_tmp")%string)). cbv beta in E. rewrite <- E.
  destruct (assoc (coords x) d) as [c|]; [|reflexivity]. unfold at_. rewrite (D c eq_refl). reflexivity.
Qed.
Lemma lab_tmp_old c x k d n f : k <> (c ++ "_tmp")%string -> d <> (c ++ "_tmp")%string ->
  labelled x k d n f -> labelled (tmp_coord c x) k d n f.
Proof.
  intros K D (Z & v & A & I & E). split; [unfold tmp_coord; cbn [sz]; rewrite eqb_f by assumption; exact Z|].
  exists v. split; [|auto]. unfold tmp_coord. cbn [coords]. rewrite Gen_Facts.assoc_put_other by assumption. exact A.
Qed.
Lemma lab_stack name ds x k d n f : ~ In k ds -> ~ In d ds -> d <> name -> labelled x k d n f -> labelled (stack name ds x) k d n f.
Proof.
  intros K D N (Z & v & A & I & E). split; [unfold stack; cbn [sz]; rewrite eqb_f by assumption; exact Z|].
  exists v. split; [|auto]. unfold stack. cbn [coords].
  rewrite assoc_app, assoc_on_vals, (assoc_filter_keys (fun k => negb (memb k ds))).
  apply memb_out in K. rewrite K. cbn [negb]. rewrite A. cbn [option_map]. f_equal.
  unfold vstack. replace (existsb _ _) with false; [reflexivity|]. symmetry. apply Bool.not_true_is_false. intro Q.
  apply existsb_exists in Q as (c & Hc & Mc). apply memb_in in Mc. apply I in Mc as [<-|[]]. contradiction.
Qed.
Lemma key_stack name ds x k : In k ds -> k <> name -> nokey (stack name ds x) k.
Proof.
  unfold nokey, stack. cbn [coords]. intros I N. rewrite map_app. intro H. apply in_app_or in H as [H|[H|[]]]; [|cbn in H; congruence].
  unfold on_vals in H. rewrite map_map in H. cbn [fst] in H. apply in_map_iff in H as (p & E & H). apply filter_In in H as [_ H].
  rewrite E in H. apply memb_in in I. rewrite I in H. discriminate.
Qed.
Lemma lab_has x k d n f : labelled x k d n f -> has_coord x k = true.
Proof. intros (_ & v & A & _). unfold has_coord. rewrite A. reflexivity. Qed.

(** What unstacking does to the labels. *)
Lemma unstack_labels m t0 order squeeze m2 : stacked_time_dim m = Some t0 ->
  NoDup [time_dim m; height_dim m; lat_dim m; lon_dim m; "subcolumn"; t0;
         (t0 ++ "_tmp")%string; (lat_dim m ++ "_tmp")%string; (lon_dim m ++ "_tmp")%string] ->
  nokey (mds m) (lat_dim m) -> nokey (mds m) t0 ->
  (has_coord (mds m) (lon_dim m ++ "_tmp")%string = true -> nokey (mds m) (lon_dim m)) ->
  unstack m order squeeze = Ok m2 ->
  (forall d n f, (d = lat_dim m \/ d = t0 \/ d = lon_dim m /\ has_coord (mds m) (lon_dim m ++ "_tmp")%string = true) ->
     labelled (mds m) (d ++ "_tmp")%string (d ++ "_tmp")%string n f -> labelled (mds m2) d d n f) /\
  (forall d n f, ~ In d [time_dim m; lat_dim m; t0; (t0 ++ "_tmp")%string; (lat_dim m ++ "_tmp")%string; (lon_dim m ++ "_tmp")%string] ->
     (has_coord (mds m) (lon_dim m ++ "_tmp")%string = true -> d <> lon_dim m) ->
     labelled (mds m) d d n f -> labelled (mds m2) d d n f).
Proof.
  intros E0 Nn K1 K2 K3 U. unfold unstack in U. rewrite E0 in U.
  destruct (permute_dims m (Some [height_dim m; time_dim m]) false) as [m1|] eqn:P; [|discriminate]. cbn [bind] in U.
  destruct (permute_inv _ _ _ _ P) as (o & Io & ->). clear P. cbn [with_ds mds] in U.
  set (x := on_ds (vtrans o) (mds m)) in *.
  assert (HC : forall k, has_coord x k = has_coord (mds m) k).
  { intro k. unfold has_coord, x, on_ds. cbn [coords]. rewrite assoc_on_vals. destruct (assoc (coords (mds m)) k); reflexivity. }
  rewrite (HC (lon_dim m ++ "_tmp")%string) in U.
  set (lon := has_coord (mds m) (lon_dim m ++ "_tmp")%string) in *.
  destruct (negb (has_coord x (t0 ++ "_tmp")%string && has_coord x (lat_dim m ++ "_tmp")%string)); [discriminate|].
  match type of U with context [vunstack_all ?a ?b ?c ?d] => destruct (vunstack_all a b c d) as [vs|]; [|discriminate] end.
  cbn [bind] in U.
  set (x1 := drop_dims (time_dim m) {| sz := sz x; coords := coords x; vars := vs |}) in *.
  set (x2 := rename (t0 ++ "_tmp")%string t0 (rename (lat_dim m ++ "_tmp")%string (lat_dim m) x1)) in *.
  set (x3 := if lon then rename (lon_dim m ++ "_tmp")%string (lon_dim m) x2 else x2) in *.
  assert (T1 : forall k d n f, d <> time_dim m -> labelled (mds m) k d n f -> labelled x1 k d n f).
  { intros k d n f Nt L. apply lab_drop; [exact Nt|]. apply lab_trans; assumption. }
  assert (Q1 : forall k, nokey (mds m) k -> nokey x1 k) by (intros k H; apply key_drop, key_on_ds, H).
  assert (TF : forall k d n f, labelled x3 k d n f -> labelled (mds m2) k d n f).
  { intros k d n f L.
    assert (SQ : forall y, labelled y k d n f -> labelled
       (let y5 := if (sz y t0 =? 1)%nat then on_ds (vsqueeze [t0]) y else y in
        if (num_subcolumns y5 =? 1)%nat then on_ds (vsqueeze ["subcolumn"]) y5 else y5) k d n f).
    { intros y Ly. cbv zeta. set (y5 := if (sz y t0 =? 1)%nat then _ else _).
      assert (L5 : labelled y5 k d n f).
      { unfold y5. destruct (Nat.eqb_spec (sz y t0) 1) as [e|]; [|exact Ly]. apply lab_squeeze; [|exact Ly].
        intros ->. destruct Ly as [Z _]. congruence. }
      destruct (Nat.eqb_spec (num_subcolumns y5) 1) as [e|]; [|exact L5]. apply lab_squeeze; [|exact L5].
      intros ->. destruct L5 as [Z _]. unfold num_subcolumns in e. destruct (has_dim y5 "subcolumn"); congruence. }
    destruct order.
    - match type of U with context [permute_dims ?a ?b ?c] => destruct (permute_dims a b c) as [m3|] eqn:P3; [|discriminate] end.
      destruct (permute_inv _ _ _ _ P3) as (o3 & I3 & ->). cbn [bind with_ds mds] in U, I3.
      assert (L4 : labelled (on_ds (vtrans o3) x3) k d n f) by (apply lab_trans; assumption).
      destruct squeeze; injection U as <-; cbn [with_ds mds]; [exact (SQ _ L4)|exact L4].
    - cbn [bind mds] in U. destruct squeeze; injection U as <-; cbn [with_ds mds]; [exact (SQ _ L)|exact L]. }
  clear U HC. dist Nn. split.
  - intros d n f [->|[->|[-> EL]]] L; apply TF.
    + apply T1 in L; [|neq]. pose proof (Q1 _ K1) as q.
      assert (L2 : labelled x2 (lat_dim m) (lat_dim m) n f).
      { unfold x2. apply lab_rename_other; try neq. apply lab_rename_same; assumption. }
      unfold x3. destruct lon; [apply lab_rename_other; try neq; exact L2|exact L2].
    + apply T1 in L; [|neq]. pose proof (Q1 _ K2) as q.
      assert (L2 : labelled x2 t0 t0 n f).
      { unfold x2. apply lab_rename_same; [apply key_rename; [neq|exact q]|]. apply lab_rename_other; try neq; exact L. }
      unfold x3. destruct lon; [apply lab_rename_other; try neq; exact L2|exact L2].
    + apply T1 in L; [|neq]. pose proof (Q1 _ (K3 EL)) as q. unfold x3. rewrite EL.
      apply lab_rename_same; [unfold x2; apply key_rename; [neq|]; apply key_rename; [neq|exact q]|].
      unfold x2. apply lab_rename_other; [neq|neq|neq|neq|]. apply lab_rename_other; [neq|neq|neq|neq|]. exact L.
  - intros d n f Nd Nl L. apply TF. simpl in Nd. apply T1 in L; [|intuition congruence].
    assert (L2 : labelled x2 d d n f).
    { unfold x2. apply lab_rename_other; try solve [clear - Nd; intuition congruence]. apply lab_rename_other; try solve [clear - Nd; intuition congruence]. exact L. }
    unfold x3. destruct lon; [|exact L2]. specialize (Nl eq_refl). apply lab_rename_other; try solve [clear - Nd Nl; intuition congruence]. exact L2.
Qed.

(** The round trip. *)
Lemma labels_round_trip m out order1 order2 squeeze m1 m2 : stackable m out -> regional m ->
  check_and_stack m out order1 = Ok m1 -> unstack m1 order2 squeeze = Ok m2 ->
  forall d c, assoc (coords (mds m)) d = Some c -> In d (all_dims (mds m)) ->
    sz (mds m2) d = sz (mds m) d /\
    exists c2, assoc (coords (mds m2)) d = Some c2 /\ incl (vdims c2) [d] /\
      forall ix, ix d < sz (mds m) d -> at_ c2 ix = at_ c ix.
Proof.
  intros S Rg C U d c A Hd.
  set (lon := has_dim (mds m) (lon_dim m)).
  set (y := mds (stacked_of m out lon)).
  assert (E : exists x1, m1 = with_ds (stacked_of m out lon) x1 /\ exists g, x1 = g y /\
    (forall k d n f, labelled y k d n f -> labelled (g y) k d n f) /\ (forall k, nokey y k -> nokey (g y) k) /\
    (forall k, has_coord (g y) k = has_coord y k)).
  { unfold check_and_stack in C.
    assert (T : has_dim (mds m) (time_dim m) = true) by (apply has_dim_in; apply S).
    assert (L : has_dim (mds m) (lat_dim m) = true) by (apply has_dim_in; apply S).
    rewrite T, L in C. fold lon in C.
    assert (M : negb (Nat.eqb (sz (mds m) (lat_dim m)) 1) || (lon && negb (Nat.eqb (sz (mds m) (lon_dim m)) 1)) = true).
    { destruct Rg as [R|[R1 R2]].
      - apply Nat.eqb_neq in R. rewrite R. reflexivity.
      - apply has_dim_in in R1. unfold lon. rewrite R1. apply Nat.eqb_neq in R2. rewrite R2. apply Bool.orb_true_r. }
    rewrite M in C. change (if order1 then permute_dims (stacked_of m out lon) None true else Ok (stacked_of m out lon)) with
      (if order1 then permute_dims (stacked_of m out lon) None true else Ok (stacked_of m out lon)) in C.
    assert (C' : (if order1 then permute_dims (stacked_of m out lon) None true else Ok (stacked_of m out lon)) = Ok m1) by exact C.
    clear C. destruct order1.
    - destruct (permute_inv _ _ _ _ C') as (o & Io & ->). eexists. split; [reflexivity|]. exists (on_ds (vtrans o)).
      split; [reflexivity|]. split; [intros; apply lab_trans; assumption|]. split; [intros; apply key_on_ds; assumption|].
      intro k. unfold has_coord, on_ds. cbn [coords]. rewrite assoc_on_vals. destruct (assoc (coords y) k); reflexivity.
    - injection C' as <-. exists y. split; [reflexivity|]. exists (fun z => z). auto. }
  destruct E as (x1 & -> & g & -> & GL & GK & GC).
  pose proof (st_names _ _ S) as N0.
  assert (Nn : NoDup [out; height_dim m; lat_dim m; lon_dim m; "subcolumn"; time_dim m;
       (time_dim m ++ "_tmp")%string; (lat_dim m ++ "_tmp")%string; (lon_dim m ++ "_tmp")%string]).
  { dist N0. repeat constructor; neq. }
  assert (Ks : forall k, In k (sdims m lon) -> nokey y k).
  { intros k Hk. apply key_stack; [exact Hk|]. intros ->. apply (out_unused _ _ S). apply (sdims_in m out S). exact Hk. }
  assert (SI : forall k, In k (sdims m lon) <-> k = lat_dim m \/ k = time_dim m \/ (k = lon_dim m /\ lon = true)).
  { intro k. unfold sdims. destruct lon; simpl; intuition congruence. }
  assert (Free : forall k n, In k (all_dims (mds m)) -> In n [out; (time_dim m ++ "_tmp")%string; (lat_dim m ++ "_tmp")%string; (lon_dim m ++ "_tmp")%string] -> k <> n).
  { intros k n Hk Hn ->. exact (proj1 (st_free _ _ S n Hn) Hk). }
  assert (HL : has_coord y (lon_dim m ++ "_tmp")%string = lon).
  { unfold has_coord, y. destruct lon eqn:El.
    - destruct (stacked_coord m out S (lon_dim m)) as (v & Av & _); [fold lon; rewrite El; unfold sdims; simpl; auto|].
      fold lon in Av. rewrite El in Av. rewrite Av. reflexivity.
    - pose proof (sk_lon _ _ _ (stacked_ok m out S) El) as Q. fold lon in Q. rewrite El in Q. cbn [lon_dim stacked_of] in Q. rewrite Q. reflexivity. }
  destruct (unstack_labels (with_ds (stacked_of m out lon) (g y)) (time_dim m) order2 squeeze m2 eq_refl Nn (GK _ (Ks _ (proj2 (SI _) (or_introl eq_refl))))
     (GK _ (Ks _ (proj2 (SI _) (or_intror (or_introl eq_refl)))))) with (2 := U) as (F1 & F2).
  { intro Q. cbn [with_ds mds lon_dim stacked_of] in Q. rewrite GC, HL in Q. apply GK, Ks, SI. auto. }
  cbn [with_ds mds lon_dim lat_dim time_dim stacked_of] in F1, F2.
  rewrite GC, HL in F1, F2.
  assert (Dc : vdims c = [d]) by (apply (st_index _ _ S d c); [apply assoc_mem; exact A|exact Hd]).
  assert (IS : ~ In d (sdims m lon) \/ In d (sdims m lon)) by (destruct (in_dec string_dec d (sdims m lon)); auto).
  set (f := fun i => at_ c (fun _ => i)).
  assert (Hf : forall ix, at_ c ix = f (ix d)) by (intro ix; unfold f, at_; rewrite Dc; reflexivity).
  assert (Hm : forall c', assoc (coords (mds m)) d = Some c' -> vdims c' = [d]) by (intros c' Q; congruence).
  assert (Hg : forall ix, match assoc (coords (mds m)) d with Some c => at_ c ix | None => XF (INR (ix d)) end = f (ix d))
    by (intro ix; rewrite A; apply Hf).
  assert (LL : labelled (mds m2) d d (sz (mds m) d) f).
  { destruct IS as [IS|IS].
    - apply F2.
      + simpl. intros [H|[H|[H|H]]]; [subst d; revert Hd; apply (out_unused _ _ S)|apply IS, SI; auto|apply IS, SI; auto|].
        destruct H as [H|[H|[H|[]]]]; symmetry in H; revert H; apply Free; simpl; auto.
      + intros El ->. apply IS, SI. auto.
      + apply GL. unfold y. cbn [stacked_of mds]. apply lab_stack; [exact IS|exact IS|apply Free; simpl; auto|].
        unfold with_tmps.
        assert (L0 : labelled (mds m) d d (sz (mds m) d) f).
        { split; [reflexivity|]. exists c. split; [exact A|]. split; [rewrite Dc; apply incl_refl|]. intros; apply Hf. }
        destruct lon; repeat (apply lab_tmp_old; [apply Free; simpl; auto|apply Free; simpl; auto|]); exact L0.
    - pose proof (proj1 (SI d) IS) as Q. apply F1; [intuition|]. apply GL. unfold y. cbn [stacked_of mds].
      assert (Nt : forall k, In k (sdims m lon) -> In (k ++ "_tmp")%string [out; (time_dim m ++ "_tmp")%string; (lat_dim m ++ "_tmp")%string; (lon_dim m ++ "_tmp")%string]).
      { intros k Hk. apply SI in Hk as [->|[->|[-> _]]]; simpl; auto. }
      assert (Nk : ~ In (d ++ "_tmp")%string (sdims m lon)).
      { intro H. apply (sdims_in m out S) in H. exact (Free _ _ H (Nt _ IS) eq_refl). }
      apply lab_stack; [exact Nk|exact Nk| |].
      + dist N0. destruct Q as [->|[->|[-> _]]]; neq.
      + unfold with_tmps.
        assert (Tl : forall x, coords x = coords (mds m) -> True) by auto. clear Tl.
        dist N0.
        destruct Q as [->|[->|[-> El]]].
        * assert (L1 : labelled (tmp_coord (lat_dim m) (mds m)) (lat_dim m ++ "_tmp")%string (lat_dim m ++ "_tmp")%string (sz (mds m) (lat_dim m)) f)
            by (apply lab_tmp_new; assumption).
          destruct lon; repeat (apply lab_tmp_old; [neq|neq|]); exact L1.
        * set (z := if lon then _ else _).
          assert (Zz : sz z (time_dim m) = sz (mds m) (time_dim m) /\ assoc (coords z) (time_dim m) = assoc (coords (mds m)) (time_dim m)).
          { unfold z. destruct lon; unfold tmp_coord; cbn [sz coords]; repeat rewrite eqb_f by neq; repeat rewrite Gen_Facts.assoc_put_other by neq; auto. }
          destruct Zz as [Z1 Z2]. rewrite <- Z1. apply lab_tmp_new; rewrite Z2; assumption.
        * rewrite El. apply lab_tmp_old; [neq|neq|].
          set (z := tmp_coord (lat_dim m) (mds m)).
          assert (Zz : sz z (lon_dim m) = sz (mds m) (lon_dim m) /\ assoc (coords z) (lon_dim m) = assoc (coords (mds m)) (lon_dim m)).
          { unfold z, tmp_coord; cbn [sz coords]; repeat rewrite eqb_f by neq; repeat rewrite Gen_Facts.assoc_put_other by neq; auto. }
          destruct Zz as [Z1 Z2]. rewrite <- Z1. apply lab_tmp_new; rewrite Z2; assumption. }
  destruct LL as (Z & v & Av & Iv & Ev). split; [exact Z|]. exists v. split; [exact Av|]. split; [exact Iv|].
  intros ix Hx. rewrite Ev, Hf by exact Hx. reflexivity.
Qed.

(** A dataset without the time dimension. *)
Lemma time_added m out order : ~ In (time_dim m) (all_dims (mds m)) -> vars (mds m) <> [] ->
  exists m0, check_and_stack m out order = check_and_stack m0 out order /\
    time_dim m0 = time_dim m /\ height_dim m0 = height_dim m /\ lat_dim m0 = lat_dim m /\ lon_dim m0 = lon_dim m /\
    stacked_time_dim m0 = stacked_time_dim m /\ In (time_dim m) (all_dims (mds m0)) /\ sz (mds m0) (time_dim m) = 1 /\
    (forall d, d <> time_dim m -> sz (mds m0) d = sz (mds m) d) /\
    forall k v, field (mds m) k v -> exists v0, field (mds m0) k v0 /\ vdims v0 = time_dim m :: vdims v /\
      forall ix, at_ v0 ix = at_ v ix.
Proof.
  intros N V. exists (with_ds m (expand_dims (time_dim m) (mds m))).
  assert (H : has_dim (mds m) (time_dim m) = false) by (apply Bool.not_true_is_false; intro Q; apply has_dim_in in Q; contradiction).
  assert (I : In (time_dim m) (all_dims (expand_dims (time_dim m) (mds m)))).
  { destruct (vars (mds m)) as [|[k v] l] eqn:E; [congruence|]. apply in_dims.
    exists k, {| vdims := time_dim m :: vdims v; vat := fun ix => vat v (tl ix) |}. split; [|left; reflexivity].
    apply in_all_vars. right. unfold expand_dims, on_vals. cbn [vars]. rewrite E. left. reflexivity. }
  split.
  - unfold check_and_stack. cbn [with_ds mds time_dim]. rewrite H. pose proof I as I'. apply has_dim_in in I'. rewrite I'. reflexivity.
  - do 5 (split; [reflexivity|]). split; [exact I|]. cbn [with_ds mds expand_dims sz]. split; [rewrite String.eqb_refl; reflexivity|].
    split; [intros d Nd; rewrite eqb_f by exact Nd; reflexivity|].
    intros k v F. eexists. split; [unfold field, expand_dims; cbn [vars mds with_ds]; rewrite assoc_on_vals; unfold field in F; rewrite F; reflexivity|].
    split; reflexivity.
Qed.
