(** What [check_and_stack] does to a file, for the three kinds of domain. *)
From Verif Require Import Load_Spec Load_Facts Xds_Proofs Xds_Stack Xds_Round Xds_Ops.
Local Open Scope string_scope.
Local Open Scope list_scope.

Lemma keys_on_vals f l : map fst (on_vals f l) = map fst l.
Proof. unfold on_vals. rewrite map_map. reflexivity. Qed.
Lemma keys_put {A} (l : list (string * A)) k v x : In x (map fst (put l k v)) -> x = k \/ In x (map fst l).
Proof.
  intro H. apply in_map_iff in H as ((a & b) & E & H). apply in_put in H as [[-> _]|H]; simpl in E; [auto|].
  right. apply in_map_iff. exists (a, b). auto.
Qed.
Lemma vstack_nil szf name ds v : (forall d, In d ds -> ~ In d (vdims v)) -> vstack szf name ds v = v.
Proof.
  intro H. unfold vstack. destruct (existsb (fun d => memb d (vdims v)) ds) eqn:E; [|reflexivity].
  apply existsb_exists in E as (d & D & M). apply memb_in in M. exfalso. exact (H d D M).
Qed.
Lemma vstack_dims_eq szf name ds v w : vdims v = vdims w -> vdims (vstack szf name ds v) = vdims (vstack szf name ds w).
Proof.
  intro E. unfold vstack. rewrite E. destruct (existsb (fun d => memb d (vdims w)) ds); [reflexivity|exact E].
Qed.

Lemma stack_several m : stackable m "time_lat_lon" -> regional m ->
  ~ In (height_dim m) [time_dim m; lat_dim m; lon_dim m; "time_lat_lon"; "subcolumn"] ->
  exists m3 g, check_and_stack m "time_lat_lon" false = Ok m3 /\ stacked_like m m3 g.
Proof.
  intros S R HN. set (lon := has_dim (mds m) (lon_dim m)).
  destruct (round_trip_final m "time_lat_lon" false true true S R) as (m1 & m2 & E & _ & _ & _ & _ & F).
  assert (Q : m1 = stacked_of m "time_lat_lon" lon).
  { assert (E' : check_and_stack m "time_lat_lon" false = Ok (stacked_of m "time_lat_lon" lon)); [|congruence].
    unfold check_and_stack. assert (T : has_dim (mds m) (time_dim m) = true) by (apply has_dim_in; apply S).
    rewrite T. assert (L : has_dim (mds m) (lat_dim m) = true) by (apply has_dim_in; apply S).
    rewrite L. fold lon.
    assert (M : negb (Nat.eqb (sz (mds m) (lat_dim m)) 1) || (lon && negb (Nat.eqb (sz (mds m) (lon_dim m)) 1)) = true).
    { destruct R as [R|[R1 R2]].
      - apply Nat.eqb_neq in R. rewrite R. reflexivity.
      - apply has_dim_in in R1. unfold lon. rewrite R1. apply Nat.eqb_neq in R2. rewrite R2. apply Bool.orb_true_r. }
    rewrite M. reflexivity. }
  subst m1. set (szf := sz (with_tmps m lon)). set (ds := sdims m lon).
  set (g := vstack szf "time_lat_lon" ds).
  assert (Hds : ~ In (height_dim m) ds) by (intro H; apply HN; unfold ds, sdims in H; destruct lon; simpl in *; tauto).
  assert (Fg : forall k v, field (mds m) k v -> field (mds (stacked_of m "time_lat_lon" lon)) k (g v)).
  { intros k v H. exact (stacked_field m "time_lat_lon" k v H). }
  exists (stacked_of m "time_lat_lon" lon), g. split; [exact E|]. constructor; cbn [height_dim stacked_of time_dim].
  - cbn [mds stacked_of stack vars]. unfold lon. rewrite with_tmps_vars. reflexivity.
  - reflexivity.
  - intros k. cbn [mds stacked_of stack coords]. rewrite map_app, in_app_iff, keys_on_vals. intros [H|H].
    + assert (H' : In k (map fst (coords (with_tmps m lon)))).
      { apply in_map_iff in H as (p & Ep & Hp). apply filter_In in Hp as [Hp _]. apply in_map_iff. eauto. }
      revert H'. unfold with_tmps. clear. destruct lon; cbn [tmp_coord coords]; intro K;
        repeat (apply keys_put in K; destruct K as [-> |K]; [simpl; tauto|]); left; exact K.
    + simpl in H. destruct H as [<-|[]]. simpl. auto.
  - intros v w. apply vstack_dims_eq.
  - intros v E0. unfold g. rewrite vstack_nil; [exact E0|]. rewrite E0. tauto.
  - intros v E0. unfold g. rewrite vstack_nil; [exact E0|]. rewrite E0. intros d D [<-|[]]. tauto.
  - intros T PS U d. split.
    + intro H. apply stack_dims in H as [[H D]|[-> (c & C & H)]].
      * apply U in H as [H| ->]; [|auto]. left. apply stack_dims_in; assumption.
      * apply U in H as [H| ->]; [|tauto]. left. eapply stack_dims_name; eauto.
    + intros [H| ->].
      * apply stack_dims in H as [[H D]|[-> (c & C & H)]].
        -- apply stack_dims_in; [apply U; auto|exact D].
        -- eapply stack_dims_name; [exact C|apply U; auto].
      * apply stack_dims_in; [apply U; auto|exact Hds].
  - intros v H. eapply stack_dims_name; [|exact H]. unfold ds, sdims. destruct lon; simpl; auto.
  - intros v H. apply stack_dims_in; assumption.
  - intro X. apply HN. rewrite <- X. simpl. auto.
  - discriminate.
  - intros k v ix H I. destruct (F k v H) as [(v1 & F1 & A1) _]. pose proof (Fg k v H) as F2.
    unfold field in F1, F2. rewrite F1 in F2. injection F2 as <-. apply A1. exact I.
  - intros v H Dv. right. cbn [mds stacked_of stack coords]. rewrite assoc_app, assoc_on_vals.
    rewrite (assoc_filter_keys (fun k => negb (memb k (sdims m lon)))).
    assert (M : memb (height_dim m) (sdims m lon) = false) by (apply memb_out; exact Hds). rewrite M. cbn [negb].
    assert (A : assoc (coords (with_tmps m lon)) (height_dim m) = Some v).
    { pose proof (st_names _ _ S) as N. dist N. unfold with_tmps, tmp_coord. cbn [coords].
      rewrite put_other by neq. destruct lon; cbn [coords]; repeat rewrite put_other by neq; exact H. }
    rewrite A. cbn [option_map]. eexists. split; [reflexivity|]. intro ix.
    rewrite vstack_nil; [reflexivity|]. rewrite Dv. intros d D [<-|[]]. tauto.
  - intros k v d H I. cbn [mds stacked_of stack sz]. destruct (string_dec d "time_lat_lon") as [->|N].
    + rewrite String.eqb_refl. unfold stack_size.
      assert (SZ : forall c, In c (sdims m lon) -> sz (with_tmps m lon) c = sz (mds m) c).
      { intros c C. apply (szf_dim m "time_lat_lon" S). apply (sdims_in m "time_lat_lon" S). exact C. }
      rewrite (map_ext_in _ _ _ SZ). unfold sdims. destruct (in_dec string_dec (lon_dim m) (all_dims (mds m))) as [L|L].
      * apply has_dim_in in L. unfold lon. rewrite L. cbn [map size_of fold_right]. lia.
      * assert (L' : lon = false) by (unfold lon; destruct (has_dim (mds m) (lon_dim m)) eqn:Q; [apply has_dim_in in Q; tauto|reflexivity]).
        rewrite L'. cbn [map size_of fold_right]. lia.
    + rewrite eqb_f by exact N. apply stack_dims in I as [[I _]|[-> _]]; [|tauto].
      apply (szf_dim m "time_lat_lon" S). eapply field_dims; eauto.
Qed.

Lemma stack_none m : ~ In (lat_dim m) (all_dims (mds m)) -> In (time_dim m) (all_dims (mds m)) ->
  ~ In "time_lat_lon" (all_dims (mds m)) ->
  ~ In (height_dim m) [time_dim m; lat_dim m; lon_dim m; "time_lat_lon"; "subcolumn"] ->
  exists m3 g, check_and_stack m "time_lat_lon" false = Ok m3 /\ stacked_like m m3 g.
Proof.
  intros L T O HN. exists (with_ds m (mds m)), (fun v => v). split.
  - unfold check_and_stack. apply has_dim_in in T. rewrite T.
    destruct (has_dim (mds m) (lat_dim m)) eqn:Q; [apply has_dim_in in Q; tauto|reflexivity].
  - constructor; cbn [with_ds mds time_dim height_dim]; auto.
    + unfold on_vals. symmetry. erewrite map_ext; [apply map_id|]. intros []; reflexivity.
    + intro X. apply HN. rewrite <- X. simpl. auto.
    + intros k v ix F _. apply at_ext. intros d D. destruct (string_dec d "time_lat_lon") as [->|]; [|reflexivity].
      exfalso. apply O. eapply field_dims; eauto.
    + intros k v d F I. destruct (string_dec d "time_lat_lon") as [->|]; [|reflexivity]. exfalso. apply O. eapply field_dims; eauto.
Qed.

Lemma squeeze_dims ds v d : In d (vdims (vsqueeze ds v)) <-> In d (vdims v) /\ ~ In d ds.
Proof.
  unfold vsqueeze. cbn [vdims]. rewrite filter_In. destruct (memb d ds) eqn:M; cbn [negb].
  - apply memb_in in M. intuition discriminate.
  - apply memb_out in M. tauto.
Qed.
Lemma stack_one m : In (lat_dim m) (all_dims (mds m)) -> In (time_dim m) (all_dims (mds m)) -> ~ regional m ->
  NoDup [time_dim m; height_dim m; lat_dim m; lon_dim m] ->
  ~ In "time_lat_lon" (all_dims (mds m)) ->
  ~ In (height_dim m) [time_dim m; lat_dim m; lon_dim m; "time_lat_lon"; "subcolumn"] ->
  exists m3 g, check_and_stack m "time_lat_lon" false = Ok m3 /\ stacked_like m m3 g.
Proof.
  intros L T Rg N O HN. dist N.
  set (ds := if has_dim (mds m) (lon_dim m) then [lat_dim m; lon_dim m] else [lat_dim m]).
  exists (with_ds m (on_ds (vsqueeze ds) (mds m))), (vsqueeze ds). split.
  - unfold check_and_stack. apply has_dim_in in T. rewrite T. apply has_dim_in in L. rewrite L.
    assert (M : negb (Nat.eqb (sz (mds m) (lat_dim m)) 1)
              || (has_dim (mds m) (lon_dim m) && negb (Nat.eqb (sz (mds m) (lon_dim m)) 1)) = false).
    { unfold regional in Rg. destruct (Nat.eqb_spec (sz (mds m) (lat_dim m)) 1); [|exfalso; apply Rg; auto].
      simpl. destruct (has_dim (mds m) (lon_dim m)) eqn:Q; [|reflexivity]. apply has_dim_in in Q.
      destruct (Nat.eqb_spec (sz (mds m) (lon_dim m)) 1); [reflexivity|]. exfalso. apply Rg. auto. }
    rewrite M. reflexivity.
  - assert (Hh : ~ In (height_dim m) ds) by (unfold ds; destruct (has_dim (mds m) (lon_dim m)); neq).
    assert (Ht : ~ In (time_dim m) ds) by (unfold ds; destruct (has_dim (mds m) (lon_dim m)); neq).
    constructor; cbn [with_ds mds time_dim height_dim on_ds vars coords].
    + reflexivity.
    + reflexivity.
    + intro k. rewrite keys_on_vals. auto.
    + intros v w E. unfold vsqueeze. cbn [vdims]. rewrite E. reflexivity.
    + intros v E. unfold vsqueeze. cbn [vdims]. rewrite E. reflexivity.
    + intros v E. unfold vsqueeze. cbn [vdims]. rewrite E. cbn [filter].
      assert (M : memb (height_dim m) ds = false) by (apply memb_out; exact Hh). rewrite M. reflexivity.
    + intros A B U d. rewrite !squeeze_dims, U. split; [tauto|]. intros [H| ->]; [tauto|auto].
    + intros v H. apply squeeze_dims. auto.
    + intros v H. apply squeeze_dims. auto.
    + neq.
    + auto.
    + intros k v ix F I. rewrite at_squeeze. apply at_ext. intros d D.
      destruct (memb d ds) eqn:M.
      * apply memb_in in M. assert (B : ix d < sz (mds m) d) by (apply I; eapply field_dims; eauto).
        unfold ds in M. assert (sz (mds m) d = 1); [|lia].
        assert (Sl : sz (mds m) (lat_dim m) = 1).
        { destruct (Nat.eq_dec (sz (mds m) (lat_dim m)) 1) as [e|e]; [exact e|]. exfalso. apply Rg. left. exact e. }
        destruct (has_dim (mds m) (lon_dim m)) eqn:Q; simpl in M; destruct M as [<-|M]; try exact Sl; try tauto.
        destruct M as [<-|[]]. apply has_dim_in in Q.
        destruct (Nat.eq_dec (sz (mds m) (lon_dim m)) 1) as [e|e]; [exact e|]. exfalso. apply Rg. right. auto.
      * destruct (string_dec d "time_lat_lon") as [->|]; [|reflexivity]. exfalso. apply O. eapply field_dims; eauto.
    + intros v H Dv. right. rewrite assoc_on_vals, H. eexists. split; [reflexivity|]. intro ix. rewrite at_squeeze.
      apply at_ext. intros d D. rewrite Dv in D. destruct D as [<-|[]].
      assert (M : memb (height_dim m) ds = false) by (apply memb_out; exact Hh). rewrite M. reflexivity.
    + intros k v d F I. apply squeeze_dims in I as [I _]. cbn [sz on_ds].
      destruct (string_dec d "time_lat_lon") as [->|]; [|reflexivity]. exfalso. apply O. eapply field_dims; eauto.
Qed.

Lemma stack_any m : domain m -> ~ In "time_lat_lon" (all_dims (mds m)) ->
  ~ In (height_dim m) [time_dim m; lat_dim m; lon_dim m; "time_lat_lon"; "subcolumn"] ->
  exists m3 g, check_and_stack m "time_lat_lon" false = Ok m3 /\ stacked_like m m3 g.
Proof.
  intros [S R|L T|L T R N] O H.
  - apply stack_several; assumption.
  - apply stack_none; assumption.
  - apply stack_one; assumption.
Qed.
