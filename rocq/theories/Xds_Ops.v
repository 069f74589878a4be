(** The other dataset operations. *)
From Verif Require Import Xds_Model Xds_Spec Xds_Proofs Xds_Stack Xds_Round Xr_Facts.
From Verif Require Mom_Facts Gen_Facts.
From Coq Require Import Sorted.
Local Open Scope string_scope.
Local Open Scope list_scope.

(** *** Stacking *)
Lemma position_ravel m ix : ravel (map (sz (mds m)) (sdims m (has_dim (mds m) (lon_dim m))))
    (map ix (sdims m (has_dim (mds m) (lon_dim m)))) = stack_position m ix.
Proof.
  unfold stack_position, sdims.
  destruct (in_dec string_dec (lon_dim m) (all_dims (mds m))) as [I|I].
  - apply has_dim_in in I. rewrite I. cbn [map ravel]. unfold size_of. cbn [fold_right]. lia.
  - destruct (has_dim (mds m) (lon_dim m)) eqn:Q; [apply has_dim_in in Q; tauto|].
    cbn [map ravel]. unfold size_of. cbn [fold_right]. lia.
Qed.
Lemma round_trip_final m out order1 order2 squeeze : stackable m out -> regional m ->
  exists m1 m2, check_and_stack m out order1 = Ok m1 /\ unstack m1 order2 squeeze = Ok m2 /\
    time_dim m1 = out /\ time_dim m2 = time_dim m /\ stacked_time_dim m2 = None /\
    forall k v, field (mds m) k v ->
      (exists v1, field (mds m1) k v1 /\ forall ix, inside (mds m) ix ->
         at_ v1 (fun d => if string_dec d out then stack_position m ix else ix d) = at_ v ix) /\
      (exists v2, field (mds m2) k v2 /\ forall ix, inside (mds m) ix -> at_ v2 ix = at_ v ix).
Proof.
  intros S R. destruct (round_trip m out S order1 order2 squeeze R) as (m1 & m2 & A & B & C & _ & D & E & F).
  exists m1, m2. repeat (split; [assumption|]). intros k v H. destruct (F k v H) as [(v1 & G1 & G2) G3].
  split; [|exact G3]. exists v1. split; [exact G1|]. intros ix Hi. rewrite <- (G2 ix Hi).
  apply at_ext. intros d _. destruct (string_dec d out) as [->|N].
  - rewrite String.eqb_refl, position_ravel. reflexivity.
  - apply String.eqb_neq in N. rewrite N. reflexivity.
Qed.

Lemma stacked_processed m t0 lon x' : stacked m t0 lon -> processed m x' -> stacked (with_ds m x') t0 lon.
Proof.
  intros [A1 A2 A3 (hk & hv & A4 & A4') A5 A6 A7 A8] [P1 P2 P3 P4].
  pose proof A2 as N. dist N.
  destruct P2 as (l & Ec & El).
  assert (TS : forall d, In d (tmps m t0 lon) -> d <> "subcolumn").
  { unfold tmps. intros d H. destruct lon; neq. }
  assert (Cs : forall k, k <> "subcolumn" -> assoc (coords x') k = assoc (coords (mds m)) k).
  { intros k Nk. rewrite Ec, assoc_app. destruct (assoc (coords (mds m)) k); [reflexivity|].
    apply assoc_none. intro H. apply in_map_iff in H as ([k' v] & E & H). apply El in H. simpl in E. congruence. }
  constructor; cbn [with_ds time_dim height_dim lat_dim lon_dim stacked_time_dim mds]; try assumption.
  - apply in_dims in A3 as (k & v & H & D). apply in_dims. exists k, v. split; [|exact D].
    apply in_all_vars. apply in_all_vars in H as [H|H]; [left; rewrite Ec; apply in_or_app; auto|right; apply P3; exact H].
  - exists hk, hv. split; [apply P3; exact A4|exact A4'].
  - intros d Hd. change (tmps (with_ds m x') t0 lon) with (tmps m t0 lon) in Hd.
    destruct (A5 d Hd) as ((v & B1 & B2) & B3 & B4). split; [|split].
    + exists v. rewrite Cs by (apply TS; exact Hd). auto.
    + intro H. apply in_map_iff in H as ([k w] & E & H). cbn [fst] in E. subst k.
      destruct (P4 d w H) as [H'|[_ H']]; [apply B3; apply in_map_iff; exists (d, w); auto|].
      apply H'. apply in_map_iff. exists (d, v). split; [reflexivity|apply assoc_mem; exact B1].
    + intros k w H D. destruct (P4 k w H) as [H'|[H' _]]; [exact (B4 k w H' D)|].
      apply H' in D. unfold tmps in Hd. destruct lon; neq.
  - intros k w d H Hd D. destruct (P4 k w H) as [H'|[H' _]]; [exact (A6 k w d H' Hd D)|].
    apply H' in D. neq.
  - intro E. rewrite Cs by neq. auto.
  - change (tmps (with_ds m x') t0 lon) with (tmps m t0 lon). rewrite P1 by neq. rewrite A8.
    f_equal. apply map_ext_in. intros d Hd. symmetry. apply P1. apply TS. exact Hd.
Qed.

Lemma processed_unstack m out order1 order2 squeeze m1 x' : stackable m out -> regional m ->
  check_and_stack m out order1 = Ok m1 -> processed m1 x' ->
  exists m2, unstack (with_ds m1 x') order2 squeeze = Ok m2 /\ time_dim m2 = time_dim m /\
    forall k v, field x' k v -> incl (vdims v) ["subcolumn"; out; height_dim m] ->
      exists v2, field (mds m2) k v2 /\
        (forall d, In d (vdims v2) -> In d ["subcolumn"; height_dim m; lat_dim m; lon_dim m; time_dim m]) /\
        forall ix, inside (mds m) ix -> ix "subcolumn" < sz x' "subcolumn" ->
          at_ v2 ix = at_ v (fun d => if string_dec d out then stack_position m ix else ix d).
Proof.
  intros S Rg E P. destruct (check_and_stack_eq m out S order1 Rg) as (x1 & E1 & SK & Sz & _).
  rewrite E1 in E. injection E as <-. set (lon := has_dim (mds m) (lon_dim m)) in *.
  pose proof (stacked_processed _ _ _ _ SK P) as SP.
  destruct (unstack_spec _ _ _ order2 squeeze SP) as (m2 & E2 & T2 & _ & _ & _ & _ & F2).
  exists m2. split; [exact E2|]. split; [exact T2|]. intros k v F D.
  destruct (F2 k v F) as (v2 & Fv2 & Dv2 & Av2). exists v2. split; [exact Fv2|].
  pose proof (st_names _ _ S) as N. dist N.
  assert (Q : forall d, d <> "subcolumn" -> sz x' d = sz (mds (stacked_of m out lon)) d).
  { intros d Hd. rewrite (pr_sz _ _ P) by exact Hd. cbn [with_ds mds]. rewrite Sz. reflexivity. }
  split.
  - intros d Hd. apply Dv2 in Hd as [[Hd Nd]|[_ Hd]].
    + apply D in Hd. change (time_dim (with_ds (with_ds (stacked_of m out lon) x1) x')) with out in Nd. neq.
    + change (In d [lat_dim m; lon_dim m; time_dim m]) in Hd. neq.
  - intros ix Hi Hs.
    assert (G : forall d, In d (sdims m lon) -> (d ++ "_tmp")%string <> "subcolumn" -> (d ++ "_tmp")%string <> out ->
              ix d < sz x' (d ++ "_tmp")%string).
    { intros d Hd N1 N2. rewrite Q by exact N1. cbn [stacked_of mds stack sz]. rewrite eqb_f by exact N2.
      unfold lon in *. rewrite (szf_tmp m out S d Hd). pose proof (sdims_in m out S d Hd) as I.
      rewrite (szf_dim m out S d I). apply Hi. exact I. }
    rewrite Av2.
    + apply at_ext. intros d Hd. change (time_dim (with_ds (with_ds (stacked_of m out lon) x1) x')) with out.
      destruct (string_dec d out) as [->|Nd]; [|rewrite eqb_f by exact Nd; reflexivity].
      rewrite String.eqb_refl, <- position_ravel. fold lon.
      replace (map (sz (mds m)) (sdims m lon)) with (map (sz (with_tmps m lon)) (sdims m lon)).
      2:{ apply map_ext_in. intros d Hd'. apply (szf_dim m out S). apply (sdims_in m out S). exact Hd'. }
      pose proof (column_ravel m out S ix x1 Sz) as CR; fold lon in CR; rewrite <- CR; clear CR. fold lon. unfold column_of.
      cbn [with_ds mds lat_dim lon_dim]. rewrite Sz. rewrite !Q by neq. reflexivity.
    + intros d Hd Nd. cbn [with_ds mds]. change (time_dim (with_ds (with_ds (stacked_of m out lon) x1) x')) with out in Nd.
      destruct (string_dec d "subcolumn") as [->|Ns]; [exact Hs|].
      rewrite Q by exact Ns. cbn [stacked_of mds stack sz]. rewrite eqb_f by exact Nd.
      apply D in Hd. assert (d = height_dim m) as -> by neq.
      assert (I : In (height_dim m) (all_dims (mds m))).
      { destruct (st_height _ _ S) as (hk & hv & H1 & H2). apply in_dims. exists hk, hv. split; [apply in_all_vars; auto|exact H2]. }
      unfold lon. rewrite (szf_dim m out S _ I). apply Hi. exact I.
    + intros _. cbn [with_ds mds lat_dim lon_dim stacked_of]. split; [|split].
      * apply G; [unfold sdims; destruct lon; simpl; auto| |]; neq.
      * intro L. apply G; [unfold sdims; rewrite L; simpl; auto| |]; neq.
      * apply G; [unfold sdims; destruct lon; simpl; auto| |]; neq.
Qed.

Lemma unstack_unstacked m order squeeze : stacked_time_dim m = None -> unstack m order squeeze = Raise TypeError.
Proof. intro H. unfold unstack. rewrite H. reflexivity. Qed.

(** One column: lat and lon are squeezed. *)
Lemma stack_single m out order : well_formed (mds m) -> stacked_time_dim m = None ->
  NoDup [time_dim m; height_dim m; lat_dim m; lon_dim m; "subcolumn"] ->
  In (time_dim m) (all_dims (mds m)) -> In (height_dim m) (all_dims (mds m)) -> In (lat_dim m) (all_dims (mds m)) ->
  ~ regional m ->
  exists m1, check_and_stack m out order = Ok m1 /\ time_dim m1 = time_dim m /\ stacked_time_dim m1 = None /\
    forall k v, field (mds m) k v -> exists v1, field (mds m1) k v1 /\
      ~ In (lat_dim m) (vdims v1) /\ ~ In (lon_dim m) (vdims v1) /\
      forall ix, ix (lat_dim m) = 0 -> ix (lon_dim m) = 0 -> at_ v1 ix = at_ v ix.
Proof.
  intros W U N It Ih Il Rg. dist N.
  set (ds := if has_dim (mds m) (lon_dim m) then [lat_dim m; lon_dim m] else [lat_dim m]).
  set (m1 := with_ds m (on_ds (vsqueeze ds) (mds m))).
  assert (E : check_and_stack m out order = if order then permute_dims m1 None true else Ok m1).
  { unfold check_and_stack. assert (T : has_dim (mds m) (time_dim m) = true) by (apply has_dim_in; exact It). rewrite T.
    assert (L : has_dim (mds m) (lat_dim m) = true) by (apply has_dim_in; exact Il). rewrite L.
    assert (M : negb (Nat.eqb (sz (mds m) (lat_dim m)) 1)
              || (has_dim (mds m) (lon_dim m) && negb (Nat.eqb (sz (mds m) (lon_dim m)) 1)) = false).
    { unfold regional in Rg. destruct (Nat.eqb_spec (sz (mds m) (lat_dim m)) 1); [|exfalso; apply Rg; auto].
      simpl. destruct (has_dim (mds m) (lon_dim m)) eqn:Q; [|reflexivity]. apply has_dim_in in Q.
      destruct (Nat.eqb_spec (sz (mds m) (lon_dim m)) 1); [reflexivity|]. exfalso. apply Rg. auto. }
    rewrite M. reflexivity. }
  assert (F1 : forall k v, field (mds m) k v -> field (mds m1) k (vsqueeze ds v)).
  { intros k v F. unfold field, m1. cbn [with_ds mds on_ds vars]. rewrite assoc_on_vals. unfold field in F. rewrite F. reflexivity. }
  assert (Dd : forall k v d, field (mds m) k v -> In d [lat_dim m; lon_dim m] -> ~ In d (vdims (vsqueeze ds v))).
  { intros k v d F Hd H. unfold vsqueeze in H. cbn [vdims] in H. apply filter_In in H as [H M].
    destruct (memb d ds) eqn:Q; [discriminate|]. apply memb_out in Q. apply Q. unfold ds.
    destruct (has_dim (mds m) (lon_dim m)) eqn:L; [exact Hd|].
    destruct Hd as [Hd|[Hd|[]]]; [left; exact Hd|]. subst d.
    pose proof (field_dims _ _ _ _ F H) as I. apply has_dim_in in I. congruence. }
  assert (Av : forall v ix, ix (lat_dim m) = 0 -> ix (lon_dim m) = 0 -> at_ (vsqueeze ds v) ix = at_ v ix).
  { intros v ix H1 H2. rewrite at_squeeze. apply at_ext. intros d _. destruct (memb d ds) eqn:M; [|reflexivity].
    apply memb_in in M. unfold ds in M. destruct (has_dim (mds m) (lon_dim m)); neq. }
  rewrite E. destruct order.
  - assert (I : incl [time_dim m; height_dim m] (all_dims (mds m1))).
    { assert (K : forall d, In d (all_dims (mds m)) -> ~ In d ds -> In d (all_dims (mds m1))).
      { intros d Hd Nd. apply in_dims in Hd as (k & v & H & D). apply in_dims. exists k, (vsqueeze ds v). split.
        - apply in_on_ds. eauto.
        - unfold vsqueeze. cbn [vdims]. apply filter_In. split; [exact D|]. apply memb_out in Nd. rewrite Nd. reflexivity. }
      intros d [<-|[<-|[]]]; apply K; auto; unfold ds; destruct (has_dim (mds m) (lon_dim m)); neq. }
    eexists. split; [exact (permute_ok m1 None true I)|]. split; [reflexivity|]. split; [exact U|].
    intros k v F. destruct (permute_field m1 [time_dim m; height_dim m] true k _ I (F1 k v F)) as (G1 & G2 & G3).
    eexists. split; [exact G1|]. rewrite !G2. split; [|split].
    + eapply Dd; [exact F|simpl; auto].
    + eapply Dd; [exact F|simpl; auto].
    + intros ix H1 H2. rewrite G3. apply Av; assumption.
  - exists m1. split; [reflexivity|]. split; [reflexivity|]. split; [exact U|]. intros k v F.
    exists (vsqueeze ds v). split; [apply F1; exact F|]. split; [|split].
    + eapply Dd; [exact F|simpl; auto].
    + eapply Dd; [exact F|simpl; auto].
    + intros ix H1 H2. apply Av; assumption.
Qed.
