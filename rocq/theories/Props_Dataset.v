(** C36-C40, C48, C55 and C88: operations on the labelled dataset.  Statements use
    the vocabulary of Xds_Spec.v. *)
From Verif Require Import Xds_Model Xds_Spec Xds_Proofs Xds_Stack Xds_Round Xds_Ops Xds_Fields Xds_Labels Xds_Witness Xds_Merge.
From Coq Require Import Sorted.
Local Open Scope string_scope.
Local Open Scope list_scope.

(** C36: with more than one column, stacking succeeds, puts each column at
    its row-major position, and unstacking restores every value of every
    field at its (time, lat, lon) position. *)
Theorem C36_stack_unstack : forall m out order1 order2 squeeze, stackable m out -> regional m ->
  exists m1 m2, check_and_stack m out order1 = Ok m1 /\ unstack m1 order2 squeeze = Ok m2 /\
    time_dim m1 = out /\ time_dim m2 = time_dim m /\ stacked_time_dim m2 = None /\
    forall k v, field (mds m) k v ->
      (exists v1, field (mds m1) k v1 /\ forall ix, inside (mds m) ix ->
         at_ v1 (fun d => if string_dec d out then stack_position m ix else ix d) = at_ v ix) /\
      (exists v2, field (mds m2) k v2 /\ forall ix, inside (mds m) ix -> at_ v2 ix = at_ v ix).
Proof. exact round_trip_final. Qed.
Print Assumptions C36_stack_unstack.

(** ... a field produced while stacked is unstacked so that the value at
    (lat, lon, time) is the one at that column's position. *)
Theorem C36_fields_made_while_stacked : forall m out order1 order2 squeeze m1 x', stackable m out -> regional m ->
  check_and_stack m out order1 = Ok m1 -> processed m1 x' ->
  exists m2, unstack (with_ds m1 x') order2 squeeze = Ok m2 /\ time_dim m2 = time_dim m /\
    forall k v, field x' k v -> incl (vdims v) ["subcolumn"; out; height_dim m] ->
      exists v2, field (mds m2) k v2 /\
        (forall d, In d (vdims v2) -> In d ["subcolumn"; height_dim m; lat_dim m; lon_dim m; time_dim m]) /\
        forall ix, inside (mds m) ix -> ix "subcolumn" < sz x' "subcolumn" ->
          at_ v2 ix = at_ v (fun d => if string_dec d out then stack_position m ix else ix d).
Proof. exact processed_unstack. Qed.
Print Assumptions C36_fields_made_while_stacked.

(** ... with a single column, latitude and longitude are dropped and values
    kept. *)
Theorem C36_single_column : forall m out order, well_formed (mds m) -> stacked_time_dim m = None ->
  NoDup [time_dim m; height_dim m; lat_dim m; lon_dim m; "subcolumn"] ->
  In (time_dim m) (all_dims (mds m)) -> In (height_dim m) (all_dims (mds m)) -> In (lat_dim m) (all_dims (mds m)) ->
  ~ regional m ->
  exists m1, check_and_stack m out order = Ok m1 /\ time_dim m1 = time_dim m /\ stacked_time_dim m1 = None /\
    forall k v, field (mds m) k v -> exists v1, field (mds m1) k v1 /\
      ~ In (lat_dim m) (vdims v1) /\ ~ In (lon_dim m) (vdims v1) /\
      forall ix, ix (lat_dim m) = 0 -> ix (lon_dim m) = 0 -> at_ v1 ix = at_ v ix.
Proof. exact stack_single. Qed.
Print Assumptions C36_single_column.

(** ... stacking and unstacking keep the lengths and the coordinates of all
    dimensions, stacked or not (a coordinate is a single number after its
    dimension of length 1 is dropped). *)
Theorem C36_coordinates : forall m out order1 order2 squeeze m1 m2, stackable m out -> regional m ->
  check_and_stack m out order1 = Ok m1 -> unstack m1 order2 squeeze = Ok m2 ->
  forall d c, assoc (coords (mds m)) d = Some c -> In d (all_dims (mds m)) ->
    sz (mds m2) d = sz (mds m) d /\
    exists c2, assoc (coords (mds m2)) d = Some c2 /\ incl (vdims c2) [d] /\
      forall ix, ix d < sz (mds m) d -> at_ c2 ix = at_ c ix.
Proof. exact labels_round_trip. Qed.
Print Assumptions C36_coordinates.

(** ... a dataset without a time dimension is treated as one with a single
    time. *)
Theorem C36_time_added : forall m out order, ~ In (time_dim m) (all_dims (mds m)) -> vars (mds m) <> [] ->
  exists m0, check_and_stack m out order = check_and_stack m0 out order /\
    time_dim m0 = time_dim m /\ height_dim m0 = height_dim m /\ lat_dim m0 = lat_dim m /\ lon_dim m0 = lon_dim m /\
    stacked_time_dim m0 = stacked_time_dim m /\ In (time_dim m) (all_dims (mds m0)) /\ sz (mds m0) (time_dim m) = 1 /\
    (forall d, d <> time_dim m -> sz (mds m0) d = sz (mds m) d) /\
    forall k v, field (mds m) k v -> exists v0, field (mds m0) k v0 /\ vdims v0 = time_dim m :: vdims v /\
      forall ix, at_ v0 ix = at_ v ix.
Proof. exact time_added. Qed.
Print Assumptions C36_time_added.

(** ... unstacking what is not stacked raises TypeError. *)
Theorem C36_unstack_unstacked : forall m order squeeze, stacked_time_dim m = None ->
  unstack m order squeeze = Raise TypeError.
Proof. exact unstack_unstacked. Qed.
Print Assumptions C36_unstack_unstacked.

Example C36_witness : (stackable (wd 3) "time_lat_lon" /\ regional (wd 3)) /\
  (exists m1 x', check_and_stack (wd 3) "time_lat_lon" true = Ok m1 /\ processed m1 x' /\
     field x' (fst wd_new) (snd wd_new) /\ sz x' "subcolumn" = 4) /\
  (well_formed (mds (wd 1)) /\ NoDup ["time"; "lev"; "lat"; "lon"; "subcolumn"] /\ ~ regional (wd 1)).
Proof. exact (conj wd_stackable (conj wd_processed wd_single)). Qed.

(** C37: finalising replaces zeros by NaN in the fields whose name contains
    "sub_col" or one of the caller's strings, and changes nothing else. *)
Theorem C37_finalize : forall x more,
  sz (finalize_subcol_fields x more) = sz x /\ coords (finalize_subcol_fields x more) = coords x /\
  map fst (vars (finalize_subcol_fields x more)) = map fst (vars x) /\
  forall k v, field x k v -> exists v', field (finalize_subcol_fields x more) k v' /\ vdims v' = vdims v /\
    ((exists a, In a ("sub_col" :: more) /\ occurs_in a k) ->
       forall ix, (at_ v ix = XF 0 -> at_ v' ix = XNaN) /\ (at_ v ix <> XF 0 -> at_ v' ix = at_ v ix)) /\
    (~ (exists a, In a ("sub_col" :: more) /\ occurs_in a k) -> v' = v).
Proof. exact finalize_fields. Qed.
Print Assumptions C37_finalize.
Theorem C37_finalize_twice : forall x more k v1 v2,
  field (finalize_subcol_fields x more) k v1 ->
  field (finalize_subcol_fields (finalize_subcol_fields x more) more) k v2 ->
  vdims v2 = vdims v1 /\ forall ix, vat v2 ix = vat v1 ix.
Proof. exact finalize_twice. Qed.
Print Assumptions C37_finalize_twice.

(** C38: removing deletes exactly the fields named after the cloud class and
    a subcolumn marker. *)
Theorem C38_remove : forall x cl k v,
  In (k, v) (vars (remove_subcol_fields x cl)) <->
  In (k, v) (vars x) /\
  ~ (occurs_in cl k /\ (occurs_in "sub_col" k \/ occurs_in "subcol" k \/ occurs_in "phase_mask" k)).
Proof. exact remove_fields. Qed.
Print Assumptions C38_remove.
Theorem C38_remove_keeps : forall x cl,
  coords (remove_subcol_fields x cl) = coords x /\ sz (remove_subcol_fields x cl) = sz x /\
  remove_subcol_fields (remove_subcol_fields x cl) cl = remove_subcol_fields x cl /\
  forall v, In ("subcolumn", v) (coords x) -> vdims v = ["subcolumn"] ->
    num_subcolumns (remove_subcol_fields x cl) = num_subcolumns x.
Proof.
  intros x cl. exact (conj eq_refl (conj eq_refl (conj (remove_twice x cl) (remove_num x cl)))).
Qed.
Print Assumptions C38_remove_keeps.

(** C39: clamping. *)
Theorem C39_clamp : forall arr grid lo hi, axis_range grid lo hi ->
  exists out, set_array_to_valid_range arr grid = Ok out /\ length out = length arr /\
    (forall i r, nth_error arr i = Some (XF r) -> nth_error out i = Some (XF (Rmax lo (Rmin r hi)))) /\
    (forall i, nth_error arr i = Some XNaN -> nth_error out i = Some XNaN) /\
    set_array_to_valid_range out grid = Ok out.
Proof. exact clamp_spec. Qed.
Print Assumptions C39_clamp.
Theorem C39_clamp_value : forall lo hi r s, (lo <= hi)%R ->
  (lo <= Rmax lo (Rmin r hi) <= hi)%R /\ ((lo <= r <= hi)%R -> Rmax lo (Rmin r hi) = r) /\
  ((r <= s)%R -> (Rmax lo (Rmin r hi) <= Rmax lo (Rmin s hi))%R).
Proof. exact clamp_value. Qed.
Print Assumptions C39_clamp_value.
Example C39_witness : axis_range [XF 3; XNaN; XF 1] 1 3.
Proof. exact wd_axis. Qed.

(** C40: cropping keeps the samples with t0 <= t < t1, in order, of every
    variable; when there are none nothing changes. *)
Theorem C40_crop : forall m t0 t1 alter tc,
  assoc (all_vars (mds m)) (match alter with None => time_dim m | Some a => a end) = Some tc ->
  vdims tc = [time_dim m] ->
  exists keep, StronglySorted lt keep /\
    (forall i, In i keep <-> i < sz (mds m) (time_dim m) /\ exists t, at_ tc (fun _ => i) = XF t /\ (t0 <= t < t1)%R) /\
    (keep = [] -> crop_time_range m (XF t0) (XF t1) alter = Ok m) /\
    (keep <> [] -> exists m', crop_time_range m (XF t0) (XF t1) alter = Ok m' /\
       (forall d, sz (mds m') d = if string_dec d (time_dim m) then length keep else sz (mds m) d) /\
       time_dim m' = time_dim m /\
       map fst (all_vars (mds m')) = map fst (all_vars (mds m)) /\
       forall k v, assoc (all_vars (mds m)) k = Some v -> exists v', assoc (all_vars (mds m')) k = Some v' /\
         vdims v' = vdims v /\
         forall ix, at_ v' ix = at_ v (fun d => if string_dec d (time_dim m) then nth (ix d) keep 0 else ix d)).
Proof. exact crop_spec. Qed.
Print Assumptions C40_crop.
Example C40_witness : assoc (all_vars (mds (wd 3))) "time" = Some (snd (wd_coord "time")) /\
  vdims (snd (wd_coord "time")) = ["time"] /\ (1 <= INR 1 < 5)%R /\ ~ (1 <= INR 0 < 5)%R.
Proof. exact wd_time. Qed.

(** C48: the saved data fields are those whose name contains one of the
    markers; coordinates along a saved field are saved. *)
Theorem C48_saved_fields : forall m k v, In (k, v) (vars (subcolumns_file m)) <->
  In (k, v) (vars (mds m)) /\
  exists a, In a ["sub_col"; "subcol"; "strat_"; "conv_"; "_tot"; "_ext"; "_mask"; "_min"; "mpr"; "fpr"; time_dim m; "Times"]
            /\ occurs_in a k.
Proof. exact saved_fields. Qed.
Print Assumptions C48_saved_fields.
Theorem C48_saved_coords : forall m k v, In (k, v) (coords (mds m)) ->
  (exists k' v', In (k', v') (vars (subcolumns_file m)) /\ incl (vdims v) (vdims v')) ->
  In (k, v) (coords (subcolumns_file m)).
Proof. exact saved_coords. Qed.
Print Assumptions C48_saved_coords.

(** C55: loading the saved file into a dataset from which fields were removed
    restores every saved field and keeps the others. *)
Theorem C55_save_load : forall m y, NoDup (map fst (coords (mds m))) -> NoDup (map fst (vars (mds m))) ->
  (forall d, sz (mds y) d = sz (mds m) d) ->
  incl (coords (mds y)) (coords (mds m)) -> incl (vars (mds y)) (vars (mds m)) ->
  exists z, load_subcolumns y (subcolumns_file m) = Ok z /\ time_dim z = time_dim y /\
    (forall d, sz (mds z) d = sz (mds m) d) /\
    (forall k v, field (subcolumns_file m) k v \/ field (mds y) k v ->
       exists u, field (mds z) k u /\ vdims u = vdims v /\ forall ix, at_ u ix = at_ v ix) /\
    (forall k, ~ In k (map fst (vars (subcolumns_file m))) -> assoc (vars (mds z)) k = assoc (vars (mds y)) k).
Proof. exact load_ok. Qed.
Print Assumptions C55_save_load.
Example C37_C38_C48_C55_witness : NoDup (map fst (coords (mds (wd 3)))) /\ NoDup (map fst (vars (mds (wd 3)))) /\
  (exists v, field (subcolumns_file (wd 3)) "conv_frac_subcolumns_cl" v) /\
  assoc (vars (remove_subcol_fields (mds (wd 3)) "conv")) "conv_frac_subcolumns_cl" = None /\
  (exists v, field (remove_subcol_fields (mds (wd 3)) "conv") "sub_col_Ze_tot_strat" v).
Proof. exact wd_saved. Qed.

(** C88: loading saved fields never changes a value that is already there: it
    fills missing ones, adds fields, and fails on a contradiction. *)
Theorem C88_loading_keeps_values : forall m file z, NoDup (map fst (vars file)) -> load_subcolumns m file = Ok z ->
  (forall k v, field (mds m) k v -> (forall w, ~ field file k w) -> field (mds z) k v) /\
  (forall k w, field file k w -> (forall v, ~ field (mds m) k v) -> field (mds z) k w) /\
  (forall k v w, field (mds m) k v -> field file k w ->
     exists u, field (mds z) k u /\ vdims u = vdims v /\ vdims w = vdims v /\
       (forall ix, at_ u ix = first_known (at_ v ix) (at_ w ix)) /\
       (forall ix, (forall d, In d (vdims v) -> ix d < sz file d) -> compatible (at_ v ix) (at_ w ix))) /\
  (forall k u, field (mds z) k u -> (exists v, field (mds m) k v) \/ (exists w, field file k w)).
Proof. exact load_keeps. Qed.
Print Assumptions C88_loading_keeps_values.
Theorem C88_contradiction_fails : forall m file k v w ix, NoDup (map fst (vars file)) ->
  field (mds m) k v -> field file k w ->
  (forall d, In d (vdims v) -> ix d < sz file d) -> ~ compatible (at_ v ix) (at_ w ix) ->
  exists x, load_subcolumns m file = Raise x.
Proof. exact load_conflict. Qed.
Print Assumptions C88_contradiction_fails.
Example C88_witness : exists z u,
  load_subcolumns (with_ds (wd 3) (mg_ds (XF 1) XNaN)) (mg_ds XNaN (XF 5)) = Ok z /\
  field (mds z) "Ze_tot" u /\ at_ u (fun _ => 0) = XF 1 /\ at_ u (fun _ => 1) = XF 5 /\
  exists x, load_subcolumns (with_ds (wd 3) (mg_ds (XF 1) XNaN)) (mg_ds (XF 2) (XF 5)) = Raise x.
Proof. exact mg_case. Qed.
