(** C42, C43, C44, C63-C66: statistics of simulated fields.
    Vocabulary: Stat_Spec.v; [sumR] is in Mom_Spec.v. *)
From Verif Require Import Np Xr Mom_Spec Stat_Model Stat_Spec Stat_Facts Stat_More Stat_Count Stat_Witness.
Local Open Scope R_scope.

(** C42: the regridded value is the thickness-weighted mean of the old layers
    that the new layer overlaps, and lies between their extremes ...
    Missing from C42: new layers, other than the lowest, that overlap the
    lowest old layer (C42_weighted_mean_refuted, C42_bottom_layer_dropped). *)
Theorem C42_weighted_mean_partial : forall np zfull zhalf y new r,
  change_grid np zfull zhalf y new false = Ok r -> layered new ->
  forall i j k, (i < np)%nat -> increasing (zhalf i) -> (k < length new)%nat ->
  nth 0 (zhalf i) 0 < snd (nth k new (0, 0)) ->
  (k = O \/ shared (zhalf i) new k 0 = 0) ->
  0 < sumR (shared (zhalf i) new k) (length (zhalf i)) /\
  r i j k * sumR (shared (zhalf i) new k) (length (zhalf i))
    = sumR (fun l => shared (zhalf i) new k l * y i j l) (length (zhalf i)).
Proof. exact regrid_mean. Qed.
Print Assumptions C42_weighted_mean_partial.
Theorem C42_between_partial : forall np zfull zhalf y new r,
  change_grid np zfull zhalf y new false = Ok r -> layered new ->
  forall i j k, (i < np)%nat -> increasing (zhalf i) -> (k < length new)%nat ->
  nth 0 (zhalf i) 0 < snd (nth k new (0, 0)) ->
  (k = O \/ shared (zhalf i) new k 0 = 0) ->
  forall lo hi, (forall l, (S l < length (zhalf i))%nat -> 0 < shared (zhalf i) new k l -> lo <= y i j l <= hi) ->
  lo <= r i j k <= hi.
Proof. exact regrid_between. Qed.
Print Assumptions C42_between_partial.
(** With lunits=True the mean is of the linear values (missing ones count as
    0) and the result is in decibels again. *)
Theorem C42_linear_partial : forall np zfull zhalf y new r,
  change_grid np zfull zhalf y new true = Ok r -> layered new ->
  forall i j k, (i < np)%nat -> increasing (zhalf i) -> (k < length new)%nat ->
  nth 0 (zhalf i) 0 < snd (nth k new (0, 0)) ->
  (k = O \/ shared (zhalf i) new k 0 = 0) ->
  exists m, m * sumR (shared (zhalf i) new k) (length (zhalf i))
    = sumR (fun l => shared (zhalf i) new k l * linear (y i j l)) (length (zhalf i)) /\
  (0 < m -> r i j k = 10 * log10 m) /\ (m <= 0 -> r i j k = - 10 ^ 30).
Proof. exact regrid_linear. Qed.
Print Assumptions C42_linear_partial.
(** ... which fails in general: *)
Theorem C42_weighted_mean_refuted : exists r, change_grid 1 wfull wz wy wnew false = Ok r /\
  layered wnew /\ increasing (wz 0) /\ nth 0 (wz 0) 0 < snd (nth 1 wnew (0, 0)) /\
  r 0%nat 0%nat 1%nat * sumR (shared (wz 0) wnew 1) 4 <> sumR (fun l => shared (wz 0) wnew 1 l * wy 0 0 l) 4.
Proof. exact w_mean_refuted. Qed.
Print Assumptions C42_weighted_mean_refuted.
(** every new layer but the lowest that lies inside the lowest old layer gets
    the value 0, whatever the data. *)
Theorem C42_bottom_layer_dropped : forall np zfull zhalf y new r,
  change_grid np zfull zhalf y new false = Ok r -> layered new ->
  forall i j k, (i < np)%nat -> increasing (zhalf i) -> (S k < length new)%nat ->
  nth 0 (zhalf i) 0 < snd (nth (S k) new (0, 0)) -> snd (nth (S k) new (0, 0)) <= nth 1 (zhalf i) 0 ->
  (1 < length (zhalf i))%nat ->
  r i j (S k) = 0.
Proof. exact regrid_bottom. Qed.
Print Assumptions C42_bottom_layer_dropped.
(** It succeeds when no new layer reaches above the last half level of any
    profile, and is an IndexError otherwise. *)
Theorem C42_succeeds : forall np zfull zhalf y new lunits, layered new ->
  (forall i, (i < np)%nat -> increasing (zhalf i) /\ (2 <= length (zhalf i))%nat /\
     forall k, (k < length new)%nat -> snd (nth k new (0, 0)) <= nth (length (zhalf i) - 1) (zhalf i) 0) ->
  exists r, change_grid np zfull zhalf y new lunits = Ok r.
Proof. exact regrid_succeeds. Qed.
Print Assumptions C42_succeeds.
Theorem C42_too_high : forall np zfull zhalf y new lunits i k, layered new ->
  (i < np)%nat -> increasing (zhalf i) -> (k < length new)%nat ->
  (forall l, (l < length (zhalf i))%nat -> nth l (zhalf i) 0 < snd (nth k new (0, 0))) ->
  change_grid np zfull zhalf y new lunits = Raise IndexError.
Proof. exact regrid_too_high. Qed.
Print Assumptions C42_too_high.
Example C42_witness : layered wnew /\ increasing (wz 0) /\
  exists r, change_grid 1 wfull wz wy wnew false = Ok r /\ r 0%nat 0%nat 2%nat = 7 / 3 /\ r 0%nat 0%nat 1%nat = 0.
Proof. exact (conj w_layered (conj (w_increasing 0) w_mean)). Qed.

(** C43. *)
Theorem C43_lidar_cloud_fraction : forall nsub sr t k c cldy ok,
  number (fun i => exceeds (sr i t k c) 5) nsub cldy ->
  number (fun i => exceeds (sr i t k c) (1 / 100)) nsub ok ->
  (ok = O -> lidar_CF nsub sr t k c = XNaN) /\
  (ok <> O -> lidar_CF nsub sr t k c = XF (INR cldy / INR ok) /\ 0 <= INR cldy / INR ok <= 1).
Proof. exact lidar_cf_spec. Qed.
Print Assumptions C43_lidar_cloud_fraction.
Example C43_witness :
  number (fun i => exceeds (wsr i) 5) 3 1 /\ number (fun i => exceeds (wsr i) (1/100)) 3 2 /\
  lidar_CF 3 (fun i _ _ _ => wsr i) 0 0 0 = XF (1 / 2).
Proof. exact w_cf. Qed.

(** C44: a row with some value in range; *)
Theorem C44_row : forall rows nsub es a k n, increasing es -> (2 <= length es)%nat -> (0 < nsub)%nat ->
  number (fun i => in_bin (hd 0 es) (last es 0) (a i k)) rows n -> n <> O ->
  exists f, (forall j, (S j < length es)%nat -> cfad rows nsub (map XF es) a k j = XF (f j)) /\
    (forall j, (S j < length es)%nat -> exists c,
       number (fun i => in_bin (nth j es 0) (nth (S j) es 0) (a i k)) rows c /\ f j = INR c / INR nsub) /\
    sumR f (length es - 1) = INR n / INR nsub.
Proof. exact cfad_row. Qed.
Print Assumptions C44_row.
(** a row without any is NaN rather than 0; *)
Theorem C44_empty_row : forall rows nsub es a k, es <> [] ->
  number (fun i => in_bin (hd 0 es) (last es 0) (a i k)) rows 0 ->
  forall j, cfad rows nsub (map XF es) a k j = XNaN.
Proof. exact cfad_empty. Qed.
Print Assumptions C44_empty_row.
(** averages over times: each entry is the mean share, *)
Theorem C44_time_mean : forall np rows nsub es a k j (c : nat -> nat), increasing es -> (S j < length es)%nat ->
  (0 < nsub)%nat -> (0 < np)%nat ->
  (forall t, (t < np)%nat -> number (fun i => in_bin (nth j es 0) (nth (S j) es 0) (a i t k)) rows (c t)) ->
  cfad_alltime np rows nsub (map XF es) a k j = XF (sumR (fun t => INR (c t) / INR nsub) np / INR np).
Proof. exact alltime_entry. Qed.
Print Assumptions C44_time_mean.
(** and rows still sum to at most 1. *)
Theorem C44_time_bound : forall np rows es a k, increasing es -> (2 <= length es)%nat -> (0 < rows)%nat -> (0 < np)%nat ->
  exists f, (forall j, (S j < length es)%nat ->
       cfad_alltime np rows rows (map XF es) a k j = XF (f j) /\ 0 <= f j) /\
    sumR f (length es - 1) <= 1.
Proof. exact alltime_row. Qed.
Print Assumptions C44_time_bound.
Example C44_witness : increasing wedges /\ (2 <= length wedges)%nat /\
  number (fun i => in_bin (hd 0 wedges) (last wedges 0) (wa i 0)) 3 2 /\
  number (fun i => in_bin (hd 0 wedges) (last wedges 0) (XF (INR i + 100))) 3 0.
Proof. exact (conj w_edges (conj (le_S _ _ (le_n _)) (conj w_in_range w_out_of_range))). Qed.

(** C63: the value of a level is spread over a layer whose bottom, and so all
    of it, lies above the level. *)
Theorem C63_layer_above_level : forall z l, increasing z -> (S l < length z)%nat ->
  nth l z 0 < nth l (half_levels z) 0.
Proof. exact (fun z l => half_levels_above z l). Qed.
Print Assumptions C63_layer_above_level.
Theorem C63_layers_ordered : forall z, increasing z -> increasing (half_levels z).
Proof. exact half_levels_increasing. Qed.
Print Assumptions C63_layers_ordered.
Example C63_witness : increasing (wz1 0) /\ (1 < length (wz1 0))%nat.
Proof. split; [apply w_increasing1|cbn; lia]. Qed.

(** C64: new layers below the model's lowest half level. *)
Theorem C64_below_ground_is_clear : forall nt zfull zhalf tot mol new r,
  calculate_SR nt zfull zhalf tot mol new = Ok r ->
  forall i t k, snd (nth k new (0, 0)) <= nth 0 (zhalf t) 0 -> r i t k = XF 1.
Proof. exact sr_ground. Qed.
Print Assumptions C64_below_ground_is_clear.

(** There the cloud fraction is 0, as for a usable clear layer, not NaN. *)
Theorem C64_below_ground_fraction : forall nsub sr t k c, (0 < nsub)%nat ->
  (forall i, sr i t k c = XF 1) -> lidar_CF nsub sr t k c = XF 0.
Proof. exact clear_cf. Qed.
Print Assumptions C64_below_ground_fraction.
Example C64_witness : exists r, calculate_SR 1 wfull wz2 (fun _ _ _ => XF 2) (fun _ _ _ => XF 1) wnew2 = Ok r /\
  snd (nth 0 wnew2 (0, 0)) <= nth 0 (wz2 0) 0.
Proof. exact w_sr. Qed.

(** C65: missing values. *)
Theorem C65_all_missing : forall nt zfull zhalf ze new r, regridded_ze nt zfull zhalf ze new = Ok r ->
  layered new -> forall i t k, (t < nt)%nat -> increasing (zhalf t) -> (k < length new)%nat ->
  nth 0 (zhalf t) 0 < snd (nth k new (0, 0)) -> (k = O \/ shared (zhalf t) new k 0 = 0) ->
  (forall l, 0 < shared (zhalf t) new k l -> ze i t l = XNaN) ->
  r i t k = XNaN.
Proof. exact ze_all_missing. Qed.
Print Assumptions C65_all_missing.
(** Any other new layer gets a number in which each missing layer counts as
    -1e30. *)
Theorem C65_partly_missing : forall nt zfull zhalf ze (dbz : nat -> R) (gap : nat -> bool) new r,
  regridded_ze nt zfull zhalf ze new = Ok r ->
  layered new -> forall i t k, (t < nt)%nat -> increasing (zhalf t) -> (k < length new)%nat ->
  nth 0 (zhalf t) 0 < snd (nth k new (0, 0)) -> (k = O \/ shared (zhalf t) new k 0 = 0) ->
  (forall l, ze i t l = if gap l then XNaN else XF (dbz l)) -> (forall l, - 10 ^ 30 < dbz l) ->
  (exists l, (S l < length (zhalf t))%nat /\ 0 < shared (zhalf t) new k l /\ gap l = false) ->
  exists v, r i t k = XF v /\ 0 < sumR (shared (zhalf t) new k) (length (zhalf t)) /\
    v * sumR (shared (zhalf t) new k) (length (zhalf t))
      = sumR (fun l => shared (zhalf t) new k l * (if gap l then - 10 ^ 30 else dbz l)) (length (zhalf t)).
Proof. exact ze_partly_missing. Qed.
Print Assumptions C65_partly_missing.
Example C65_witness : exists r, regridded_ze 1 wfull wz1 (fun _ _ l => if wgap l then XNaN else XF 0) wnew1 = Ok r /\
  layered wnew1 /\ increasing (wz1 0) /\ shared (wz1 0) wnew1 0 0 = 1 /\ shared (wz1 0) wnew1 0 1 = 1 /\
  r 0%nat 0%nat 0%nat = XF (- (10 ^ 30 / 2)).
Proof. exact w_partly_missing. Qed.

(** C66: reflectivities are averaged in decibels; the result never exceeds
    that of the mean of the linear values ... *)
Theorem C66_decibel_mean : forall nt zfull zhalf ze dbz new r, regridded_ze nt zfull zhalf ze new = Ok r ->
  layered new -> forall i t k, (t < nt)%nat -> increasing (zhalf t) -> (k < length new)%nat ->
  nth 0 (zhalf t) 0 < snd (nth k new (0, 0)) -> (k = O \/ shared (zhalf t) new k 0 = 0) ->
  (forall l, ze i t l = XF (dbz l)) -> (forall l, - 10 ^ 30 < dbz l) ->
  exists v, r i t k = XF v /\
    v * sumR (shared (zhalf t) new k) (length (zhalf t)) = sumR (fun l => shared (zhalf t) new k l * dbz l) (length (zhalf t)) /\
    Rpower 10 (v / 10) * sumR (shared (zhalf t) new k) (length (zhalf t))
      <= sumR (fun l => shared (zhalf t) new k l * Rpower 10 (dbz l / 10)) (length (zhalf t)).
Proof. exact ze_below_linear. Qed.
Print Assumptions C66_decibel_mean.
Example C66_witness : (exists r, regridded_ze 1 wfull wz1 (fun _ _ l => XF (wdbz l)) wnew1 = Ok r) /\ layered wnew1 /\
  increasing (wz1 0) /\ nth 0 (wz1 0) 0 < snd (nth 0 wnew1 (0, 0)) /\ forall l, - 10 ^ 30 < wdbz l.
Proof.
  split; [apply w_ze|]. split; [apply w_layered1|]. split; [apply w_increasing1|]. split; [cbn; lra|].
  intro l. unfold wdbz. destruct (Nat.eqb l _); lra.
Qed.
(** ... and differs from it: 0 and 20 dBZ in equal parts give 10 dBZ. *)
Theorem C66_linear_mean_refuted : exists r, regridded_ze 1 wfull wz1 (fun _ _ l => XF (wdbz l)) wnew1 = Ok r /\
  layered wnew1 /\ increasing (wz1 0) /\ shared (wz1 0) wnew1 0 0 = 1 /\ shared (wz1 0) wnew1 0 1 = 1 /\
  r 0%nat 0%nat 0%nat = XF 10 /\
  Rpower 10 (10 / 10) * sumR (shared (wz1 0) wnew1 0) 4
    <> sumR (fun l => shared (wz1 0) wnew1 0 l * Rpower 10 (wdbz l / 10)) 4.
Proof. exact w_decibels. Qed.
Print Assumptions C66_linear_mean_refuted.

(** C139: the scattering ratio of a layer is the thickness-weighted total
    backscatter of the old layers it overlaps over their thickness-weighted
    molecular backscatter. *)
Theorem C139_ratio_of_means : forall nt zfull zhalf tot mol (T M : nat -> R) new r,
  calculate_SR nt zfull zhalf tot mol new = Ok r ->
  layered new -> forall i t k, (t < nt)%nat -> increasing (zhalf t) -> (k < length new)%nat ->
  nth 0 (zhalf t) 0 < snd (nth k new (0, 0)) -> (k = O \/ shared (zhalf t) new k 0 = 0) ->
  (forall l, tot i t l = XF (T l)) -> (forall l, mol i t l = XF (M l)) ->
  (forall l, - 10 ^ 30 < T l) -> (forall l, 0 < M l) ->
  exists v, r i t k = XF v /\ 0 < sumR (fun l => shared (zhalf t) new k l * M l) (length (zhalf t)) /\
    v * sumR (fun l => shared (zhalf t) new k l * M l) (length (zhalf t))
      = sumR (fun l => shared (zhalf t) new k l * T l) (length (zhalf t)).
Proof. exact sr_ratio. Qed.
Print Assumptions C139_ratio_of_means.
Example C139_witness : (exists r, calculate_SR 1 wfull wz1 (fun _ _ l => XF (wdbz l)) (fun _ _ l => XF (wdbz l + 1)) wnew1 = Ok r) /\
  layered wnew1 /\ increasing (wz1 0) /\ nth 0 (wz1 0) 0 < snd (nth 0 wnew1 (0, 0)) /\
  (forall l, - 10 ^ 30 < wdbz l) /\ forall l, 0 < wdbz l + 1.
Proof.
  split; [unfold calculate_SR; destruct (w_ze (fun _ _ l => XF (wdbz l))) as [a ->]; destruct (w_ze (fun _ _ l => XF (wdbz l + 1))) as [b ->]; eexists; reflexivity|].
  split; [apply w_layered1|]. split; [apply w_increasing1|]. split; [cbn; lra|].
  split; intro l; unfold wdbz; destruct (Nat.eqb l _); lra.
Qed.
