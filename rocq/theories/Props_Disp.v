(** Properties of displays: chosen place, means and spreads, mean profiles. *)
From Coq Require Import Reals Lra Permutation ZArith.
From Verif Require Import Disp_Spec Disp_Stat Disp_Level Disp_Prof Disp_Crop Disp_More Disp_Inst Disp_Sum Disp_Wit Disp_Switch.
Local Open Scope string_scope.
Local Open Scope list_scope.

(** *** C109: mean and standard deviation of the numbers, NaN left out *)
Theorem C109_mean : forall l, no_inf l ->
  (numbers l = [] -> calc_mean_and_sd false l = (XNaN, XNaN)) /\
  (numbers l <> [] -> exists m s, calc_mean_and_sd false l = (XF m, XF s) /\
     (m * INR (length (numbers l)) = total (numbers l))%R /\
     (0 <= s)%R /\ (s * s * INR (length (numbers l)) = total (map (fun u => (u - m) * (u - m)) (numbers l)))%R /\
     (s = 0%R <-> forall u v, In u (numbers l) -> In v (numbers l) -> u = v) /\
     forall lo hi, (forall u, In u (numbers l) -> lo <= u <= hi)%R -> (lo <= m <= hi)%R).
Proof. exact mean_ok. Qed.
Print Assumptions C109_mean.
Theorem C109_order_free : forall geom l l', no_inf l -> Permutation l l' -> calc_mean_and_sd geom l = calc_mean_and_sd geom l'.
Proof. exact order_free. Qed.
Print Assumptions C109_order_free.
Theorem C109_geometric : forall l, let us := positive (numbers l) in
  (us = [] -> calc_mean_and_sd true l = (XNaN, XNaN)) /\
  (us <> [] -> exists m s, calc_mean_and_sd true l = (XF m, XF s) /\
     (0 < m)%R /\ (m ^ length us = product us)%R /\ (m <= average us)%R /\ (1 <= s)%R /\
     (forall lo hi, (0 < lo)%R -> (forall u, In u us -> lo <= u <= hi)%R -> (lo <= m <= hi)%R) /\
     (s = 1%R <-> forall u v, In u us -> In v us -> u = v)).
Proof. exact geom_ok. Qed.
Print Assumptions C109_geometric.
Example C109_numbers : no_inf [XF 1; XNaN; XF 3] /\ numbers [XF 1; XNaN; XF 3] = [1; 3]%R /\
  In 3%R (positive (numbers [XF 1; XNaN; XF 3; XF (-2); XP])) /\ Permutation [XF 1; XNaN] [XNaN; XF 1].
Proof.
  split; [split; intros [|[|[|[]]]]; discriminate|]. split; [reflexivity|]. split; [|constructor].
  apply positive_in. cbn. split; [auto|lra].
Qed.

(** *** C110: mean profiles *)
Theorem C110_profile : forall d name yname c subs levels f y w g geom ze K,
  profile_of d name yname c subs levels f y -> geometric g name geom -> is_dBZ name ze -> real_times w ->
  levels <> 1 -> 0 < sz (d_ds d) (time_dim (d_model d)) ->
  exists steps, shown w (sz (d_ds d) (time_dim (d_model d))) c steps /\
    (steps <> [] -> ~ (subs = 1 /\ length steps = 1) -> (K <> None -> forall k, no_inf (seen_at K f subs steps k)) ->
     exists r, mean_profile d name yname w (mask3 subs (length steps) levels K) g = Ok r /\
       drawn_profile r levels steps ze geom y (seen_at K f subs steps)).
Proof. exact profile_ok. Qed.
Print Assumptions C110_profile.
Theorem C110_grid_field : forall d name yname c levels f y g geom ze,
  grid_profile_of d name yname c levels f y -> geometric g name geom -> is_dBZ name ze ->
  levels <> 1 -> 1 < sz (d_ds d) (time_dim (d_model d)) ->
  exists r, mean_profile d name yname WAll None g = Ok r /\
    drawn_profile r levels (seq 0 (sz (d_ds d) (time_dim (d_model d)))) ze geom y
      (fun k => map (fun t => f t k) (seq 0 (sz (d_ds d) (time_dim (d_model d))))).
Proof. exact grid_ok. Qed.
Print Assumptions C110_grid_field.
Theorem C110_instrument : forall x name hdim c f y r g geom ze K,
  instrument_of x name hdim c f y -> geometric g name geom -> is_dBZ name ze -> real_times (window r) ->
  exists steps, shown (window r) (sz x "time") c steps /\
  let vis := seen_at K (fun _ => f) 1 steps in
  ((K <> None -> forall k, no_inf (vis k)) ->
   exists out, instrument_profile x name r (mask2 (length steps) (sz x hdim) K) g = Ok out /\ length out = sz x hdim /\
     forall k, k < sz x hdim -> exists lev, nth_error out k = Some (XF (y k), lev) /\ drawn ze geom (numbers (vis k)) lev).
Proof. exact instrument_ok. Qed.
Print Assumptions C110_instrument.
Example C110_case : profile_of w_d "Ze" "z" INR 2 2 w_ze w_y /\ is_dBZ "Ze" true /\ geometric (GBool false) "Ze" false /\
  real_times (WOne (XF 0)) /\ 2 <> 1 /\ 0 < sz w_ds "time" /\ ~ (2 = 1 /\ length [0; 1] = 1) /\
  grid_profile_of w_d "T" "z" INR 2 (fun _ k => XF (INR k)) w_y /\ is_dBZ "T" false /\
  instrument_of w_ds "T" "lev" INR (fun _ k => XF (INR k)) INR.
Proof.
  split; [exact w_profile|]. split; [exact w_dBZ|]. split; [reflexivity|]. split; [exists 0%R; reflexivity|]. split; [discriminate|].
  split; [cbn; auto|]. split; [intros [H _]; discriminate|]. split; [exact w_grid|]. split; [exact w_not_dBZ|exact w_instrument].
Qed.

(** *** C111: masks.  A mask hiding nothing should change nothing. *)
Theorem C111_open_mask_refuted : exists d name yname c subs levels f y, profile_of d name yname c subs levels f y /\
  (forall s j k, visible open_mask f (seq 0 (sz (d_ds d) (time_dim (d_model d)))) s j k =
                 visible None f (seq 0 (sz (d_ds d) (time_dim (d_model d)))) s j k) /\
  exists r r', mean_profile d name yname WAll None (GBool false) = Ok r /\
    mean_profile d name yname WAll (mask3 subs (sz (d_ds d) (time_dim (d_model d))) levels open_mask) (GBool false) = Ok r' /\
    map (fun p => fst (fst (snd p))) r <> map (fun p => fst (fst (snd p))) r'.
Proof. exact open_mask_refuted. Qed.
Print Assumptions C111_open_mask_refuted.
Theorem C111_mask_partial : forall d name yname c subs levels f y g geom ze K,
  profile_of d name yname c subs levels f y -> geometric g name geom -> is_dBZ name ze ->
  levels <> 1 -> 0 < sz (d_ds d) (time_dim (d_model d)) -> ~ (subs = 1 /\ sz (d_ds d) (time_dim (d_model d)) = 1) ->
  (forall k, no_inf (seen_at (Some K) f subs (seq 0 (sz (d_ds d) (time_dim (d_model d)))) k)) ->
  exists r, mean_profile d name yname WAll (mask3 subs (sz (d_ds d) (time_dim (d_model d))) levels (Some K)) g = Ok r /\
    drawn_profile r levels (seq 0 (sz (d_ds d) (time_dim (d_model d)))) ze geom y
      (seen_at (Some K) f subs (seq 0 (sz (d_ds d) (time_dim (d_model d))))).
Proof. exact mask_ok. Qed.
Print Assumptions C111_mask_partial.
Example C111_case : forall k, no_inf (seen_at (Some (fun s _ _ => XF (if Nat.eqb s 0 then 1 else 0))) w_ze 2 (seq 0 2) k).
Proof.
  intro k. unfold seen_at, visible. cbn [seq flat_map map app length Nat.eqb]. destruct (Rle_dec 1 0); [lra|]. destruct (Rle_dec 0 0); [|lra].
  cbn. split; intros [|[|[|[|[]]]]]; discriminate.
Qed.

(** *** C112: the band around the line *)
Theorem C112_band : forall geom fs lev, used false geom fs <> [] -> drawn false geom fs lev ->
  exists lo mid hi, lev = (XF mid, XF lo, XF hi) /\ (lo <= mid <= hi)%R /\ (mid - lo = hi - mid)%R.
Proof. exact band_ok. Qed.
Print Assumptions C112_band.
Theorem C112_band_reflectivity : forall geom fs lev, used true geom fs <> [] -> drawn true geom fs lev ->
  (/ 2 ^ 52 <= mean_of geom (used true geom fs))%R ->
  exists lo mid hi, lev = (XF mid, XF lo, XF hi) /\ (lo <= mid <= hi)%R.
Proof. exact band_dB. Qed.
Print Assumptions C112_band_reflectivity.
Theorem C112_units_partial : forall a fs l1 l2, (0 < a)%R -> fs <> [] ->
  drawn false false fs l1 -> drawn false false (map (fun u => (a * u)%R) fs) l2 ->
  exists m lo hi, l1 = (XF m, XF lo, XF hi) /\ l2 = (XF (a * m), XF (a * lo), XF (a * hi)).
Proof. exact arith_units. Qed.
Print Assumptions C112_units_partial.
Theorem C112_geometric_units_refuted : forall a fs l1 l2, (0 < a)%R -> positive fs <> [] ->
  drawn false true fs l1 -> drawn false true (map (fun u => (a * u)%R) fs) l2 ->
  exists m s, (1 <= s)%R /\ l1 = (XF m, XF (m - s), XF (m + s)) /\ l2 = (XF (a * m), XF (a * m - s), XF (a * m + s)).
Proof. exact geom_units. Qed.
Print Assumptions C112_geometric_units_refuted.
Theorem C112_equal_values : forall u fs lev, fs <> [] -> (forall v, In v fs -> v = u) -> drawn false false fs lev -> lev = (XF u, XF u, XF u).
Proof. exact equal_arith. Qed.
Print Assumptions C112_equal_values.
Theorem C112_geometric_equal_values_refuted : forall u fs lev, fs <> [] -> (0 < u)%R -> (forall v, In v fs -> v = u) ->
  drawn false true fs lev -> lev = (XF u, XF (u - 1), XF (u + 1)).
Proof. exact equal_geom. Qed.
Print Assumptions C112_geometric_equal_values_refuted.
Example C112_case : drawn false false [2; 2]%R (level false false [XF 2; XF 2]) /\ drawn false true [2; 2]%R (level false true [XF 2; XF 2]) /\
  drawn true true [5]%R (level true true [XF 5]).
Proof.
  split; [|split]; [apply (level_drawn false false [XF 2; XF 2])|apply (level_drawn false true [XF 2; XF 2])|apply (level_drawn true true [XF 5])];
    split; cbn; intuition discriminate.
Qed.

(** *** C113: the profile at one time *)
Theorem C113_one_time_refuted : forall d name yname c levels f y g t,
  grid_profile_of d name yname c levels f y -> 0 < sz (d_ds d) (time_dim (d_model d)) ->
  forall mask, mean_profile d name yname (WOne (XF t)) mask g = Raise UnboundLocalError.
Proof. exact grid_one_fails. Qed.
Print Assumptions C113_one_time_refuted.
Theorem C113_one_subcolumn_refuted : forall d name yname c levels f y g t,
  profile_of d name yname c 1 levels f y -> 0 < sz (d_ds d) (time_dim (d_model d)) ->
  forall mask, mean_profile d name yname (WOne (XF t)) mask g = Raise UnboundLocalError.
Proof. exact one_subcolumn_fails. Qed.
Print Assumptions C113_one_subcolumn_refuted.
Theorem C113_one_time_partial : forall d name yname c subs levels f y g geom ze t,
  profile_of d name yname c subs levels f y -> geometric g name geom -> is_dBZ name ze ->
  levels <> 1 -> 0 < sz (d_ds d) (time_dim (d_model d)) -> subs <> 1 ->
  exists i, i < sz (d_ds d) (time_dim (d_model d)) /\
    (forall j, j < sz (d_ds d) (time_dim (d_model d)) -> (Rabs (t - c i) <= Rabs (t - c j))%R) /\
    exists r, mean_profile d name yname (WOne (XF t)) None g = Ok r /\
      drawn_profile r levels [i] ze geom y (fun k => map (fun s => f s i k) (seq 0 subs)).
Proof. exact one_time_ok. Qed.
Print Assumptions C113_one_time_partial.
Example C113_case : profile_of one_d "Ze" "z" INR 1 2 w_ze w_y /\ grid_profile_of w_d "T" "z" INR 2 (fun _ k => XF (INR k)) w_y /\
  profile_of w_d "Ze" "z" INR 2 2 w_ze w_y /\ 0 < sz one_ds "time".
Proof. split; [exact w_one|]. split; [exact w_grid|]. split; [exact w_profile|cbn; auto]. Qed.

(** *** C114: the place shown *)
Theorem C114_place : forall m la lo cla clo,
  lat_dim m <> lon_dim m -> has_dim (mds m) (lat_dim m) = true -> has_dim (mds m) (lon_dim m) = true ->
  clock (mds m) (lat_dim m) cla -> clock (mds m) (lon_dim m) clo ->
  can_choose (sz (mds m) (lat_dim m)) la -> can_choose (sz (mds m) (lon_dim m)) lo ->
  exists d i j, display m la lo = Ok (m, d) /\
  chosen (sz (mds m) (lat_dim m)) cla la i /\ chosen (sz (mds m) (lon_dim m)) clo lo j /\
  d_ds d = mds (d_model d) /\
  time_dim (d_model d) = time_dim m /\ height_dim (d_model d) = height_dim m /\
  (forall n, sz (d_ds d) n = sz (mds m) n) /\
  (forall name, (exists v, assoc (all_vars (d_ds d)) name = Some v) <-> exists v, assoc (all_vars (mds m)) name = Some v) /\
  forall name v, assoc (all_vars (mds m)) name = Some v ->
    exists v', assoc (all_vars (d_ds d)) name = Some v' /\
      vdims v' = filter (fun c => negb (String.eqb c (lat_dim m) || String.eqb c (lon_dim m))) (vdims v) /\
      forall ix, ix (lat_dim m) = i -> ix (lon_dim m) = j -> at_ v' ix = at_ v ix.
Proof. exact display_ok. Qed.
Print Assumptions C114_place.
Theorem C114_bad_index : forall m z lo, has_dim (mds m) (lat_dim m) = true ->
  ~ (- Z.of_nat (sz (mds m) (lat_dim m)) <= z < Z.of_nat (sz (mds m) (lat_dim m)))%Z -> display m (CInt z) lo = Raise IndexError.
Proof. exact index_bad. Qed.
Print Assumptions C114_bad_index.
Theorem C114_no_place : forall m la lo, has_dim (mds m) (lat_dim m) = false -> has_dim (mds m) (lon_dim m) = false ->
  display m la lo = Ok (m, {| d_model := m; d_ds := mds m |}).
Proof. exact no_dims. Qed.
Print Assumptions C114_no_place.
Theorem C114_numpy_index_refuted : forall m, display m COther COther = Ok (m, {| d_model := m; d_ds := mds m |}).
Proof. exact other_ignored. Qed.
Print Assumptions C114_numpy_index_refuted.
Theorem C114_switch_refuted : forall m la lo cla clo,
  lat_dim m <> lon_dim m -> has_dim (mds m) (lat_dim m) = true -> has_dim (mds m) (lon_dim m) = true ->
  clock (mds m) (lat_dim m) cla -> clock (mds m) (lon_dim m) clo ->
  can_choose (sz (mds m) (lat_dim m)) la -> can_choose (sz (mds m) (lon_dim m)) lo ->
  forall d, display m la lo = Ok (m, d) -> forall arg la' lo' deep, switch_lat_lon (d_model d) arg la' lo' deep = Ok (d_model d).
Proof. exact switch_fixed. Qed.
Print Assumptions C114_switch_refuted.
(** *** C142: a display switched to another model draws it as a new display would *)
Theorem C142_switch_partial : forall m la lo, ~ In (lat_dim m) (all_dims (mds m)) -> ~ In (lon_dim m) (all_dims (mds m)) ->
  display m la lo = Ok (m, switch_model m).
Proof. exact switch_same. Qed.
Print Assumptions C142_switch_partial.
(** Not so for a model with latitudes: no place is chosen. *)
Theorem C142_place_refuted : forall m la lo cla clo,
  lat_dim m <> lon_dim m -> has_dim (mds m) (lat_dim m) = true -> has_dim (mds m) (lon_dim m) = true ->
  clock (mds m) (lat_dim m) cla -> clock (mds m) (lon_dim m) clo ->
  can_choose (sz (mds m) (lat_dim m)) la -> can_choose (sz (mds m) (lon_dim m)) lo ->
  exists d, display m la lo = Ok (m, d) /\
  forall name v, assoc (all_vars (mds m)) name = Some v -> In (lat_dim m) (vdims v) ->
    assoc (all_vars (d_ds (switch_model m))) name = Some v /\
    exists v', assoc (all_vars (d_ds d)) name = Some v' /\ ~ In (lat_dim m) (vdims v').
Proof. exact switch_keeps_place. Qed.
Print Assumptions C142_place_refuted.
Example C142_case : clock (mds w_m) (lat_dim w_m) INR /\ has_dim (mds w_m) (lat_dim w_m) = true /\
  (exists v, assoc (all_vars (mds w_m)) "lat" = Some v /\ In (lat_dim w_m) (vdims v)) /\
  ~ In (lat_dim (with_ds w_m {| sz := fun _ => 2; coords := []; vars := [] |})) (all_dims (mds (with_ds w_m {| sz := fun _ => 2; coords := []; vars := [] |}))).
Proof. split; [apply w_clock; simpl; auto|]. split; [reflexivity|]. split; [eexists; split; [reflexivity|simpl; auto]|]. intros []. Qed.
Example C114_case : has_dim w_ds "lat" = true /\ has_dim w_ds "lon" = true /\ clock w_ds "lat" INR /\ clock w_ds "lon" INR /\
  can_choose (sz w_ds "lat") (CInt (-1)) /\ can_choose (sz w_ds "lon") (CFloat (XF (1/2))) /\ can_choose (sz w_ds "lon") CNone.
Proof.
  split; [reflexivity|]. split; [reflexivity|]. split; [apply w_clock; simpl; auto|]. split; [apply w_clock; simpl; auto|]. cbn.
  split; [|split]; split; auto; [lia|exists (1/2)%R; reflexivity].
Qed.
