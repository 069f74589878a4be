(** Failures of mean profiles, bands, instrument profiles. *)
From Coq Require Import Reals Lra.
From Verif Require Import Xr_Facts Disp_Spec Disp_Stat Disp_Level Disp_Prof Xds_Proofs Xds_Stack Xds_Round Xds_Fields Load_Facts Load_Crop.
Local Open Scope string_scope.
Local Open Scope list_scope.

(** One time only. *)
Theorem grid_one_fails d name yname c levels f y g t :
  grid_profile_of d name yname c levels f y -> 0 < sz (d_ds d) (time_dim (d_model d)) ->
  forall mask, mean_profile d name yname (WOne (XF t)) mask g = Raise UnboundLocalError.
Proof.
  intros [TC (v & V & VD & VA) (yv & YV & YD & YA) ND S2] N mask.
  destruct (nearest_label_ok _ _ _ t TC N) as (i & E & _).
  destruct (pick_2 _ _ i v f VD ND VA) as [D _].
  unfold mean_profile, at_times. rewrite E. cbn [bind]. unfold getv. rewrite !vars_pick, V, YV. cbn [option_map bind].
  assert (SH : ash (squeeze (values (pick_ds (time_dim (d_model d)) i (d_ds d)) (pick (time_dim (d_model d)) i v))) = [levels] \/
               ash (squeeze (values (pick_ds (time_dim (d_model d)) i (d_ds d)) (pick (time_dim (d_model d)) i v))) = []).
  { unfold squeeze, values, shape. cbn [ash]. rewrite D. cbn [map pick_ds sz filter]. rewrite S2. destruct (Nat.eqb levels 1); cbn [negb]; auto. }
  unfold columns.
  assert (M : forall k a, ash (masked k a) = ash a).
  { intros [k|] a; cbn; [destruct (list_eq_dec Nat.eq_dec (ash k) (ash a))|]; reflexivity. }
  rewrite M. destruct SH as [-> | ->]; reflexivity.
Qed.
Theorem one_subcolumn_fails d name yname c levels f y g t :
  profile_of d name yname c 1 levels f y -> 0 < sz (d_ds d) (time_dim (d_model d)) ->
  forall mask, mean_profile d name yname (WOne (XF t)) mask g = Raise UnboundLocalError.
Proof.
  intros [TC (v & V & VD & VA) (yv & YV & YD & YA) ND (S1 & S2)] N mask.
  destruct (nearest_label_ok _ _ _ t TC N) as (i & E & _).
  destruct (pick_3 _ _ _ i v f VD ND VA) as [D _].
  unfold mean_profile, at_times. rewrite E. cbn [bind]. unfold getv. rewrite !vars_pick, V, YV. cbn [option_map bind].
  assert (SH : ash (squeeze (values (pick_ds (time_dim (d_model d)) i (d_ds d)) (pick (time_dim (d_model d)) i v))) = [levels] \/
               ash (squeeze (values (pick_ds (time_dim (d_model d)) i (d_ds d)) (pick (time_dim (d_model d)) i v))) = []).
  { unfold squeeze, values, shape. cbn [ash]. rewrite D. cbn [map pick_ds sz filter]. rewrite S1, S2. cbn [Nat.eqb negb]. destruct (Nat.eqb levels 1); cbn [negb]; auto. }
  unfold columns.
  assert (M : forall k a, ash (masked k a) = ash a).
  { intros [k|] a; cbn; [destruct (list_eq_dec Nat.eq_dec (ash k) (ash a))|]; reflexivity. }
  rewrite M. destruct SH as [-> | ->]; reflexivity.
Qed.

Local Open Scope R_scope.
(** Bands. *)
Lemma ln10_pos : 0 < ln 10.
Proof. rewrite <- ln_1. apply ln_increasing; lra. Qed.
Lemma dB_le a b : 0 < a -> a <= b -> dB a <= dB b.
Proof.
  intros A B. unfold dB, log10. pose proof ln10_pos as L.
  assert (ln a <= ln b) by (destruct (Req_dec a b) as [->|]; [lra|left; apply ln_increasing; lra]).
  apply Rmult_le_compat_l; [lra|]. unfold Rdiv. apply Rmult_le_compat_r; [left; apply Rinv_0_lt_compat, L|assumption].
Qed.
Lemma sd_nonneg geom us : 0 <= sd_of geom us.
Proof. destruct geom; cbn; [left; apply exp_pos|apply spread_nonneg]. Qed.
Lemma used_pos geom fs u : In u (used true geom fs) -> 0 < u.
Proof.
  unfold used. intro I. assert (J : In u (map (fun z => Rpower 10 (z / 10)) fs)) by (destruct geom; [apply positive_in in I; tauto|exact I]).
  apply in_map_iff in J as (z & <- & _). apply exp_pos.
Qed.
Lemma total_pos us : us <> [] -> (forall u, In u us -> 0 < u) -> 0 < total us.
Proof.
  destruct us as [|a us]; [congruence|]. intros _ H. rewrite total_cons. assert (0 < a) by (apply H; left; reflexivity).
  assert (0 <= total us) by (apply total_nonneg; intros u I; left; apply H; right; exact I). lra.
Qed.
Lemma mean_pos geom us : us <> [] -> (forall u, In u us -> 0 < u) -> 0 < mean_of geom us.
Proof.
  intros N H. destruct geom; cbn; [apply exp_pos|]. unfold average. apply Rmult_lt_0_compat; [apply total_pos; assumption|].
  apply Rinv_0_lt_compat. destruct us; [congruence|apply len_pos].
Qed.
Theorem band_ok geom fs lev : used false geom fs <> [] -> drawn false geom fs lev ->
  exists lo mid hi, lev = (XF mid, XF lo, XF hi) /\ lo <= mid <= hi /\ mid - lo = hi - mid.
Proof.
  intros N D. unfold drawn in D. destruct (used false geom fs) as [|u us] eqn:U; [congruence|].
  eexists (mean_of geom (u :: us) - sd_of geom (u :: us)), (mean_of geom (u :: us)), (mean_of geom (u :: us) + sd_of geom (u :: us)).
  pose proof (sd_nonneg geom (u :: us)). split; [exact D|]. split; lra.
Qed.
Theorem band_dB geom fs lev : used true geom fs <> [] -> drawn true geom fs lev -> / 2 ^ 52 <= mean_of geom (used true geom fs) ->
  exists lo mid hi, lev = (XF mid, XF lo, XF hi) /\ lo <= mid <= hi.
Proof.
  intros N D M. unfold drawn in D. pose proof (used_pos geom fs) as UP. destruct (used true geom fs) as [|u us] eqn:U; [congruence|].
  destruct lev as [[a b] h]. cbn [fst snd] in D. destruct D as (-> & -> & ->).
  do 3 eexists. split; [reflexivity|]. pose proof (sd_nonneg geom (u :: us)). pose proof (mean_pos geom (u :: us) N UP).
  assert (0 < / 2 ^ 52) by (apply Rinv_0_lt_compat, pow_lt; lra).
  set (e := / 2 ^ 52) in *. clearbody e. split; [|apply dB_le; lra]. destruct (Rlt_dec _ _); apply dB_le; lra.
Qed.

(** Change of units. *)
Lemma total_scale a us : total (map (fun u => a * u) us) = a * total us.
Proof. induction us as [|u us IH]; [cbn; ring|]. cbn [map]. rewrite !total_cons, IH. ring. Qed.
Lemma average_scale a us : average (map (fun u => a * u) us) = a * average us.
Proof. unfold average. rewrite total_scale, map_length. unfold Rdiv. ring. Qed.
Lemma spread_scale a us : 0 <= a -> spread (map (fun u => a * u) us) = a * spread us.
Proof.
  intro A. unfold spread. rewrite map_map, average_scale.
  assert (E : map (fun u => (a * u - a * average us) * (a * u - a * average us)) us
              = map (fun u => (a * a) * u) (map (fun u => (u - average us) * (u - average us)) us)).
  { rewrite map_map. apply map_ext. intro u. ring. }
  rewrite E, average_scale, sqrt_mult_alt by nra. rewrite sqrt_square by exact A. reflexivity.
Qed.
Lemma total_shift b us : total (map (fun u => b + u) us) = INR (length us) * b + total us.
Proof. induction us as [|u us IH]; [cbn; ring|]. cbn [map]. rewrite !total_cons, IH. cbn [length]. rewrite S_INR. ring. Qed.
Lemma average_shift b us : us <> [] -> average (map (fun u => b + u) us) = b + average us.
Proof.
  intro N. unfold average. rewrite total_shift, map_length. assert (0 < INR (length us)) by (destruct us; [congruence|apply len_pos]). field. lra.
Qed.
Lemma spread_shift b us : us <> [] -> spread (map (fun u => b + u) us) = spread us.
Proof.
  intro N. unfold spread. rewrite map_map, average_shift by exact N. f_equal. f_equal. apply map_ext. intro u. ring.
Qed.
Lemma positive_scale a us : 0 < a -> positive (map (fun u => a * u) us) = map (fun u => a * u) (positive us).
Proof.
  intro A. unfold positive. induction us as [|u us IH]; [reflexivity|]. cbn [map filter].
  destruct (Rlt_dec 0 (a * u)), (Rlt_dec 0 u); cbn [map]; rewrite IH; try reflexivity; exfalso; nra.
Qed.
Lemma map_nil_iff {A B} (h : A -> B) l : map h l <> [] -> l <> [].
Proof. destruct l; [intro H; elim H; reflexivity|discriminate]. Qed.
Theorem arith_units a fs l1 l2 : 0 < a -> fs <> [] ->
  drawn false false fs l1 -> drawn false false (map (fun u => a * u) fs) l2 ->
  exists m lo hi, l1 = (XF m, XF lo, XF hi) /\ l2 = (XF (a * m), XF (a * lo), XF (a * hi)).
Proof.
  intros A N D1 D2. unfold drawn, used in *. destruct fs as [|u us]; [congruence|]. cbn [map] in D2.
  set (l := u :: us) in *. change (a * u :: map (fun u => a * u) us) with (map (fun u => a * u) l) in D2. cbn [mean_of sd_of] in *.
  exists (average l), (average l - spread l), (average l + spread l). split; [exact D1|]. rewrite D2, average_scale, spread_scale by lra.
  f_equal; [f_equal|]; f_equal; ring.
Qed.
(** The geometric band does not follow the units: its half-width is the same number. *)
Lemma logs_scale a us : 0 < a -> (forall u, In u us -> 0 < u) -> map ln (map (fun u => a * u) us) = map (fun u => ln a + u) (map ln us).
Proof. intros A H. rewrite !map_map. apply map_ext_in. intros u I. rewrite ln_mult by auto. reflexivity. Qed.
Theorem geom_units a fs l1 l2 : 0 < a -> positive fs <> [] ->
  drawn false true fs l1 -> drawn false true (map (fun u => a * u) fs) l2 ->
  exists m s, 1 <= s /\ l1 = (XF m, XF (m - s), XF (m + s)) /\ l2 = (XF (a * m), XF (a * m - s), XF (a * m + s)).
Proof.
  intros A N D1 D2. unfold drawn, used in *. rewrite positive_scale in D2 by exact A.
  assert (H : forall u, In u (positive fs) -> 0 < u) by (intros u I; apply positive_in in I; tauto).
  destruct (positive fs) as [|u us] eqn:P; [congruence|]. cbn [map] in D2.
  set (l := u :: us) in *. change (a * u :: map (fun u => a * u) us) with (map (fun u => a * u) l) in D2. cbn [mean_of sd_of] in *.
  exists (exp (average (map ln l))), (exp (spread (map ln l))). split; [|split; [exact D1|]].
  - rewrite <- exp_0. destruct (spread_nonneg (map ln l)) as [S|S]; [left; apply exp_increasing, S|right; f_equal; exact S].
  - rewrite D2, logs_scale, average_shift, spread_shift by (assumption || discriminate). rewrite exp_plus, exp_ln by exact A. reflexivity.
Qed.
(** Values all equal. *)
Theorem equal_arith u fs lev : fs <> [] -> (forall v, In v fs -> v = u) -> drawn false false fs lev -> lev = (XF u, XF u, XF u).
Proof.
  intros N E D. unfold drawn, used in D. destruct fs as [|a fs]; [congruence|]. cbn [mean_of sd_of] in D. rewrite D.
  assert (S : spread (a :: fs) = 0) by (apply spread_zero; [discriminate|]; intros v w I J; rewrite (E v I), (E w J); reflexivity).
  assert (M : u <= average (a :: fs) <= u) by (apply average_between; [discriminate|]; intros v I; rewrite (E v I); lra).
  rewrite S. f_equal; [f_equal|]; f_equal; lra.
Qed.
Theorem equal_geom u fs lev : fs <> [] -> 0 < u -> (forall v, In v fs -> v = u) -> drawn false true fs lev -> lev = (XF u, XF (u - 1), XF (u + 1)).
Proof.
  intros N P E D. unfold drawn, used in D. rewrite positive_id in D by (intros v I; rewrite (E v I); exact P).
  destruct fs as [|a fs]; [congruence|]. cbn [mean_of sd_of] in D. rewrite D.
  assert (S : spread (map ln (a :: fs)) = 0).
  { apply spread_zero; [discriminate|]. intros v w I J. apply in_map_iff in I as (v' & <- & I). apply in_map_iff in J as (w' & <- & J).
    rewrite (E v' I), (E w' J). reflexivity. }
  assert (M : ln u <= average (map ln (a :: fs)) <= ln u).
  { apply average_between; [discriminate|]. intros v I. apply in_map_iff in I as (v' & <- & I). rewrite (E v' I). lra. }
  rewrite S, exp_0. assert (average (map ln (a :: fs)) = ln u) as -> by lra. rewrite exp_ln by exact P. reflexivity.
Qed.
Local Close Scope R_scope.
Theorem mask_ok d name yname c subs levels f y g geom ze K :
  profile_of d name yname c subs levels f y -> geometric g name geom -> is_dBZ name ze ->
  levels <> 1 -> 0 < sz (d_ds d) (time_dim (d_model d)) -> ~ (subs = 1 /\ sz (d_ds d) (time_dim (d_model d)) = 1) ->
  (forall k, no_inf (seen_at (Some K) f subs (seq 0 (sz (d_ds d) (time_dim (d_model d)))) k)) ->
  exists r, mean_profile d name yname WAll (mask3 subs (sz (d_ds d) (time_dim (d_model d))) levels (Some K)) g = Ok r /\
    drawn_profile r levels (seq 0 (sz (d_ds d) (time_dim (d_model d)))) ze geom y
      (seen_at (Some K) f subs (seq 0 (sz (d_ds d) (time_dim (d_model d))))).
Proof.
  intros P G Z L N S NI.
  destruct (profile_ok d name yname c subs levels f y WAll g geom ze (Some K) P G Z I L N) as (steps & SH & H). cbn in SH. subst steps.
  rewrite seq_length in H. apply H; auto. destruct (sz _ _); [lia|discriminate].
Qed.
Theorem one_time_ok d name yname c subs levels f y g geom ze t :
  profile_of d name yname c subs levels f y -> geometric g name geom -> is_dBZ name ze ->
  levels <> 1 -> 0 < sz (d_ds d) (time_dim (d_model d)) -> subs <> 1 ->
  exists i, i < sz (d_ds d) (time_dim (d_model d)) /\
    (forall j, j < sz (d_ds d) (time_dim (d_model d)) -> (Rabs (t - c i) <= Rabs (t - c j))%R) /\
    exists r, mean_profile d name yname (WOne (XF t)) None g = Ok r /\
      drawn_profile r levels [i] ze geom y (fun k => map (fun s => f s i k) (seq 0 subs)).
Proof.
  intros P G Z L N S.
  destruct (profile_ok d name yname c subs levels f y (WOne (XF t)) g geom ze None P G Z (ex_intro _ t eq_refl) L N) as (steps & (i & -> & I & J) & H).
  exists i. split; [exact I|]. split; [exact J|]. destruct H as (r & E & D1 & D2); [discriminate|tauto|congruence|].
  exists r. split; [exact E|]. split; [exact D1|]. intros k Hk. destruct (D2 k Hk) as (lev & E' & D). exists lev. split; [exact E'|].
  assert (Q : seen_at None f subs [i] k = map (fun s => f s i k) (seq 0 subs)).
  { unfold seen_at, visible. cbn [length seq map nth]. generalize (seq 0 subs). induction l as [|a l IH]; [reflexivity|]. cbn in *; now rewrite IH. }
  rewrite Q in D. exact D.
Qed.
