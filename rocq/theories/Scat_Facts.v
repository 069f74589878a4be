(** Refractive index and computed tables. *)
From Coq Require Import Reals Lra Lia Psatz.
From Verif Require Import Scat_Spec Xr_Facts.
Local Open Scope R_scope.

Lemma index_square a b : cmul (index_parts a b) (index_parts a b) = (a, Rabs b) /\
  0 <= fst (index_parts a b) /\ 0 <= snd (index_parts a b).
Proof.
  unfold index_parts, cmul. cbn [fst snd]. set (r := sqrt (a ^ 2 + b ^ 2)).
  assert (R2 : r * r = a ^ 2 + b ^ 2).
  { apply sqrt_sqrt. pose proof (pow2_ge_0 a). pose proof (pow2_ge_0 b). lra. }
  assert (R0 : 0 <= r) by apply sqrt_pos.
  assert (RA : Rabs a <= r).
  { rewrite <- (sqrt_Rsqr_abs a). apply sqrt_le_1_alt. unfold Rsqr. pose proof (pow2_ge_0 b). simpl in *. lra. }
  assert (A1 : 0 <= (r + a) / 2) by (revert RA; unfold Rabs; destruct (Rcase_abs a); lra).
  assert (A2 : 0 <= (r - a) / 2) by (revert RA; unfold Rabs; destruct (Rcase_abs a); lra).
  split; [|split; apply sqrt_pos]. f_equal.
  - rewrite !sqrt_sqrt by assumption. field.
  - rewrite <- sqrt_mult_alt by exact A1.
    replace (sqrt ((r - a) / 2) * sqrt ((r + a) / 2)) with (sqrt ((r + a) / 2 * ((r - a) / 2)))
      by (rewrite sqrt_mult_alt by exact A1; ring).
    replace ((r + a) / 2 * ((r - a) / 2)) with ((b / 2) * (b / 2)) by (field_simplify; simpl in R2; lra).
    fold (Rsqr (b / 2)). rewrite sqrt_Rsqr_abs. unfold Rdiv. rewrite Rabs_mult, (Rabs_right (/ 2)) by lra. lra.
Qed.

(** Positivity of the permittivity for temperatures between -40 and 40 C. *)
Lemma temps t : -40 <= t <= 40 ->
  0 < (eta_s t - eta_1 t) /\ 0 < eta_1 t - eta_inf t /\ 0 < eta_inf t /\ 0 < nu_1 t /\ 0 < nu_2 t.
Proof.
  intro T.
  assert (E1 : 0 < eta_1 t - eta_inf t).
  { unfold eta_1, eta_inf. nra. }
  assert (E2 : eta_1 t < 10) by (unfold eta_1; nra).
  assert (E3 : 60 < eta_s t).
  { unfold eta_s. apply Rmult_lt_reg_r with (421854 / 1000 + t); [lra|]. unfold Rdiv at 2. rewrite Rmult_assoc, Rinv_l by lra. lra. }
  split; [lra|]. split; [exact E1|]. split; [unfold eta_inf; lra|]. split.
  - unfold nu_1. apply Rdiv_lt_0_compat; [lra|]. nra.
  - unfold nu_2. apply Rdiv_lt_0_compat; [lra|]. nra.
Qed.

Lemma water_eta_debye w t : 0 < w -> -40 <= t <= 40 ->
  water_eta w t = (fst (debye (gigahertz w) t), - snd (debye (gigahertz w) t)) /\
  0 < fst (debye (gigahertz w) t) /\ 0 < snd (debye (gigahertz w) t).
Proof.
  intros W T. destruct (temps t T) as (P1 & P2 & P3 & P4 & P5).
  set (nu := nu_of w). assert (NU : nu = gigahertz w).
  { unfold nu, nu_of, gigahertz. field. lra. }
  assert (NP : 0 < nu).
  { rewrite NU. unfold gigahertz. apply Rdiv_lt_0_compat; lra. }
  set (x := nu / nu_1 t). set (y := nu / nu_2 t).
  assert (PX : 0 < x) by (apply Rdiv_lt_0_compat; assumption). assert (PY : 0 < y) by (apply Rdiv_lt_0_compat; assumption).
  assert (DE : debye (gigahertz w) t =
    ((eta_s t - eta_1 t) / (1 + x ^ 2) + (eta_1 t - eta_inf t) / (1 + y ^ 2) + eta_inf t,
     x * (eta_s t - eta_1 t) / (1 + x ^ 2) + y * (eta_1 t - eta_inf t) / (1 + y ^ 2))).
  { unfold debye. rewrite <- NU.
    replace (nu * ((50478 / 10000) - (70315 / 1000000) * t + (60059 / 100000000) * t ^ 2) / (45 + t)) with x.
    2:{ unfold x, nu_1. field. split; [lra|]. nra. }
    replace (nu * ((13652 / 100000) + (14825 / 10000000) * t + (24166 / 100000000) * t ^ 2) / (45 + t)) with y.
    2:{ unfold y, nu_2. field. split; [lra|]. nra. }
    replace (((370886 / 10) - (82168 / 1000) * t) / ((421854 / 1000) + t)) with (eta_s t) by (unfold eta_s; field; lra).
    replace ((5723 / 1000) + (22379 / 1000000) * t - (71237 / 100000000) * t ^ 2) with (eta_1 t) by (unfold eta_1; field).
    replace ((36143 / 10000) + (28841 / 1000000) * t) with (eta_inf t) by (unfold eta_inf; field).
    reflexivity. }
  rewrite DE. cbn [fst snd].
  assert (X2 : 0 < 1 + x ^ 2) by (pose proof (pow2_ge_0 x); lra).
  assert (Y2 : 0 < 1 + y ^ 2) by (pose proof (pow2_ge_0 y); lra).
  split; [|split].
  - unfold water_eta. cbv zeta. fold nu x y. unfold cadd, cdiv, cre. cbn [fst snd].
    simpl in X2, Y2. f_equal; field; split; lra.
  - assert (0 < (eta_s t - eta_1 t) / (1 + x ^ 2)) by (apply Rdiv_lt_0_compat; assumption).
    assert (0 < (eta_1 t - eta_inf t) / (1 + y ^ 2)) by (apply Rdiv_lt_0_compat; assumption). lra.
  - assert (0 < x * (eta_s t - eta_1 t) / (1 + x ^ 2)) by (apply Rdiv_lt_0_compat; [apply Rmult_lt_0_compat|]; assumption).
    assert (0 < y * (eta_1 t - eta_inf t) / (1 + y ^ 2)) by (apply Rdiv_lt_0_compat; [apply Rmult_lt_0_compat|]; assumption). lra.
Qed.

Lemma factor_bounds m a b : cmul m m = (a, b) -> 0 < a -> 0 < b -> 0 < dielectric_factor m < 1.
Proof.
  intros E A B. unfold dielectric_factor. rewrite E. cbn [fst snd].
  assert (N : 0 < (a - 1) ^ 2 + b ^ 2) by (pose proof (pow2_ge_0 (a - 1)); assert (0 < b ^ 2) by (apply pow_lt; exact B); lra).
  assert (D : 0 < (a + 2) ^ 2 + b ^ 2) by (pose proof (pow2_ge_0 (a + 2)); assert (0 < b ^ 2) by (apply pow_lt; exact B); lra).
  split; [apply Rdiv_lt_0_compat; assumption|].
  apply Rmult_lt_reg_r with ((a + 2) ^ 2 + b ^ 2); [exact D|]. unfold Rdiv. rewrite Rmult_assoc, Rinv_l by lra. nra.
Qed.

Lemma water_index_ok w t : 0 < w -> -40 <= t <= 40 ->
  cmul (water_index w t) (water_index w t) = debye (gigahertz w) t /\
  0 < snd (water_index w t) < fst (water_index w t) /\ 0 < dielectric_factor (water_index w t) < 1.
Proof.
  intros W T. destruct (water_eta_debye w t W T) as (E & P1 & P2).
  destruct (debye (gigahertz w) t) as [a b] eqn:DB. cbn [fst snd] in E, P1, P2.
  unfold water_index. rewrite E. cbn [fst snd]. destruct (index_square a (- b)) as (S & N1 & N2).
  rewrite Rabs_Ropp, (Rabs_right b) in S by lra. set (z := index_parts a (- b)) in *.
  split; [exact S|]. split; [|eapply factor_bounds; eassumption].
  destruct z as [n k]. cbn [fst snd] in *. unfold cmul in S. cbn [fst snd] in S. injection S as S1 S2.
  assert (0 < n * k) by lra. assert (0 < k) by (destruct (Req_dec k 0) as [Z|Z]; [subst k; lra|lra]).
  split; [assumption|]. assert (0 < n) by (destruct (Req_dec n 0) as [Z|Z]; [subst n; lra|lra]). nra.
Qed.

Lemma ice_index_ok w t rho : 0 < rho ->
  cmul (ice_index w t rho) (ice_index w t rho) = (1 + 2 * rho, 8 / 10000 * (52 / 100 * rho + 62 / 100 * rho ^ 2)) /\
  1 < fst (ice_index w t rho) /\ 0 < snd (ice_index w t rho) /\ 0 < dielectric_factor (ice_index w t rho) < 1.
Proof.
  intro P. unfold ice_index. set (a := fst (ice_eta rho)). set (b := snd (ice_eta rho)).
  assert (A : a = 1 + 2 * rho) by reflexivity.
  assert (B : b = 8 / 10000 * (52 / 100 * rho + 62 / 100 * rho ^ 2)) by reflexivity.
  assert (PB : 0 < b) by (rewrite B; assert (0 < rho ^ 2) by (apply pow_lt; exact P); lra).
  destruct (index_square a b) as (S & N1 & N2). rewrite Rabs_right in S by lra.
  split; [rewrite S, A, B; reflexivity|].
  assert (F : 0 < dielectric_factor (index_parts a b) < 1) by (eapply factor_bounds; [exact S|lra|exact PB]).
  destruct (index_parts a b) as [n k]. cbn [fst snd] in *. unfold cmul in S. cbn [fst snd] in S. injection S as S1 S2.
  assert (K : 0 < k) by (destruct (Req_dec k 0) as [Z|Z]; [subst k; lra|lra]).
  split; [nra|]. split; [exact K|exact F].
Qed.

(** ** Computed tables *)
Lemma list_min_le a l : list_min a l <= a.
Proof. revert a. induction l as [|b l IH]; intro a; simpl; [lra|]. eapply Rle_trans; [apply IH|apply Rmin_l]. Qed.
Lemma list_min_in a l x : In x (a :: l) -> list_min a l <= x.
Proof.
  revert a. induction l as [|b l IH]; intros a [<-|I]; simpl; try lra; [destruct I| |].
  - eapply Rle_trans; [apply list_min_le|apply Rmin_l].
  - destruct I as [<-|I]; [eapply Rle_trans; [apply list_min_le|apply Rmin_r]|]. apply IH. right. exact I.
Qed.
Lemma list_min_mem a l : In (list_min a l) (a :: l).
Proof.
  revert a. induction l as [|b l IH]; intro a; simpl list_min; [left; reflexivity|].
  destruct (IH (Rmin a b)) as [E|E].
  - rewrite <- E. unfold Rmin. destruct (Rle_dec a b); simpl; auto.
  - right. right. exact E.
Qed.
Lemma list_max_mem a l : In (list_max a l) (a :: l).
Proof.
  revert a. induction l as [|b l IH]; intro a; simpl list_max; [left; reflexivity|].
  destruct (IH (Rmax a b)) as [E|E].
  - rewrite <- E. unfold Rmax. destruct (Rle_dec a b); simpl; auto.
  - right. right. exact E.
Qed.
Lemma list_max_ge a l : a <= list_max a l.
Proof. revert a. induction l as [|b l IH]; intro a; simpl; [lra|]. eapply Rle_trans; [apply Rmax_l|apply IH]. Qed.
Lemma list_max_in a l x : In x (a :: l) -> x <= list_max a l.
Proof.
  revert a. induction l as [|b l IH]; intros a [<-|I]; simpl; try lra; [destruct I| |].
  - eapply Rle_trans; [apply Rmax_l|apply list_max_ge].
  - destruct I as [<-|I]; [eapply Rle_trans; [apply Rmax_r|apply list_max_ge]|]. apply IH. right. exact I.
Qed.

Section Mie.
Variable mie : cx -> R -> R -> nat -> R -> R -> list mie_row.

Lemma area_nm q d : q * PI / 4 * d ^ 2 * / 10 ^ 18 = q * disc (d * / 10 ^ 9).
Proof. unfold disc. field. Qed.

Lemma ice_sections diams w t p rho rows r : scat_ice mie diams w t p rho = Ok rows -> In r rows ->
  s_alpha r = s_ext r * disc (s_diam r) /\ s_scat r = s_sca r * disc (s_diam r) /\ s_beta r = s_back r * disc (s_diam r).
Proof.
  unfold scat_ice. destruct (mie_rows _ _ _ _ _ _) as [l|]; [|discriminate]. intros [= <-] I.
  apply in_map_iff in I as (q & <- & _). cbn [s_alpha s_beta s_scat s_ext s_sca s_back s_diam]. unfold disc; repeat split; field.
Qed.
Lemma water_sections diams w t p rows r : scat_water mie diams w t p = Ok rows -> In r rows ->
  s_alpha r = s_ext r * disc (s_diam r) /\ s_scat r = s_back r * disc (s_diam r) /\ s_beta r = s_sca r * disc (s_diam r).
Proof.
  unfold scat_water. destruct (mie_rows _ _ _ _ _ _) as [l|]; [|discriminate]. intros [= <-] I.
  apply in_map_iff in I as (q & <- & _). cbn [s_alpha s_beta s_scat s_ext s_sca s_back s_diam]. unfold disc; repeat split; field.
Qed.
Lemma size_water diams w t p rows r : 0 < w -> scat_water mie diams w t p = Ok rows -> In r rows ->
  s_wave r = w * 10 ^ 4 /\ s_size r = 1000 * (PI * s_diam r / (s_wave r * / 10 ^ 6)).
Proof.
  intro W. unfold scat_water. destruct (mie_rows _ _ _ _ _ _) as [l|]; [|discriminate]. intros [= <-] I.
  apply in_map_iff in I as (q & <- & _). cbn [s_wave s_size s_diam]. split; [simpl; ring|]. simpl. field. lra.
Qed.
Lemma size_ice diams w t p rho rows r : 0 < w -> scat_ice mie diams w t p rho = Ok rows -> In r rows ->
  s_wave r = w * 10 ^ 4 /\ s_size r = 1000 * (PI * s_diam r / (s_wave r * / 10 ^ 6)).
Proof.
  intro W. unfold scat_ice. destruct (mie_rows _ _ _ _ _ _) as [l|]; [|discriminate]. intros [= <-] I.
  apply in_map_iff in I as (q & <- & _). cbn [s_wave s_size s_diam]. split; [simpl; ring|]. simpl. field. lra.
Qed.
Hypothesis MC : mie_contract mie.
Lemma rows_range m diams w t p rows r : mie_rows mie m diams w t p = Ok rows -> In r rows ->
  length rows = length diams /\
  exists a b, In a diams /\ In b diams /\ (forall d, In d diams -> a <= d <= b) /\ a * 1000 <= m_d r <= b * 1000.
Proof.
  unfold mie_rows. destruct diams as [|d ds]; [discriminate|]. intros [= <-] I.
  destruct (MC m (w * 10 ^ 7) (medium t p) (length (d :: ds)) (list_min d ds * 1000) (list_max d ds * 1000)) as [L B].
  split; [exact L|]. exists (list_min d ds), (list_max d ds).
  split; [apply list_min_mem|]. split; [apply list_max_mem|]. split; [|apply B; exact I].
  intros x J. split; [apply list_min_in; exact J|apply list_max_in; exact J].
Qed.
Lemma water_diams diams w t p rows r : scat_water mie diams w t p = Ok rows -> In r rows ->
  length rows = length diams /\
  exists a b, In a diams /\ In b diams /\ (forall d, In d diams -> a <= d <= b) /\ a * / 10 ^ 6 <= s_diam r <= b * / 10 ^ 6.
Proof.
  unfold scat_water. destruct (mie_rows _ _ _ _ _ _) as [l|] eqn:E; [|discriminate]. intros [= <-] I.
  apply in_map_iff in I as (q & <- & I). destruct (rows_range _ _ _ _ _ _ _ E I) as (L & a & b & A & B & C & D).
  rewrite map_length. split; [exact L|]. exists a, b. split; [exact A|]. split; [exact B|]. split; [exact C|].
  cbn [s_diam]. simpl. split; lra.
Qed.
Lemma ice_diams diams w t p rho rows r : scat_ice mie diams w t p rho = Ok rows -> In r rows ->
  length rows = length diams /\
  exists a b, In a diams /\ In b diams /\ (forall d, In d diams -> a <= d <= b) /\ a * / 10 ^ 6 <= s_diam r <= b * / 10 ^ 6.
Proof.
  unfold scat_ice. destruct (mie_rows _ _ _ _ _ _) as [l|] eqn:E; [|discriminate]. intros [= <-] I.
  apply in_map_iff in I as (q & <- & I). destruct (rows_range _ _ _ _ _ _ _ E I) as (L & a & b & A & B & C & D).
  rewrite map_length. split; [exact L|]. exists a, b. split; [exact A|]. split; [exact B|]. split; [exact C|].
  cbn [s_diam]. simpl. split; lra.
Qed.
End Mie.
