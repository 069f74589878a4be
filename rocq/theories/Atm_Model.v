(** emc2/simulator/attenuation.py. *)
From Verif Require Import Mom_Base.
Local Open Scope R_scope.

(** attenuation.py 26: [Z_min_1km + 20*log10(z) - 20*log10(ref_rng)] of one
    cell; the height is used in the units of the dataset. *)
Definition ze_min_cell (zmin : R) (z ref : xr) : xr :=
  xsub (xadd (XF zmin) (xmul (XF 20) (xlog10 z))) (xmul (XF 20) (xlog10 ref)).

(** attenuation.py 7-30. *)
Definition calc_radar_Ze_min (e : menv) (ins : inst) (ref_rng : xr) : L unit :=
  run z <- rd (fun s => g2 s (z_name e));
  assign "Ze_min" (V2 (fun t k => ze_min_cell (z_min_1km ins) (z t k) ref_rng)).

(** attenuation.py 62-79: gaseous attenuation of one cell.  [p] is the
    pressure in hPa, [praw] the pressure as stored, [tk] the temperature in
    K, [q] the water vapour mixing ratio.  The squares of the source are
    products. *)
Definition xsq (a : xr) : xr := xmul a a.
Definition rho_wv (ins : inst) (q p tk : xr) : xr :=
  xdiv (xmul (xmul q (XF 1000)) (xmul p (XF 100))) (xmul (XF (r_d ins)) tk).
Definition kappa_wv (ins : inst) (q p tk : xr) : xr :=
  let f := XF (freq ins) in
  let rw := rho_wv ins q p tk in
  let t3 := xdiv (XF 300) tk in
  let gl := xmul (xmul (xmul (XF (285/100)) (xdiv p (XF 1013))) (xpow t3 (XF (626/1000))))
                 (xadd (XF 1) (xdiv (xmul (xmul (XF (18/1000)) rw) tk) p)) in
  xadd (xmul (xdiv
    (xmul (xmul (xmul (xmul (xmul (xsq (xmul (XF 2) f)) rw) (xpow t3 (XF (3/2)))) gl) t3)
          (xexp (xdiv (XF (-644)) tk)))
    (xadd (xsq (xsub (XF (4944/10)) (xsq f))) (xmul (XF 4) (xsq f)))) (xsq gl))
  (XF (12/10000000)).
Definition gamma_0 (p praw : xr) : xr :=
  if xltb praw (XF 25) then XF (118/100)
  else if xleb (XF 333) praw then XF (59/100)
  else xmul (XF (59/100)) (xadd (XF 1) (xmul (XF (31/10000)) (xsub (XF 333) p))).
Definition kappa_o2 (ins : inst) (p praw tk : xr) : xr :=
  let f := XF (freq ins) in
  let t3 := xdiv (XF 300) tk in
  let gl := xmul (xmul (gamma_0 p praw) (xdiv p (XF 1013))) (xpow t3 (XF (85/100))) in
  xmul (xmul (xmul (xmul (xmul (XF (11/1000)) (xsq f)) (xdiv p (XF 1013))) (xsq t3)) gl)
       (xadd (xdiv (XF 1) (xadd (xsq (xsub f (XF 60))) (xsq gl)))
             (xdiv (XF 1) (xadd (xsq f) (xsq gl)))).

(** attenuation.py 33-94. *)
Definition calc_radar_atm_attenuation (e : menv) (ins : inst) : L unit :=
  run t <- rd (fun s => g2 s (t_name e));
  run p <- rd (fun s => g2 s (p_name e));
  run q <- rd (fun s => g2 s (qv_name e));
  let o2 := fun i k => kappa_o2 ins (p_hpa e (p i k)) (p i k) (t_kel e (t i k)) in
  let wv := fun i k => kappa_wv ins (q i k) (p_hpa e (p i k)) (t_kel e (t i k)) in
  run _ <- assign "kappa_o2" (V2 o2);
  run _ <- assign "kappa_wv" (V2 wv);
  assign "kappa_att" (V2 (fun i k => xadd (wv i k) (o2 i k))).

(** attenuation.py 120-150: molecular scattering of one cell, pressure in
    hPa, temperature in C, wavelength in micron.  1/Lambda**4 is written
    with a product. *)
Definition raw_n : R := 35 / 1000.
Definition n_ref_1 (lam : R) : xr :=   (* n_s_ref - 1 *)
  let nu := xdiv (XF 1) (XF lam) in
  xmul (xadd (xadd (XF (64328/10)) (xdiv (XF 2949810) (xsub (XF 146) (xsq nu))))
             (xdiv (XF 25540) (xsub (XF 41) (xsq nu)))) (XF (/ 10 ^ 8)).
Definition n_s (lam : R) (p t : xr) : xr :=
  xadd (xmul (xmul (n_ref_1 lam)
    (xdiv (XF (1 + 366/100000 * 15)) (xadd (XF 1) (xmul (XF (366/100000)) t))))
    (xdiv p (XF (101325/100)))) (XF 1).
Definition N_s (p t : xr) : xr :=   (* cm-3 *)
  xdiv (xmul (xdiv (xmul p (XF 100)) (xmul (XF (83144598/10000000)) (xadd t (XF (27315/100)))))
       (XF (6022140857 * 10 ^ 14))) (XF (10 ^ 6)).
Definition den4 (lam : R) (p t : xr) : xr :=  (* N_s * (Lambda*1e-4)**4 * N_s *)
  xmul (xmul (N_s p t) (XF ((lam * / 10 ^ 4) ^ 4))) (N_s p t).
(** The four constants of the source. *)
Definition c_king : R := (6 + 3 * raw_n) / (6 - 7 * raw_n).
Definition c_pcos : R := 7629/10000 * (1 + 932/1000 * (cos PI * cos PI)).
Definition beta_mol (lam : R) (p t : xr) : xr :=      (* 138-139, 147: m-1 *)
  let n := n_s lam p t in
  let m2 := xsq (xsub (xsq n) (XF 1)) in
  xdiv (xmul (xdiv (xmul (xmul (XF (8 * PI ^ 3 / 3)) m2) (N_s p t)) (den4 lam p t)) (XF c_king))
       (XF (/ 100)).
Definition sigma_mol (lam : R) (p t : xr) : xr :=     (* 136-137, 145 *)
  let n := n_s lam p t in
  let m2 := xsq (xsub (xsq n) (XF 1)) in
  xmul (xmul (xdiv (xmul (XF (8 * PI ^ 3 / 3)) m2) (den4 lam p t)) (XF c_king)) (XF (/ 10 ^ 4)).
Definition sigma180_cm2 (lam : R) (p t : xr) : xr :=   (* 141-142 *)
  let n := n_s lam p t in
  let m2 := xsq (xsub (xsq n) (XF 1)) in
  xmul (xdiv (xmul (xmul (XF (PI ^ 2)) m2) (XF (2 * (2 + raw_n))))
             (xmul (den4 lam p t) (XF (6 - 7 * raw_n)))) (XF c_pcos).
Definition sigma180_vol (lam : R) (p t : xr) : xr :=   (* 143, 150 *)
  xdiv (xmul (sigma180_cm2 lam p t) (N_s p t)) (XF (/ 100)).
Definition kappa_mol (lam : R) (p t : xr) : xr :=      (* 131, 140, 148 *)
  let raw := xdiv (xmul (xdiv (xmul p (XF 100)) (xmul (XF (287058/1000)) (xadd t (XF (27315/100)))))
                        (XF 1000)) (XF (10 ^ 6)) in
  xdiv (xmul (xdiv (xmul (beta_mol lam p t) (XF (/ 100))) raw) (XF (/ 1000))) (XF (/ 10 ^ 6)).

(** attenuation.py 152-158: the trapezoidal optical depth of a profile. *)
Definition u_profile (sfc : bool) (z b : list xr) : list xr :=
  let trap := map (fun d => xdiv d (XF 2)) (diff z) in
  let summed := zadd (removelast b) (tl b) in
  if sfc then (match b with [] => [] | _ => XF 0 :: cumsum (zmul trap summed) end)
  else (match b with [] => [] | _ => rev (cumsum (rev (zmul trap summed))) ++ [XF 0] end).

(** attenuation.py 97-199. *)
Definition calc_theory_beta_m (e : menv) (lam : R) (sfc : bool) : L unit :=
  run pr <- rd (fun s => g2 s (p_name e));
  run tr <- rd (fun s => g2 s (t_name e));
  run zr <- rd (fun s => g2 s (z_name e));
  let p := fun t k => p_hpa e (pr t k) in
  let tc := fun t k => t_cel e (tr t k) in
  let z := fun t k => z_met e (zr t k) in
  let b : arr2 := fun t k => beta_mol lam (p t k) (tc t k) in
  let u : arr2 := of_prof2 (fun t => u_profile sfc (prof2 e z t) (prof2 e b t)) in
  run _ <- assign "tau" (V2 (fun t k => xexp (xmul (XF (-2)) (u t k))));
  run _ <- assign "u_atm" (V2 u);
  run _ <- assign "beta" (V2 b);
  run _ <- assign "sigma_180_vol" (V2 (fun t k => sigma180_vol lam (p t k) (tc t k)));
  run _ <- assign "sigma_180" (V2 (fun t k => xmul (sigma180_cm2 lam (p t k) (tc t k)) (XF (/ 10 ^ 4))));
  run _ <- assign "sigma" (V2 (fun t k => sigma_mol lam (p t k) (tc t k)));
  run _ <- assign "kappa" (V2 (fun t k => kappa_mol lam (p t k) (tc t k)));
  run _ <- assign "N_s" (V2 (fun t k => xdiv (N_s (p t k) (tc t k)) (XF (/ 10 ^ 6))));
  assign "n_s" (V2 (fun t k => n_s lam (p t k) (tc t k))).
