(** Scattering tables: scattering/ref_index.py, scattering/mie_scattering.py,
    io/load_mie_file.py, io/load_scat_file.py, io/load_bulk_scat_file.py, the
    unit factors of core/instrument.py 131-211 and simulator/psd.py 8-43. *)
From Coq Require Import Reals.
From Verif Require Export Ds Xr Mom_Base Xds_Model.
Local Open Scope string_scope.
Local Open Scope list_scope.
Local Open Scope R_scope.

(** ** Python's complex numbers *)
Definition cx : Type := R * R.
Definition cre (r : R) : cx := (r, 0).
Definition cadd (a b : cx) : cx := (fst a + fst b, snd a + snd b).
Definition cmul (a b : cx) : cx := (fst a * fst b - snd a * snd b, fst a * snd b + snd a * fst b).
Definition cdiv (a b : cx) : cx :=
  let n := fst b * fst b + snd b * snd b in
  ((fst a * fst b + snd a * snd b) / n, (snd a * fst b - fst a * snd b) / n).

(** ref_index.py 31-36 and 57-61: real and imaginary part of the index from
    those of the permittivity. *)
Definition index_parts (ep epp : R) : cx :=
  (sqrt ((sqrt (ep ^ 2 + epp ^ 2) + ep) / 2), sqrt ((sqrt (ep ^ 2 + epp ^ 2) - ep) / 2)).

(** ref_index.py 20-30: the permittivity of water; wavelength in cm,
    temperature in Celsius.  Arguments for which a denominator vanishes are
    outside the model (ZeroDivisionError or inf). *)
Definition eta_s (t : R) : R := (37088600 / 1000 - 82168 / 1000 * t) / (421854 / 1000 + t).
Definition eta_1 (t : R) : R := 57230 / 10000 + 22379 / 1000000 * t + - (71237 / 100000000) * t ^ 2.
Definition nu_1 (t : R) : R := (45 + t) / (50478 / 10000 + - (70315 / 1000000) * t + 60059 / 100000000 * t ^ 2).
Definition eta_inf (t : R) : R := 36143 / 10000 + 28841 / 1000000 * t.
Definition nu_2 (t : R) : R := (45 + t) / (13652 / 100000 + 14825 / 10000000 * t + 24166 / 100000000 * t ^ 2).
Definition nu_of (wavelength : R) : R := 299792458 / (wavelength * / 100) / 10 ^ 9.
Definition water_eta (wavelength t : R) : cx :=
  let nu := nu_of wavelength in
  cadd (cadd (cdiv (cre (eta_s t - eta_1 t)) (1, nu / nu_1 t)) (cdiv (cre (eta_1 t - eta_inf t)) (1, nu / nu_2 t)))
       (cre (eta_inf t)).
(** ref_index.py 4-36: [calc_microwave_ref_index]. *)
Definition water_index (wavelength t : R) : cx :=
  let eta := water_eta wavelength t in index_parts (fst eta) (snd eta).
(** ref_index.py 39-61: [calc_microwave_ref_index_ice]; neither the wavelength
    nor the temperature is used. *)
Definition ice_eta (rho_d : R) : cx := (1 + 2 * rho_d, 8 / 10000 * (52 / 100 * rho_d + 62 / 100 * rho_d ^ 2)).
Definition ice_index (wavelength t rho_d : R) : cx := index_parts (fst (ice_eta rho_d)) (snd (ice_eta rho_d)).

(** ** mie_scattering.py *)
(** What PyMieScatt returns for one diameter (nm). *)
Record mie_row := { m_d : R; m_ext : R; m_sca : R; m_abs : R; m_g : R; m_pr : R; m_back : R; m_ratio : R }.
(** One entry of the resulting dataset. *)
Record scat_row := {
  s_ext : R; s_sca : R; s_back : R;                (* ext_eff, scat_eff, backscat_eff *)
  s_alpha : R; s_beta : R; s_scat : R;             (* alpha_p, beta_p, scat_p *)
  s_re : R; s_im : R; s_size : R;                  (* compre_real, compre_im, size_parameter *)
  s_diam : R; s_wave : R                           (* p_diam, wavelength *)
}.
Fixpoint list_min (a : R) (l : list R) : R := match l with [] => a | b :: l' => list_min (Rmin a b) l' end.
Fixpoint list_max (a : R) (l : list R) : R := match l with [] => a | b :: l' => list_max (Rmax a b) l' end.

Section Mie.
(** [MieQ_withDiameterRange(m, wavelength, nMedium, nd, diameterRange)]. *)
Variable mie : cx -> R -> R -> nat -> R -> R -> list mie_row.

Definition medium (t pressure : R) : R :=
  1 + / 10 ^ 6 * (776 / 10 * pressure / (t + 27315 / 100 + 375 / 10000000 * pressure / (t + 27315 / 100) ^ 2)).
Definition mie_rows (m : cx) (diams : list R) (wavelength t pressure : R) : res (list mie_row) :=
  match diams with
  | [] => Raise ValueError                  (* diams.min() of an empty array *)
  | d :: ds => Ok (mie m (wavelength * 10 ^ 7) (medium t pressure) (length diams)
                      (list_min d ds * 1000) (list_max d ds * 1000))
  end.
(** mie_scattering.py 71-133: [scat_properties_water] (PyMieScatt installed). *)
Definition scat_water (diams : list R) (wavelength t pressure : R) : res (list scat_row) :=
  let m := water_index wavelength t in
  do rows <- mie_rows m diams wavelength t pressure;
  Ok (map (fun r =>
    {| s_ext := m_ext r; s_sca := m_sca r; s_back := m_back r;
       s_alpha := m_ext r * PI / 4 * m_d r ^ 2 * / 10 ^ 18;
       s_beta := m_sca r * PI / 4 * m_d r ^ 2 * / 10 ^ 18;
       s_scat := m_back r * PI / 4 * m_d r ^ 2 * / 10 ^ 18;
       s_re := fst m * 1 / (10003 / 10000); s_im := snd m * 1 / (10003 / 10000);
       s_size := PI * m_d r / (wavelength * 10 ^ 4);
       s_diam := m_d r * / 10 ^ 9; s_wave := wavelength * 10 ^ 4 * 1 |}) rows).
(** mie_scattering.py 136-248: [scat_properties_ice]. *)
Definition scat_ice (diams : list R) (wavelength t pressure rho_d : R) : res (list scat_row) :=
  let m := ice_index wavelength t rho_d in
  do rows <- mie_rows m diams wavelength t pressure;
  Ok (map (fun r =>
    {| s_ext := m_ext r; s_sca := m_sca r; s_back := m_back r;
       s_alpha := m_ext r * PI / 4 * m_d r ^ 2 * / 10 ^ 18;
       s_beta := m_back r * PI / 4 * m_d r ^ 2 * / 10 ^ 18;
       s_scat := m_sca r * PI / 4 * m_d r ^ 2 * / 10 ^ 18;
       s_re := fst m * 1 / (10003 / 10000); s_im := snd m * 1 / (10003 / 10000);
       s_size := PI * m_d r / (wavelength * 10 ^ 4);
       s_diam := m_d r * / 10 ^ 9; s_wave := wavelength * 10 ^ 4 * 1 |}) rows).
End Mie.

(** ** Reading tables *)
(** A table by columns. *)
Definition table : Type := list (string * list xr).
(** [pd.read_csv(filename, names=names)] for rows with one number per name. *)
Fixpoint read_cols (k : nat) (names : list string) (rows : list (list xr)) : table :=
  match names with
  | [] => []
  | n :: ns => (n, map (fun r => nth k r XNaN) rows) :: read_cols (S k) ns rows
  end.
(** [df[name] = f(df[name])]: KeyError without the column. *)
Definition on_col (t : table) (n : string) (f : xr -> xr) : res table :=
  match assoc t n with Some c => Ok (put t n (map f c)) | None => Raise KeyError end.
Definition times (c : R) (v : xr) : xr := xmul v (XF c).
Definition micro2 : R := / 10 ^ 12.

(** load_mie_file.py 21-31. *)
Definition mie_names : list string :=
  ["wavelength"; "p_diam"; "size_parameter"; "compre_real"; "compre_im"; "scat_p"; "alpha_p"; "beta_p";
   "scat_eff"; "ext_eff"; "backscat_eff"].
Definition load_mie (rows : list (list xr)) : res table :=
  let t := read_cols 0 mie_names rows in
  do t <- on_col t "alpha_p" (times micro2);
  do t <- on_col t "beta_p" (fun v => xdiv (times micro2 v) (XF (4 * PI)));
  do t <- on_col t "scat_p" (times micro2);
  do t <- on_col t "p_diam" (fun v => xmul (XF (2 * / 10 ^ 6)) v);
  on_col t "backscat_eff" (fun v => xdiv v (XF (4 * PI))).

(** load_scat_file.py 27-52.  An unknown [param_type] leaves [names] unset. *)
Definition scat_names (is_radar : bool) (param : string) : res (list string) :=
  let first := if is_radar then "frequency" else "wavelength" in
  if String.eqb param "C6" then
    Ok [first; "p_diam"; "p_diam_eq_A"; "p_diam_eq_V"; "V"; "A"; "beta_p"; "scat_p"; "alpha_p"; "beta_p_cross"]
  else if String.eqb param "mDAD" then
    Ok [first; "p_diam"; "p_diam_eq_A"; "p_diam_eq_V"; "p_diam_eq_VdivA"; "V"; "A"; "beta_p"; "scat_p"; "alpha_p"]
  else Raise UnboundLocalError.
Definition load_scat (rows : list (list xr)) (is_radar : bool) (param : string) : res table :=
  do names <- scat_names is_radar param;
  let t := read_cols 0 names rows in
  do t <- on_col t "alpha_p" (times micro2);
  do t <- on_col t "beta_p" (times micro2);
  do t <- on_col t "scat_p" (times micro2);
  do t <- on_col t "p_diam" (fun v => xmul (XF (/ 10 ^ 6)) v);
  do t <- on_col t "p_diam_eq_A" (fun v => xmul (XF (/ 10 ^ 6)) v);
  do t <- on_col t "p_diam_eq_V" (fun v => xmul (XF (/ 10 ^ 6)) v);
  do t <- (if String.eqb param "C6" then on_col t "beta_p_cross" (times micro2) else Ok t);
  do t <- (if String.eqb param "mDAD" then on_col t "p_diam_eq_VdivA" (fun v => xmul (XF (/ 10 ^ 6)) v) else Ok t);
  do t <- on_col t "A" (times micro2);
  on_col t "V" (times (/ 10 ^ 18)).

(** load_bulk_scat_file.py 26-55. *)
Definition load_bulk (rows : list (list xr)) (param : string) : res table :=
  if String.eqb param "C6" then
    Ok (read_cols 0 ["r_e"; "Q_scat"; "Q_ext"; "Q_back"; "Q_back_cross"; "LDR"; "lidar_ratio"] rows)
  else if String.eqb param "mDAD" then
    let t := read_cols 0 ["D_e"; "Q_scat"; "Q_ext"; "Q_back"; "lidar_ratio"] rows in
    match assoc t "D_e" with
    | Some c => Ok (put t "r_e" (map (fun v => xdiv v (XF 2)) c))
    | None => Raise KeyError
    end
  else Raise UnboundLocalError.

(** instrument.py 189-208: the P3 table after [xr.open_dataset]; arrays are
    flattened, coordinates and attributes left out. *)
Definition is_finite (v : xr) : bool := match v with XF _ => true | _ => false end.
Definition fill_vt (c : list xr) : list xr := map (fun v => if is_finite v then v else nanmin c) c.
Definition p3_areas : list string :=
  ["beta_p"; "alpha_p"; "A"; "A_tot_norm"; "A_tot_Mie_norm"; "beta_p_eq_VdivA"; "alpha_p_eq_VdivA";
   "A_tot_eq_VdivA_norm"; "beta_p_eq_V"; "alpha_p_eq_V"; "A_tot_eq_V_norm"].
Definition p3_lengths : list string := ["D_eq_VdivA_sphere"; "D_eq_vol_sphere"].
Fixpoint scale_cols (c : R) (names : list string) (t : table) : res table :=
  match names with
  | [] => Ok t
  | n :: ns => do t' <- on_col t n (times c); scale_cols c ns t'
  end.
Definition load_p3 (t : table) : res table :=
  match assoc t "vt" with
  | None => Raise KeyError
  | Some vt =>
      let t := put t "vt" (fill_vt vt) in
      do t <- scale_cols micro2 p3_areas t;
      do t <- on_col t "V" (times (/ 10 ^ 18));
      do t <- scale_cols (/ 10 ^ 6) p3_lengths t;
      match assoc t "d" with
      | None => Raise KeyError
      | Some d => Ok (put t "p_diam" (map (times (/ 10 ^ 6)) d))
      end
  end.

(** ** Fall velocities of the NSSL scheme (psd.py 8-43) *)
Definition fmax (a b : xr) : xr := if isnan a then b else if isnan b then a else if xltb a b then b else a.
Definition fmin (a b : xr) : xr := if isnan a then b else if isnan b then a else if xltb b a then b else a.
Definition drag (lo : R) (rho : xr) : xr :=
  fmax (XF (45 / 100)) (fmin (XF (12 / 10))
    (xadd (XF (45 / 100)) (xmul (XF (55 / 100)) (xsub (XF 800) (fmax (XF lo) (fmin (XF 800) rho)))))).
Definition nssl_drop (lo : R) (d rho : xr) : xr :=
  xmul (xsqrt (xdiv (xmul (xmul (XF 4) rho) (XF (981 / 100))) (xmul (xmul (XF 3) (drag lo rho)) (XF (1007 / 1000)))))
       (xsqrt d).
(** [lower] lets any capitalisation of a code through. *)
Definition nssl_velocity (h : string) (d rho : xr) : xr :=
  let h := lower h in
  if String.eqb h "pl" then xmul (XF 10) (xsub (XF 1) (xexp (xmul (XF (- (516575 / 1000))) d)))
  else if String.eqb h "gr" then nssl_drop 170 d rho
  else if String.eqb h "ha" then nssl_drop 500 d rho
  else if String.eqb h "sn" then xmul (XF (21 + 52823061429272 / 100000000000000)) (xpow d (XF (42 / 100)))
  else if String.eqb h "cl" then xmul (XF (1316 / 10)) (xpow d (XF (824 / 1000)))
  else XF 0.

(** ** Shape of rain drops (mie_scattering.py 13-46): axis ratio for an
    equivalent diameter in mm *)
Definition brandes (d : R) : R :=
  9951 / 10000 + 251 / 10000 * d - 3644 / 100000 * d ^ 2 + 5303 / 1000000 * d ^ 3 - 2492 / 10000000 * d ^ 4.
