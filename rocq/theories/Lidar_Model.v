(** emc2/simulator/lidar_moments.py. *)
From Verif Require Import Mom_Base Sched_Model Atm_Model Psd_Model.
Local Open Scope R_scope.

(** lidar_moments.py 186-197: the optical-depth profile of one subcolumn. *)
Definition od_profile (sfc : bool) (z alpha : list xr) : list xr :=
  if sfc
  then cumsum (zmul (diff_prepend (XF 0) z) (XF 0 :: removelast alpha))
  else rev (cumsum (rev (zmul (diff_append (XF 0) z) (tl alpha ++ [XF 0])))).

(** lidar_moments.py 158-199. *)
Definition accumulate_OD (e : menv) (c : bool) (z : arr2) (h : string) (sfc : bool) : L unit :=
  run _ <- rd (fun s => g3 s (qn c h));
  run a <- rd (fun s => g3 s (out "alpha_p" h c));
  assign (out "OD" h c)
    (V3 (of_prof3 (fun i t => od_profile sfc (prof2 e z t) (prof3 e a i t)))).

(** lidar_moments.py 241-247 and 357-363: the totals start from zero. *)
Definition zero_totals (c : bool) : L unit :=
  run _ <- rd (fun s => g3 s (qn c "cl"));
  run _ <- assign (out "beta_p" "tot" c) (V3 zeros3);
  run _ <- assign (out "alpha_p" "tot" c) (V3 zeros3);
  assign (out "OD" "tot" c) (V3 zeros3).

(** lidar_moments.py 278-285, 509-516, 679-683: after the class's own
    fields are stored, accumulate its optical depth and add to the totals. *)
Definition finish_class (e : menv) (c : bool) (z : arr2) (sfc : bool) (h : string) : L unit :=
  run _ <- accumulate_OD e c z h sfc;
  run b <- rd (fun s => g3 s (out "beta_p" h c));
  run _ <- add_to (out "beta_p" "tot" c) (fill0 b);
  run a <- rd (fun s => g3 s (out "alpha_p" h c));
  run _ <- add_to (out "alpha_p" "tot" c) (fill0 a);
  run o <- rd (fun s => g3 s (out "OD" h c));
  add_to (out "OD" "tot" c) (fill0 o).

(** The loop over hydrometeor classes shared by the three methods.  [prep]
    is what a method writes before computing a class, [optics] the class's
    (extinction, backscatter), read from the dataset, given and returning
    the Python local variables that survive from one iteration to the next. *)
Section Loop.
Context {loc : Type}.
Variables (e : menv) (c : bool) (z : arr2) (sfc : bool).
Variable prep : string -> L unit.
Variable optics : string -> loc -> dset -> res (loc * (arr3 * arr3)).

Fixpoint class_loop (hs : list string) (l : loc) : L unit :=
  match hs with
  | [] => lret tt
  | h :: hs' =>
      run _ <- prep h;
      run r <- rd (optics h l);
      let '(l', (al, be)) := r in
      run _ <- assign (out "alpha_p" h c) (V3 (fill0 al));
      run _ <- assign (out "beta_p" h c) (V3 (fill0 be));
      run _ <- finish_class e c z sfc h;
      class_loop hs' l'
  end.
End Loop.

Definition re_fields (e : menv) (c : bool) : list (string * string) :=
  if c then re_conv e else re_strat e.

(** *** Empirical method, lidar_moments.py 202-287 *)

(** 250-251: water content of one cell; [t] in C. *)
Definition wc_cell (ins : inst) (q p t : xr) : xr :=
  xdiv (xmul q p) (xmul (XF (r_d ins)) (xadd t (XF (27315/100)))).
(** 258-261. *)
Definition alpha_liq (rh : R) (wc re : xr) : xr :=
  xdiv (xmul (XF 3) wc) (xmul (XF (2 * rh * / 10 ^ 6)) re).
(** 264-269: Heymsfield et al. (2014). *)
Definition alpha_ice (wc t : xr) : xr :=
  let a := xmul (XF (532 / 100000)) (xpow (xadd t (XF 90)) (XF (255/100))) in
  let b := xmul (XF (131/100)) (xexp (xmul (XF (47/10000)) t)) in
  xpow (xdiv wc a) (xdiv (XF 1) b).

(** Rho_hyd[hyd_type] as a number ('variable' cannot be multiplied). *)
Definition rho_num (e : menv) (h : string) : res R :=
  do r <- dict (rho_hyd e) h;
  match r with RConst x => Ok x | RVar => Raise TypeError end.

Definition optics_empirical (e : menv) (ins : inst) (c : bool) (p t : arr2)
    (h : string) (l : unit) (s : dset) : res (unit * (arr3 * arr3)) :=
  do q <- g3 s (qn c h);
  do rn <- dict (re_fields e c) h;
  do re <- g2 s rn;
  let wc : arr3 := fun i tt k => wc_cell ins (q i tt k) (p tt k) (t tt k) in
  do al <- (if String.eqb h "cl" || String.eqb h "pl"
            then do rh <- rho_num e h;
                 Ok (fun i tt k => alpha_liq rh (wc i tt k) (re tt k))
            else Ok (fun i tt k => alpha_ice (wc i tt k) (t tt k)));
  do lr <- dict (lidar_ratio e) h;
  Ok (tt, (al, fun i tt k => xdiv (al i tt k) (XF lr))).

Definition calc_lidar_empirical (e : menv) (ins : inst) (c : bool) (p t z : arr2)
    (sfc : bool) (hs : list string) : L unit :=
  run _ <- zero_totals c;
  class_loop e c z sfc (fun _ => lret tt) (optics_empirical e ins c p t) hs tt.

(** *** Bulk method (radiation logic), lidar_moments.py 290-518 *)

(** Local variables that survive an iteration: the (lambda, mu) arrays and
    the effective-radius axis of the last table used. *)
Record blocals := { l_lammu : option (arr2 * arr2); l_reff : option (list xr) }.
Definition no_locals : blocals := {| l_lammu := None; l_reff := None |}.

(** 344-355: (bulk_ice_lut, bulk_mie_ice_lut) and bulk_liq_lut; the ice
    names are unbound for P3.  The radar functions differ in [p3liq]
    ("p3_liq", radar_moments.py 300). *)
Definition bulk_luts (p3liq : string) (fam : string) : res (option (string * string) * string) :=
  if String.eqb fam "CESM" then Ok (Some ("CESM_ice", "mie_ice_CESM_PSD")%string, "CESM_liq"%string)
  else if String.eqb fam "ModelE" then Ok (Some ("E3_ice", "mie_ice_E3_PSD")%string, "E3_liq"%string)
  else if String.eqb fam "P3" then Ok (None, p3liq)
  else Raise ValueError.

(** 365-367: |dp|/g and dz of each layer, the last difference taken
    against 0. *)
Definition rhoa_dz (e : menv) (ins : inst) (p : arr2) : arr2 :=
  of_prof2 (fun t => map (fun d => xdiv (xabs d) (XF (grav ins))) (diff_append (XF 0) (prof2 e p t))).
Definition dz_top0 (e : menv) (z : arr2) : arr2 :=
  of_prof2 (fun t => diff_append (XF 0) (prof2 e z t)).

(** 432-437: geometric cross-section of one cell. *)
Definition tau_cell (flag : bool) (q rdz : xr) (rho_b : R) (re : xr) : xr :=
  if flag then xdiv (xmul (xmul (XF 3) q) rdz) (xmul (xmul (XF (2 * rho_b)) re) (XF (/ 10 ^ 6)))
  else XF 0.
Definition area_cell (tau dz : xr) : xr := xdiv tau (xmul (XF 2) dz).

(** 427-428: fluffiness factor. *)
Definition fluff (f : R) (rh : xr) (rb : R) : xr :=
  xadd (xdiv (xmul (XF f) rh) (XF rb))
       (xmul (XF (1 - f)) (xpow (xdiv rh (XF rb)) (XF (1/3)))).

(** The P3 ice inputs of a cell (388-396): Fr, rho_r, q_norm, Ni. *)
Definition p3_inputs (e : menv) (s : dset) : res (arr2 * arr2 * arr2 * arr2) :=
  do fr <- g2 s "Fr"; do rr <- g2 s "rho_r"; do qn <- g2 s "qi_norm"; do ni <- g2 s (p3_ni e);
  Ok (fr, rr, qn, ni).

(** 369-437: the area (cross-section) array, the effective radius when one
    is defined, and the surviving locals.  [None] for the effective radius
    when P3 ice uses its own surface area. *)
Definition bulk_area (e : menv) (ins : inst) (c mie : bool) (p z : arr2)
    (h : string) (l : blocals) (s : dset)
  : res (blocals * (arr3 * option arr2 * (nat -> nat -> nat -> bool))) :=
  do isl <- last_is_l h;
  do br <- (if isl : bool then
      do rb <- rho_num e h;
      do rn <- dict (re_fields e c) h; do re <- g2 s rn;
      do l' <- (match lam_field e with
                | None => Ok l
                | Some d =>
                    do o <- dict d h;
                    match o with
                    | None => Ok l
                    | Some ln =>
                        do la <- g2 s ln;
                        do mn <- field_of (mu_field e) h;
                        do mu <- g2 s mn;
                        Ok {| l_lammu := Some (la, mu); l_reff := l_reff l |}
                    end
                end);
      Ok (l', (Some (rb, re), None : option arr2))
    else if String.eqb h "ci" && String.eqb (rad_family e) "P3" then
      do (fr, rr, qn, ni) <- p3_inputs e s;
      if negb (Nat.eqb (hybrid e) 1) then
        do av <- (if Nat.eqb (hybrid e) 0 then Ok "A_tot_norm"%string
                  else if mie then Ok "A_tot_Mie_norm"%string
                  else if Nat.eqb (hybrid e) 2 then Ok "A_tot_eq_V_norm"%string
                  else Raise UnboundLocalError);
        Ok (l, (None, Some (fun t k => xmul (p3_bulk ins av (fr t k) (rr t k) (qn t k)) (ni t k))))
      else
        let rei := fun t k => xmul (p3_bulk ins "ri_eff" (fr t k) (rr t k) (qn t k)) (XF (10 ^ 6)) in
        let re := match fluffy e with
                  | None => rei
                  | Some _ => fun t k =>
                      xdiv (xmul (rei t k) (p3_bulk ins "rho_m_weight" (fr t k) (rr t k) (qn t k)))
                           (XF (rho_ice ins))
                  end in
        Ok (l, (Some (rho_ice ins, re), None))
    else
      do r <- dict (rho_hyd e) h;
      do rh <- (match r with
                | RVar => do v <- dict (var_density e) h; g2 s v
                | RConst x => Ok (fun _ _ => XF x)
                end);
      do rn <- dict (re_fields e c) h; do re0 <- g2 s rn;
      do re <- (match fluffy e with
                | None => Ok re0
                | Some d => do f <- dict d h;
                            Ok (fun t k => xmul (re0 t k) (fluff f (rh t k) (rho_ice ins)))
                end);
      Ok (l, (Some (rho_ice ins, re), None)));
  let '(l', (rad, own)) := br in
  do fl <- gb s (fn c h);
  match rad, own with
  | Some (rb, re), _ =>
      do q <- g3 s (qn c h);
      let rdz := rhoa_dz e ins p in
      let dz := dz_top0 e z in
      Ok (l', (fun i t k => area_cell (tau_cell (fl i t k) (q i t k) (rdz t k) rb (re t k)) (dz t k),
               Some re, fl))
  | None, Some a => Ok (l', (tile a, None, fl))
  | None, None => Raise UnboundLocalError
  end.

(** 439-507: extinction and backscatter efficiencies from the bulk tables.
    Returns the surviving locals and the two efficiency arrays
    (extinction, backscatter).  A liquid table against (mu, lambda) and the
    P3 ice tables are used only where the class is present, NaN elsewhere. *)
Definition bulk_eff (e : menv) (ins : inst) (p3liq : string) (mie : bool) (h : string)
    (re : option arr2) (fl : nat -> nat -> nat -> bool) (l : blocals) (s : dset)
  : res (blocals * (arr3 * arr3)) :=
  do (ice, liq) <- bulk_luts p3liq (rad_family e);
  let P3 := String.eqb (rad_family e) "P3" in
  let mulam := String.eqb (rad_family e) "CESM" || P3 in
  if memb h ice_classes && P3 then
    if String.eqb h "ci" then
      do (fr, rr, qn, _) <- p3_inputs e s;
      let look key : arr3 := fun i t k =>
        if fl i t k then p3_bulk ins key (fr t k) (rr t k) (qn t k) else XNaN in
      if mie then Ok (l, (look "Q_ext_Mie_bulk"%string, look "Q_back_Mie_bulk"%string))
      else Ok (l, (look "Q_ext_bulk"%string, look "Q_back_bulk"%string))
    else Raise UnboundLocalError
  else
    do tb <- (if memb h ice_classes then
                match ice with
                | Some (a, b) => dict (bulk_table ins) (if mie then b else a)
                | None => Raise UnboundLocalError
                end
              else dict (bulk_table ins) liq);
    let l' := if negb (memb h ice_classes) && mulam then l
              else {| l_lammu := l_lammu l; l_reff := Some (b_re tb) |} in
    if memb h ["cl"; "pl"]%string && mulam then
      match l_lammu l' with
      | None => Raise UnboundLocalError
      | Some (la, mu) =>
          let look (f : xr -> xr -> xr) : arr3 := fun i t k =>
            if fl i t k then f (mu t k) (la t k) else XNaN in
          Ok (l', (look (b_ext2 tb), look (b_back2 tb)))
      end
    else
      match l_reff l', re with
      | Some ax, Some r =>
          Ok (l', (fun _ t k => np_interp (r t k) ax (b_ext tb),
                   fun _ t k => np_interp (r t k) ax (b_back tb)))
      | _, _ => Raise UnboundLocalError
      end.

Definition optics_bulk (e : menv) (ins : inst) (c mie : bool) (p z : arr2)
    (h : string) (l : blocals) (s : dset) : res (blocals * (arr3 * arr3)) :=
  do (l1, (ar, re, fl)) <- bulk_area e ins c mie p z h l s;
  do (l2, (qe, qb)) <- bulk_eff e ins "CESM_liq" mie h re fl l1 s;
  Ok (l2, (lift2 xmul qe ar, lift2 xmul qb ar)).

Definition calc_lidar_bulk (e : menv) (ins : inst) (c : bool) (p z : arr2)
    (sfc : bool) (hs : list string) (mie : bool) : L unit :=
  run _ <- rd (fun _ => bulk_luts "CESM_liq" (rad_family e));
  run _ <- zero_totals c;
  class_loop e c z sfc (fun _ => lret tt) (optics_bulk e ins c mie p z) hs no_locals.

(** *** Microphysics method, lidar_moments.py 521-685 and 877-920 *)

(** 912 / 901: the size distribution of a cell over the diameters. *)
Definition psd_curve (n0 lam mu : xr) (ds : list xr) : list xr :=
  map (fun d => xmul (xmul n0 (xpow d mu)) (xexp (xmul (xopp lam) d))) ds.

(** 569-579. *)
Definition micro_lut (fam : string) : res (string * bool) :=   (* ice_lut, use p_diam_eq_V *)
  if String.eqb fam "CESM" then Ok ("CESM_ice"%string, false)
  else if String.eqb fam "ModelE" then Ok ("E3_ice"%string, true)
  else if String.eqb fam "P3" then Ok ("p3_ice"%string, false)
  else Raise ValueError.

(** 607-623: diameters, backscatter and extinction cross-sections. *)
Definition micro_table (ins : inst) (lut : string * bool) (mie : bool) (h : string)
  : res (list xr * list xr * list xr) :=
  if memb h ice_classes then
    if mie then
      do t <- dict (mie_table ins) (if String.eqb h "ci" then "ci" else "pi")%string;
      Ok (s_diam t, s_beta t, s_alpha t)
    else
      do t <- dict (scat_table ins) (fst lut);
      Ok ((if snd lut then s_diam_eqv t else s_diam t), s_beta t, s_alpha t)
  else
    do t <- dict (mie_table ins) h;
    Ok (s_diam t, s_beta t, s_alpha t).

Definition is_p3ci (e : menv) (h : string) : bool := String.eqb h "ci" && String.eqb (mcphys e) "P3".

(** 877-920 for one column [tt] and one level: (beta, alpha) of every
    subcolumn.  [beta_k]/[alpha_k] are the cross-sections used at that level. *)
Definition all_zero_level (e : menv) (tot : arr3) (tt k : nat) : bool :=
  forallb (fun i => xeqb (tot i tt k) (XF 0)) (seq 0 (nsub e)).

(** [None] for the P3 interpolants when [i_calc_kws] is unbound (the
    instrument already had its interpolants: lines 625, 644). *)
Record p3kw := { kw_fr : arr2; kw_rr : arr2 }.

Definition lidar_column (e : menv) (ins : inst) (h : string) (mie : bool) (ft : fits)
    (tab : list xr * list xr * list xr) (tot : arr3) (fl : nat -> nat -> nat -> bool)
    (kw : option p3kw) (tt : nat) : res ((nat -> nat -> xr) * (nat -> nat -> xr)) :=
  let '(diam, beta, alpha) := tab in
  if is_p3ci e h then
    match ft, kw with
    | Fit2 n0 lam mu, Some w =>
        let cs key (own : list xr) k :=
          if mie then own
          else map (fun d => p3_single ins key (kw_fr w tt k) (kw_rr w tt k) d) diam in
        let cell key own i k :=
          if all_zero_level e tot tt k then XF 0
          else
            let nd := if fl i tt k then psd_curve (n0 tt k) (lam tt k) (mu tt k) diam
                      else map (fun _ => XF 0) diam in
            trapz diam (zmul (cs key own k) nd) in
        Ok (cell "beta_p"%string beta, cell "alpha_p"%string alpha)
    | _, _ => Raise TypeError      (* does not arise: P3 ice has Fit2 and its inputs *)
    end
  else
    match ft with
    | Fit3 n0 lam mu =>
        let cell (own : list xr) i k :=
          if all_zero_level e tot tt k then XF 0
          else trapz diam (zmul own (psd_curve (n0 i tt k) (lam i tt k) (mu i tt k) diam)) in
        Ok (cell beta, cell alpha)
    | Fit2 _ _ _ =>   (* N_0[i, tt, k] on a two-dimensional array *)
        if forallb (all_zero_level e tot tt) (seq 0 (nht e))
        then Ok (fun _ _ => XF 0, fun _ _ => XF 0) else Raise IndexError
    end.

(** 581-598: what is stored before the class is computed.  The totals are
    created only when absent. *)
Definition micro_totals : L unit :=
  run b <- rd (fun s => Ok (has s (out "beta_p" "tot" false)));
  if b : bool then lret tt
  else
    run _ <- assign (out "beta_p" "tot" false) (V3 zeros3);
    run _ <- assign (out "alpha_p" "tot" false) (V3 zeros3);
    assign (out "OD" "tot" false) (V3 zeros3).

(** 624-646: the P3 ice inputs; they are collected only when the
    instrument has no interpolants yet, otherwise the local of an earlier
    iteration is reused ([UnboundLocalError] when there is none). *)
Definition micro_kw (e : menv) (ins : inst) (h : string) (l : option p3kw) : L (option p3kw * option p3kw) :=
  if is_p3ci e h then
    run seen <- rd (fun s => Ok (memb (i_str ins) (dseen s)));
    if seen : bool then
      match l with
      | Some w => lret (l, Some w)
      | None => lraise UnboundLocalError
      end
    else
      run _ <- (fun s => (Ok tt, mkds (dvars s) (i_str ins :: dseen s)));
      run fr <- rd (fun s => g2 s "Fr");
      run rr <- rd (fun s => g2 s "rho_r");
      lret (Some {| kw_fr := fr; kw_rr := rr |}, Some {| kw_fr := fr; kw_rr := rr |})
  else lret (l, None).

(** 651-674: columns are processed in the order of the schedule and stacked
    along time; the assignment needs one column per time. *)
Fixpoint run_cols {A} (f : nat -> res A) (order : list Z) : res (list A) :=
  match order with
  | [] => Ok []
  | t :: o => do a <- f (Z.to_nat t); do r <- run_cols f o; Ok (a :: r)
  end.
Definition stack_cols (e : menv) {A} (cols : list A) : res (list A) :=
  if Nat.eqb (length cols) 0 then Raise ValueError            (* np.stack of nothing *)
  else if Nat.eqb (length cols) (ntm e) then Ok cols else Raise ValueError.
Definition of_cols {A} (get : A -> nat -> nat -> xr) (cols : list A) : arr3 :=
  fun i t k => match nth_error cols t with Some a => get a i k | None => XNaN end.

Section Micro.
Variable Gam : R -> R.

Fixpoint micro_loop (e : menv) (ins : inst) (z : arr2) (sfc mie : bool) (sch : sched)
    (kw : psd_kw) (lut : string * bool) (hs : list string) (l : option p3kw) : L unit :=
  match hs with
  | [] => lret tt
  | h :: hs' =>
      run _ <- micro_totals;
      run _ <- assign (out "beta_p" h false) (V3 zeros3);
      run _ <- assign (out "alpha_p" h false) (V3 zeros3);
      run ft <- calc_and_set_psd_params Gam e kw h;
      run fl <- rd (fun s => gb s (fn false h));
      run n <- rd (fun s => g3 s (nn false h));
      let tot : arr3 := fun i t k => if fl i t k then xmul (XF 1) (n i t k) else xmul (XF 0) (n i t k) in
      run tab <- rd (fun _ => micro_table ins lut mie h);
      run w <- micro_kw e ins h l;
      run order <- rd (fun _ => tt_order sch (ntm e));
      run cols0 <- rd (fun _ => run_cols (lidar_column e ins h mie ft tab tot fl (snd w)) order);
      run cols <- rd (fun _ => stack_cols e cols0);
      run _ <- assign (out "beta_p" h false) (V3 (fill0 (of_cols fst cols)));
      run _ <- assign (out "alpha_p" h false) (V3 (fill0 (of_cols snd cols)));
      run _ <- finish_class e false z sfc h;
      micro_loop e ins z sfc mie sch kw lut hs' (fst w)
  end.

Definition calc_lidar_micro (e : menv) (ins : inst) (z : arr2) (sfc : bool) (hs : list string)
    (mie : bool) (sch : sched) (kw : psd_kw) : L unit :=
  run lut <- rd (fun _ => micro_lut (rad_family e));
  run _ <- rd (fun s => g3 s (qn false "cl"));
  micro_loop e ins z sfc mie sch kw lut hs None.

(** *** calc_lidar_moments, lidar_moments.py 688-874 *)

(** The options of the call. *)
Record lopts := {
  o_sfc : bool;                     (* OD_from_sfc *)
  o_hyds : option (list string);
  o_sched : sched;                  (* parallel, chunk *)
  o_eta : R;
  o_mie : bool;
  o_rad : bool;                     (* use_rad_logic *)
  o_emp : bool;                     (* use_empiric_calc *)
  o_kw : psd_kw
}.

(** 64-67 and 863-865: attenuated backscatter of one cell. *)
Definition att_cell (eta : R) (beta_m beta_p tau od : xr) : xr :=
  xmul (xmul (xadd beta_m beta_p) tau) (xexp (xmul (XF (-2 * eta)) od)).

Definition calc_lidar_moments (e : menv) (ins : inst) (o : lopts) (c : bool) : L unit :=
  run hs <- rd (fun _ => set_hyd_types e (o_hyds o));
  (* 776-786 only set labels; an unknown family fails in the method itself *)
  if negb (String.eqb (lower (i_class ins)) "lidar") then lraise ValueError
  else
    run q <- rd (fun s => Ok (has s (qn c "cl")));
    if negb q then lraise KeyError
    else
      run pr <- rd (fun s => g2 s (p_name e));
      run tr <- rd (fun s => g2 s (t_name e));
      run zr <- rd (fun s => g2 s (z_name e));
      let p : arr2 := fun t k => p_pa e (pr t k) in
      let tc : arr2 := fun t k => t_cel e (tr t k) in
      let z : arr2 := fun t k => z_met e (zr t k) in
      run _ <- calc_theory_beta_m e (wavelen ins) true;
      run bm <- rd (fun s => g2 s "sigma_180_vol");
      run tau <- rd (fun s => g2 s "tau");
      run _ <- (if o_emp o then calc_lidar_empirical e ins c p tc z (o_sfc o) hs
                else if o_rad o || c then calc_lidar_bulk e ins c p z (o_sfc o) hs (o_mie o)
                else calc_lidar_micro e ins z (o_sfc o) hs (o_mie o) (o_sched o) (o_kw o));
      run b <- rd (fun s => g3 s (out "beta_p" "tot" c));
      run od <- rd (fun s => g3 s (out "OD" "tot" c));
      assign (out "beta_att" "tot" c)
        (V3 (fun i t k => att_cell (o_eta o) (bm t k) (b i t k) (tau t k) (od i t k))).
End Micro.

(** *** calc_total_alpha_beta, lidar_moments.py 14-72 *)
Definition total_of (e : menv) (field : string) (s : dset) : res arr3 :=
  if p_conv e then
    do a <- g3 s (out field "tot" true);
    do b <- g3 s (out field "tot" false);
    Ok (lift2 xadd (fill0 a) (fill0 b))
  else
    do b <- g3 s (out field "tot" false);
    Ok (fill0 b).
Definition calc_total_alpha_beta (e : menv) (eta : R) : L unit :=
  run b <- rd (total_of e "beta_p"); run _ <- assign "sub_col_beta_p_tot" (V3 b);
  run a <- rd (total_of e "alpha_p"); run _ <- assign "sub_col_alpha_p_tot" (V3 a);
  run o <- rd (total_of e "OD"); run _ <- assign "sub_col_OD_tot" (V3 o);
  run bm <- rd (fun s => g2 s "sigma_180_vol");
  run tau <- rd (fun s => g2 s "tau");
  assign "sub_col_beta_att_tot"
    (V3 (fun i t k => att_cell eta (bm t k) (b i t k) (tau t k) (o i t k))).

(** *** calc_LDR_and_ext, lidar_moments.py 75-155 *)

(** 123-126: numerator and denominator of the classes of one cloud type.
    The caller's table [LDR_per_hyd] is not read. *)
Fixpoint ldr_sums (e : menv) (c : bool) (hs : list string) (num den : arr3) (s : dset)
  : res (arr3 * arr3) :=
  match hs with
  | [] => Ok (num, den)
  | h :: hs' =>
      do b <- g3 s (out "beta_p" h c);
      do w <- dict (ldr_hyd e) h;
      ldr_sums e c hs' (fun i t k => xadd (num i t k) (xmul (fillna 0 (b i t k)) (XF w)))
               (fun i t k => xadd (den i t k) (fillna 0 (b i t k))) s
  end.
(** 127, 135: NaN where the denominator is not positive. *)
Definition pos_or_nan (x : xr) : xr := if xltb (XF 0) x then x else XNaN.

Fixpoint ldr_loop (e : menv) (cls : list bool) (hs : list string) (num den : arr3) : L (arr3 * arr3) :=
  match cls with
  | [] => lret (num, den)
  | c :: cls' =>
      run r <- rd (ldr_sums e c hs zeros3 zeros3);
      let '(n, d) := r in
      run _ <- assign ("sub_col_LDR_" ++ cs c)%string
                 (V3 (fun i t k => xdiv (n i t k) (pos_or_nan (d i t k))));
      ldr_loop e cls' hs (lift2 xadd num n) (lift2 xadd den d)
  end.

(** 140-147: the extinction mask of a profile. *)
Definition mask_profile (sfc : bool) (ext : R) (od : list xr) : list xr :=
  let cum := map (fun x => if xltb (XF ext) x then XF 2 else XF 0) od in
  let d := if sfc then diff_append (XF 0) cum else rev (diff_append (XF 0) (rev cum)) in
  zadd cum (map (fun x => if xltb (XF 0) x then XF 1 else XF 0) d).

(** [ldr_arg] is the caller's LDR_per_hyd.  The class list is assumed not
    empty (an empty one would store zero-dimensional arrays). *)
Definition calc_LDR_and_ext (e : menv) (ext : R) (sfc : bool)
    (ldr_arg : option (list (string * R))) (hso : option (list string)) : L unit :=
  run hs <- rd (fun _ => set_hyd_types e hso);
  run h0 <- rd (fun _ => match hyds e with [] => Raise IndexError | h :: _ => Ok h end);
  run _ <- rd (fun s => g3 s (out "beta_p" h0 false));
  run r <- ldr_loop e (if p_conv e then [true; false] else [false]) hs zeros3 zeros3;
  let '(num, den) := r in
  run _ <- assign "sub_col_LDR_tot" (V3 (fun i t k => xdiv (num i t k) (pos_or_nan (den i t k))));
  run od <- rd (fun s => g3 s "sub_col_OD_tot");
  assign "ext_mask" (V3 (of_prof3 (fun i t => mask_profile sfc ext (prof3 e od i t)))).
