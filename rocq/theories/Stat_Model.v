(** emc2/statistics_LLNL/statistical_aggregation.py: vertical regridding,
    scattering ratio, lidar cloud fraction and CFADs.
    Profiles are lists of reals; arrays over (point, subcolumn, level) are
    functions.  Array lengths passed as separate arguments (Npoints, Nlevels,
    ...) agree with the arrays. *)
From Verif Require Import Np Xr.
Local Open Scope R_scope.

Definition R_UNDEF : R := - 10 ^ 30.
Definition R_GROUND : R := - 10 ^ 20.

(** 237-240: bottoms and tops of the old layers of a profile. *)
Definition old_grid (zfull zhalf : list R) : list (R * R) :=
  combine zhalf (tl zhalf ++ [last zfull 0 + last zfull 0 - last zhalf 0]).

(** 254-272: the weight of an old layer [(b, t)] in a new layer, 0 when they
    do not overlap. *)
Definition weight (nb nt b t : R) : R :=
  let dbb := b - nb in let dtb := t - nb in
  let dbt := b - nt in let dtt := t - nt in
  if Rlt_dec 0 dtb then
    if Rle_dec dbb 0
    then (if Rle_dec dtt 0 then dtb else nt - nb)
    else (if Rle_dec dtt 0 then t - b else - dbt)
  else 0.

(** 249-287: the loop over the old layers from index [lev] on; the weights
    that are not 0 with their layers, and the index at the break.  Running
    past the last layer is an IndexError (line 254). *)
Fixpoint scan (nb nt : R) (lev : nat) (ls : list (R * R)) : res (list (nat * R) * nat) :=
  match ls with
  | [] => Raise IndexError
  | (b, t) :: ls' =>
      if Rle_dec 0 (b - nt) then Ok ([], lev)
      else do x <- scan nb nt (S lev) ls';
           let w := weight nb nt b t in
           Ok (if Reqb w 0 then fst x else (lev, w) :: fst x, snd x)
  end.

(** 244-291: the loop over the new layers; [start] is [lev + 1] on entry.
    After a break at index [l], [lev] becomes [l - 2], or 0 when that is
    below 1. *)
Fixpoint scans (old : list (R * R)) (start : nat) (new : list (R * R)) : res (list (list (nat * R))) :=
  match new with
  | [] => Ok []
  | (nb, nt) :: new' =>
      do x <- scan nb nt start (skipn start old);
      do r <- scans old (S (if (snd x <? 3)%nat then 0 else snd x - 2)) new';
      Ok (fst x :: r)
  end.

(** 280-287, 293-296: the mean of a column over the weights. *)
Definition yp (lunits : bool) (y : R) : R :=
  if lunits then (if Reqb y R_UNDEF then 0 else Rpower 10 (y / 10)) else y.
Definition wsum (ws : list (nat * R)) (f : nat -> R) : R :=
  fold_left (fun a p => a + snd p * f (fst p)) ws 0.
Definition wmean (lunits : bool) (ws : list (nat * R)) (y : nat -> R) : R :=
  let r := wsum ws (fun l => yp lunits (y l)) in
  match ws with [] => r | _ => r / wsum ws (fun _ => 1) end.

(** 298-308. *)
Definition flagged (lunits : bool) (nt z0 r : R) : R :=
  if Rlt_dec z0 nt
  then (if lunits then (if Rle_dec r 0 then R_UNDEF else 10 * log10 r) else r)
  else R_GROUND.

Fixpoint mapM {A B} (f : A -> res B) (l : list A) : res (list B) :=
  match l with [] => Ok [] | x :: l' => do y <- f x; do r <- mapM f l'; Ok (y :: r) end.

(** 194-310: COSP_CHANGE_VERTICAL_GRID. *)
Definition change_grid (npoints : nat) (zfull zhalf : nat -> list R) (y : nat -> nat -> nat -> R)
    (new : list (R * R)) (lunits : bool) : res (nat -> nat -> nat -> R) :=
  do ws <- mapM (fun i => scans (old_grid (zfull i) (zhalf i)) 0 new) (seq 0 npoints);
  Ok (fun i j k => flagged lunits (snd (nth k new (0, 0))) (nth 0 (zhalf i) 0)
                     (wmean lunits (nth k (nth i ws []) []) (y i j))).

(** 97-100: the half levels of a profile of full levels. *)
Fixpoint midpoints (z : list R) : list R :=
  match z with
  | a :: ((b :: _) as z') => (a + (b - a) / 2) :: midpoints z'
  | _ => []
  end.
Definition half_levels (z : list R) : list R := midpoints z ++ [last z 0].

(** [np.nan_to_num(a, nan=R_UNDEF)]. *)
Definition num_undef (a : xr) : R :=
  match a with XF x => x | XNaN => R_UNDEF | XP => fmax | XM => - fmax end.
Definition undef_nan (r : R) : xr := if Reqb r R_UNDEF then XNaN else XF r.

(** 313-373: get_regridded_ze_att_tot, for one column of the model grid
    (the loop over [kk] treats the columns independently); the result is
    indexed by subcolumn, time, new level. *)
Definition regridded_ze (ntime : nat) (zfull zhalf : nat -> list R) (ze : nat -> nat -> nat -> xr)
    (new : list (R * R)) : res (nat -> nat -> nat -> xr) :=
  do r <- change_grid ntime zfull zhalf (fun t i l => num_undef (ze i t l)) new false;
  Ok (fun i t k => undef_nan (r t i k)).

(** 109-191: calculate_SR, for one column of the model grid. *)
Definition calculate_SR (ntime : nat) (zfull zhalf : nat -> list R) (tot mol : nat -> nat -> nat -> xr)
    (new : list (R * R)) : res (nat -> nat -> nat -> xr) :=
  do a <- regridded_ze ntime zfull zhalf tot new;
  do b <- regridded_ze ntime zfull zhalf mol new;
  Ok (fun i t k => xdiv (a i t k) (b i t k)).

(** 397-418: calculate_lidar_CF; [sr] is indexed by subcolumn, time, level,
    column. *)
Definition howmany (p : xr -> bool) (l : list xr) : nat := length (filter p l).
Definition cf_cell (l : list xr) : xr :=
  let cldy := howmany (fun x => xltb (XF 5) x) l in
  let srok := howmany (fun x => xltb (XF (1 / 100)) x) l in
  if (0 <? srok)%nat then XF (INR cldy * 1 / INR srok) else XNaN.
Definition lidar_CF (nsub : nat) (sr : nat -> nat -> nat -> nat -> xr) : nat -> nat -> nat -> xr :=
  fun t k c => cf_cell (map (fun i => sr i t k c) (seq 0 nsub)).

(** 441-453: cal_cfad_radar_40levels; [a] is indexed by subcolumn and level,
    with [rows] subcolumns. *)
Definition within (lo hi x : xr) : bool := xleb lo x && xltb x hi.
Definition cfad (rows nsubcolumn : nat) (edges : list xr) (a : nat -> nat -> xr) : nat -> nat -> xr :=
  fun k j =>
    let a1 := map (fun i => a i k) (seq 0 rows) in
    if (0 <? howmany (within (hd XNaN edges) (last edges XNaN)) a1)%nat
    then xdiv (XF (INR (howmany (within (nth j edges XNaN) (nth (S j) edges XNaN)) a1) * 1)) (XF (INR nsubcolumn))
    else XNaN.

(** 485-499 and 529-543: get_cfaddBZ and get_cfad_SR for a column; [a] is
    indexed by subcolumn, time, level. *)
Definition cfad_alltime (npoints rows nsubcolumn : nat) (edges : list xr) (a : nat -> nat -> nat -> xr)
  : nat -> nat -> xr :=
  fun k j => xdiv (xsum (map (fun t => fillna 0 (cfad rows nsubcolumn edges (fun i l => a i t l) k j)) (seq 0 npoints)))
                  (XF (INR npoints)).
