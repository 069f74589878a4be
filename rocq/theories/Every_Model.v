(** emc2/statistics_LLNL/statistical_plots.py and statistical_output.py:
    what is handed to matplotlib for displays of every subcolumn and of
    histograms with height (CFADs), and the dataset saved.  Only fields over
    (subcolumn, time, lev, column), stored as one C-ordered array of floats in
    memory, and heights over (time, lev, column) are modelled; labels,
    layout and axis limits are not. *)
From Verif Require Export Curt_Model.
Local Open Scope string_scope.
Local Open Scope list_scope.

(** Cells with the position of each, the values and the colour limits. *)
Record epanel := { e_rows : nat; e_cols : nat; e_x : nat -> xr; e_y : nat -> nat -> xr; e_val : nat -> nat -> xr;
  e_log : bool; e_lo : xr; e_hi : xr }.
(** [scipy.interpolate.interp1d(loc, times, fill_value="extrapolate")] with [loc] = 1 .. nt. *)
Definition searchsorted (nt : nat) (r : R) : nat :=
  length (filter (fun l => if Rlt_dec (INR l) r then true else false) (seq 1 nt)).
Definition interp (nt : nat) (times : nat -> xr) (r : R) : xr :=
  let hi := Nat.min (Nat.max (searchsorted nt r) 1) (nt - 1) in
  let lo := hi - 1 in
  xadd (xmul (xdiv (xsub (times hi) (times lo)) (XF (INR (S hi) - INR (S lo)))) (XF (r - INR (S lo)))) (times lo).
(** 351-361 and the same lines of the other displays: times of the cells. *)
Definition xval (n nt : nat) : list nat := flat_map (fun i => map (fun l => i * nt + l) (seq 1 nt)) (seq 0 n).
Definition long_times (n nt : nat) (times : nat -> xr) : list xr := map (fun v => interp nt times (INR v / INR n)) (xval n nt).
(** 363-372: heights of the cells; later times overwrite. *)
Definition long_heights (n nt : nat) (h : nat -> nat -> xr) (j : nat) : nat -> xr :=
  fold_left (fun row i => fun c => if Nat.leb (n * i) c && Nat.leb c (n * (i + 1)) then h i j else row c) (seq 0 nt) (fun _ => XNaN).
(** 346-372: positions of the cells: their numbers, times and heights. *)
Record cells := { c_n : nat; c_nt : nat; c_nl : nat; c_col : nat; c_x : nat -> xr; c_y : nat -> nat -> xr }.
Definition cell_positions (m : mobj) (zname : string) (col : Z) : res cells :=
  let x := mds m in
  if negb (has_dim x "subcolumn" && has_dim x "lev") then Raise KeyError
  else
    let n := sz x "subcolumn" in let nl := sz x "lev" in
    do (nt, t) <- vector x (time_dim m);
    if Nat.ltb nt 2 || Nat.eqb n 0 then Raise ValueError
    else
      do v <- getv x zname;
      match shape x v with
      | [a; b; nc] =>
          do c <- position nc col;
          if Nat.eqb a nt && Nat.eqb b nl
          then Ok {| c_n := n; c_nt := nt; c_nl := nl; c_col := c; c_x := fun k => nth k (long_times n nt t) XNaN;
                     c_y := fun j k => long_heights n nt (fun i j => vat v [i; j; c]) j k |}
          else Raise IndexError
      | _ => Raise IndexError
      end.
(** 374-383: [np.transpose(v[:, :, :, col], (2, 1, 0)).reshape(lev_num, -1)]. *)
Definition field4 (x : xds) (q : cells) (name : string) : res var :=
  do v <- getv x name;
  match shape x v with
  | [a; b; l; nc] => if Nat.ltb (c_col q) nc && Nat.eqb a (c_n q) && Nat.eqb b (c_nt q) && Nat.eqb l (c_nl q) then Ok v else Raise IndexError
  | _ => Raise IndexError
  end.
Definition plane (q : cells) (v : var) (j k : nat) : xr := vat v [Nat.modulo k (c_n q); Nat.div k (c_n q); j; c_col q].
(** [plane[test(plane)] = nan]: the reshaped array is a view of the field if
    there is only one subcolumn, else a copy.  The values drawn and the dataset afterwards. *)
Definition blank (test : xr -> bool) (a : xr) : xr := if test a then XNaN else a.
Definition blank_field (test : xr -> bool) (q : cells) (name : string) (v : var) (x : xds) : xds :=
  if Nat.eqb (c_n q) 1
  then setv x name {| vdims := vdims v; vat := fun ix => if Nat.eqb (nth 3 ix 0) (c_col q) then blank test (vat v ix) else vat v ix |}
  else x.
(** [pcolormesh]: positions must be finite. *)
Definition epaint (q : cells) (zunit : R) (val : nat -> nat -> xr) (log : bool) (lo hi : xr) : res epanel :=
  let y j k := xdiv (c_y q j k) (XF zunit) in
  let cols := c_n q * c_nt q in
  if forallb (fun k => isfin (c_x q k) && forallb (fun j => isfin (y j k)) (seq 0 (c_nl q))) (seq 0 cols)
  then Ok {| e_rows := c_nl q; e_cols := cols; e_x := c_x q; e_y := y; e_val := val; e_log := log; e_lo := lo; e_hi := hi |}
  else Raise ValueError.
(** The dataset afterwards, and the panels or failure. *)
Definition outcome : Type := xds * res (list epanel).
Definition then_ (x : xds) {A} (r : res A) (k : A -> outcome) : outcome :=
  match r with Ok a => k a | Raise e => (x, Raise e) end.
(** Limits given as keywords. *)
Record kw := { k_min : option xr; k_max : option xr }.
Definition given (o : option xr) : bool := match o with Some _ => true | None => false end.
Definition tiny (p : Z) (a : xr) : bool := xleb a (XF (- powerRZ 10 p)).

(** 332-470: [plot_every_subcolumn_timeseries_radarlidarsignal]; vmin is taken
    and dropped, vmax fails (418: [kwargs.pop('vmin')]); the four limits of the signature are not used. *)
Definition every_signal (m : mobj) (zname : string) (col : Z) (radar lidar : xr * xr) (w : kw) : outcome :=
  let x := mds m in
  then_ x (cell_positions m zname col) (fun q =>
  then_ x (field4 x q "sub_col_Ze_att_tot") (fun ze =>
  then_ x (field4 x q "sub_col_beta_att_tot") (fun be =>
  then_ x (if given (k_max w) then Raise KeyError else Ok tt) (fun _ =>
  let x1 := blank_field (tiny 20) q "sub_col_Ze_att_tot" ze x in
  then_ x1 (epaint q 1000 (fun j k => blank (tiny 20) (plane q ze j k)) false (XF (-50)) (XF 10)) (fun p1 =>
  let x2 := blank_field (tiny 40) q "sub_col_beta_att_tot" be x1 in
  then_ x2 (epaint q 1000 (fun j k => blank (tiny 40) (plane q be j k)) true (XF (1 / 10 ^ 8)) (XF (1 / 10 ^ 3))) (fun p2 =>
  (x2, Ok [p1; p2]))))))).
(** 473-612: [plot_every_subcolumn_timeseries_nonatt_radarlidarsignal]; vmin and vmax are
    passed on twice (544) and fail, after the reflectivity has been blanked. *)
Definition every_nonatt (m : mobj) (zname : string) (col : Z) (radar lidar : xr * xr) (w : kw) : outcome :=
  let x := mds m in
  then_ x (cell_positions m zname col) (fun q =>
  then_ x (field4 x q "sub_col_Ze_tot") (fun ze =>
  then_ x (field4 x q "sub_col_beta_p_tot") (fun be =>
  let x1 := blank_field (tiny 20) q "sub_col_Ze_tot" ze x in
  then_ x1 (if given (k_min w) || given (k_max w) then Raise TypeError else Ok tt) (fun _ =>
  then_ x1 (epaint q 1000 (fun j k => blank (tiny 20) (plane q ze j k)) false (fst radar) (snd radar)) (fun p1 =>
  let x2 := blank_field (tiny 40) q "sub_col_beta_p_tot" be x1 in
  then_ x2 (epaint q 1000 (fun j k => blank (tiny 40) (plane q be j k)) true (fst lidar) (snd lidar)) (fun p2 =>
  (x2, Ok [p1; p2]))))))).
(** 615-707: [plot_every_subcolumn_timeseries_SR]; the backscatters are arrays of
    the caller; the ratio is a new array. *)
Definition plane4 (q : cells) (a : arr) (j k : nat) : xr := aat a [Nat.modulo k (c_n q); Nat.div k (c_n q); j; c_col q].
Definition array_of (q : cells) (a : arr) : res unit :=
  match ash a with
  | [s; b; l; nc] => if Nat.ltb (c_col q) nc && Nat.eqb s (c_n q) && Nat.eqb b (c_nt q) && Nat.eqb l (c_nl q) then Ok tt else Raise IndexError
  | _ => Raise IndexError
  end.
Definition or_else (o : option xr) (a : xr) : xr := match o with Some b => b | None => a end.
Definition every_SR (m : mobj) (zname : string) (tot mol : arr) (col : Z) (w : kw) : res epanel :=
  do q <- cell_positions m zname col;
  do _ <- array_of q tot;
  do _ <- array_of q mol;
  epaint q 1000 (fun j k => blank (tiny 40) (xdiv (plane4 q tot j k) (plane4 q mol j k))) false (or_else (k_min w) (XF 0)) (or_else (k_max w) (XF 0)).
(** 710-905: [plot_every_subcolumn_timeseries_mixingratio]. *)
Definition at_most_zero (a : xr) : bool := xleb a (XF 0).
Fixpoint four (q : cells) (lo hi : xr) (l : list (string * var)) (x : xds) : outcome :=
  match l with
  | [] => (x, Ok [])
  | (name, v) :: r =>
      let x1 := blank_field at_most_zero q name v x in
      then_ x1 (epaint q 1000 (fun j k => xmul (blank at_most_zero (plane q v j k)) (XF 1000)) false lo hi) (fun p =>
      let '(x2, ps) := four q lo hi r x1 in (x2, match ps with Ok ps => Ok (p :: ps) | Raise e => Raise e end))
  end.
Definition q_fields : list string := ["strat_q_subcolumns_cl"; "strat_q_subcolumns_ci"; "strat_q_subcolumns_pl"; "strat_q_subcolumns_pi"].
Fixpoint fields4 (x : xds) (q : cells) (l : list string) : res (list (string * var)) :=
  match l with [] => Ok [] | n :: r => do v <- field4 x q n; do vs <- fields4 x q r; Ok ((n, v) :: vs) end.
Definition every_mixing (m : mobj) (zname : string) (col : Z) (w : kw) : outcome :=
  let x := mds m in
  then_ x (cell_positions m zname col) (fun q =>
  then_ x (fields4 x q q_fields) (fun vs =>
  four q (or_else (k_min w) (XF 0)) (or_else (k_max w) (XF (1 / 10))) vs x)).
(** 908-1057: [plot_every_subcolumn_timeseries_mixingratio_cloud_precipitation]; sums are new arrays;
    the limits given are used for the first panel only. *)
Definition below_zero (a : xr) : bool := xltb a (XF 0).
Definition every_cloud_precip (m : mobj) (zname : string) (col : Z) (w : kw) : res (list epanel) :=
  let x := mds m in
  do q <- cell_positions m zname col;
  do vs <- fields4 x q q_fields;
  match vs with
  | [(_, cl); (_, ci); (_, pl); (_, pi)] =>
      let sum a b j k := xmul (blank below_zero (xadd (plane q a j k) (plane q b j k))) (XF 1000) in
      do p <- epaint q 1000 (sum cl ci) false (or_else (k_min w) (XF 0)) (or_else (k_max w) (XF (1 / 10)));
      do r <- epaint q 1000 (sum pl pi) false (XF 0) (XF (1 / 10));
      Ok [p; r]
  | _ => Raise ValueError
  end.

(** 159-248, 251-330: CFADs: the given vmin is never used; the heights given count only by number. *)
Definition cfad_limits_radar (w : kw) : res (xr * xr) :=
  match k_min w, k_max w with
  | Some _, None => Raise KeyError
  | Some _, Some _ => Raise TypeError
  | None, _ => Ok (XF 0, XF (2 / 10))
  end.
Definition cfad_limits_SR (w : kw) : res (xr * xr) :=
  match k_min w, k_max w with
  | Some _, None => Raise KeyError
  | Some _, Some _ => Raise TypeError
  | None, o => Ok (XF 0, or_else o (XF 0))
  end.
Definition cfad (edges : list xr) (grid : list xr) (a : arr) (lim : res (xr * xr)) : res panel :=
  do (lo, hi) <- lim;
  let y i := XF (INR i * (48 / 100)) in
  let x i := nth i edges XNaN in
  do (rk, e) <- pcolormesh (length edges) (S (length grid)) x y a;
  Ok {| p_rows := fst rk; p_cols := snd rk; p_edges := e; p_x := x; p_y := y; p_val := fun i j => aat a [i; j];
        p_log := false; p_lo := Some lo; p_hi := Some hi; p_hatch := None |}.
Definition plot_radar_CFAD (edges grid : list xr) (a : arr) (w : kw) : res panel := cfad edges grid a (cfad_limits_radar w).
(** 289: the bins of the ratio are drawn equally wide. *)
Definition plot_lidar_SR_CFAD (edges grid : list xr) (a : arr) (w : kw) : res panel :=
  cfad (map (fun i => XF (INR i)) (seq 0 (length edges))) grid a (cfad_limits_SR w).

(** statistical_output.py 5-44: [save_cfads_to_nc]; the dataset of the model
    afterwards, which is what is written.  A dimension already there must have the size of the array. *)
Fixpoint fits (x : xds) (dims : list string) (sh : list nat) : bool :=
  match dims, sh with
  | [], [] => true
  | d :: r, n :: s => (negb (has_dim x d) || Nat.eqb (sz x d) n) && fits x r s
  | _, _ => false
  end.
Fixpoint resize (f : string -> nat) (dims : list string) (sh : list nat) : string -> nat :=
  match dims, sh with
  | d :: r, n :: s => fun e => if String.eqb e d then n else resize f r s e
  | _, _ => f
  end.
Definition add_var (x : xds) (name : string) (dims : list string) (a : arr) : res xds :=
  if fits x dims (ash a)
  then Ok {| sz := resize (sz x) dims (ash a); coords := coords x; vars := put (vars x) name {| vdims := dims; vat := aat a |} |}
  else Raise ValueError.
Definition save_cfads (x : xds) (bins : list xr) (cf cz cs : arr) : res xds :=
  do a <- add_var x "CFAD_Radar" ["cosp_ht"; "cosp_ze"] cz;
  do b <- add_var a "CFAD_SR" ["cosp_ht"; "cosp_sr"] cs;
  add_var b "cloud_fraction" ["time"; "cosp_ht"; "ncol"] cf.
