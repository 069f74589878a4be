(** emc2/statistics_LLNL/statistical_aggregation.py 7-106: radar and lidar
    signals handed to the regridding (E3SM output on columns). *)
From Verif Require Export Load_Model.
Local Open Scope string_scope.
Local Open Scope list_scope.

(** [v[i, j, :, k]] and [v[j, :, k]]: the dimension left and the values. *)
Definition row4 (x : xds) (v : var) (i j k : nat) : res (string * list xr) :=
  match vdims v with
  | [a; b; l; c] =>
      if Nat.ltb i (sz x a) && Nat.ltb j (sz x b) && Nat.ltb k (sz x c)
      then Ok (l, map (fun n => vat v [i; j; n; k]) (seq 0 (sz x l))) else Raise IndexError
  | _ => Raise IndexError
  end.
Definition row3 (x : xds) (v : var) (j k : nat) : res (string * list xr) :=
  match vdims v with
  | [b; l; c] =>
      if Nat.ltb j (sz x b) && Nat.ltb k (sz x c)
      then Ok (l, map (fun n => vat v [j; n; k]) (seq 0 (sz x l))) else Raise IndexError
  | _ => Raise IndexError
  end.
(** 100-104: [zhalf]. *)
Fixpoint zhalf (z : list xr) : list xr :=
  match z with
  | [] => []
  | a :: r => match r with [] => [a] | b :: _ => xadd a (xdiv (xsub b a) (XF 2)) :: zhalf r end
  end.
(** 54-106: [get_ATB_ATBmol].  A product of rows along different dimensions
    is two-dimensional and fails when stored. *)
Record rows := { r_tot : list xr; r_mol : list xr; r_z : list xr; r_half : list xr; r_ze : list xr }.
Definition get_ATB_ATBmol (x : xds) (i j k : nat) : res rows :=
  do tot <- getv x "sub_col_beta_att_tot"; do (_, t) <- row4 x tot i j k;
  do sig <- getv x "sigma_180_vol"; do (ls, s) <- row3 x sig j k;
  do tau <- getv x "tau"; do (lt, u) <- row3 x tau j k;
  do ze <- getv x "sub_col_Ze_att_tot"; do (_, r) <- row4 x ze i j k;
  do z3 <- getv x "Z3"; do (_, z) <- row3 x z3 j k;
  let zkm := map (fun a => xdiv a (XF 1000)) z in
  if negb (String.eqb ls lt) then Raise ValueError
  else if Nat.eqb (length zkm) 0 then Raise IndexError
  else Ok {| r_tot := t; r_mol := map (fun p => xmul (fst p) (snd p)) (combine s u); r_z := zkm; r_half := zhalf zkm; r_ze := r |}.
(** 30-51: the loops; rows are stored into arrays shaped like the
    backscatter and the height (rows of another length fail). *)
Record signals := { s_tot : nat -> nat -> nat -> nat -> xr; s_mol : nat -> nat -> nat -> nat -> xr;
  s_z : nat -> nat -> nat -> xr; s_half : nat -> nat -> nat -> xr; s_ze : nat -> nat -> nat -> nat -> xr }.
Definition set4 (f : nat -> nat -> nat -> nat -> xr) (i j k : nat) (r : list xr) : nat -> nat -> nat -> nat -> xr :=
  fun i' j' l k' => if Nat.eqb i' i && Nat.eqb j' j && Nat.eqb k' k then nth l r XNaN else f i' j' l k'.
Definition set3 (f : nat -> nat -> nat -> xr) (j k : nat) (r : list xr) : nat -> nat -> nat -> xr :=
  fun j' l k' => if Nat.eqb j' j && Nat.eqb k' k then nth l r XNaN else f j' l k'.
Definition store (n n3 i j k : nat) (r : rows) (s : signals) : res signals :=
  if Nat.eqb (length (r_tot r)) n && Nat.eqb (length (r_mol r)) n && Nat.eqb (length (r_z r)) n3 &&
     Nat.eqb (length (r_half r)) n3 && Nat.eqb (length (r_ze r)) n
  then Ok {| s_tot := set4 (s_tot s) i j k (r_tot r); s_mol := set4 (s_mol s) i j k (r_mol r);
             s_z := set3 (s_z s) j k (r_z r); s_half := set3 (s_half s) j k (r_half r); s_ze := set4 (s_ze s) i j k (r_ze r) |}
  else Raise ValueError.
Fixpoint each {S} (f : nat -> S -> res S) (l : list nat) (s : S) : res S :=
  match l with [] => Ok s | i :: r => do s' <- f i s; each f r s' end.
(** What the arrays hold before ([np.empty_like]) is given. *)
Definition get_radar_lidar_signals (empty : signals) (x : xds) : res signals :=
  do tot <- getv x "sub_col_beta_att_tot";
  do z3 <- getv x "Z3";
  match vdims tot, vdims z3 with
  | [_; _; l; _], [_; l3; _] =>
      if has_dim x "subcolumn" && has_dim x "time" && has_dim x "ncol" then
        each (fun i => each (fun j => each (fun k s =>
          do r <- get_ATB_ATBmol x i j k; store (sz x l) (sz x l3) i j k r s)
          (seq 0 (sz x "ncol"))) (seq 0 (sz x "time"))) (seq 0 (sz x "subcolumn")) empty
      else Raise KeyError
  | _, _ => Raise IndexError
  end.
