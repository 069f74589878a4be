(** emc2/simulator/psd.py: gamma particle size distributions.
    [Gam] stands for scipy.special.gamma on finite arguments. *)
From Verif Require Import Mom_Base.
Local Open Scope R_scope.

Section Psd.
Variable Gam : R -> R.

Definition xgam (a : xr) : xr := match a with XF x => XF (Gam x) | XP => XP | _ => XNaN end.

(** The keyword arguments [calc_dispersion] and [dispersion_mu_bounds]. *)
Record psd_kw := { k_disp : option bool; k_lo : R; k_hi : R }.

(** psd.py 100-104. *)
Definition dispersion (e : menv) (kw : psd_kw) : bool :=
  match k_disp kw with
  | Some b => b
  | None => negb (memb (model_name e) ["ModelE"; "DHARMA"]%string)
  end.

(** psd.py 122-126: mu of a stratiform cloud-liquid cell. *)
Definition mu_martin (lo hi : R) (n : xr) : xr :=
  let eta := xadd (xmul (XF (5714 / 10 ^ 7)) (xmul n (XF (/ 10 ^ 6)))) (XF (2714 / 10000)) in
  let m := xsub (xdiv (XF 1) (xmul eta eta)) (XF 1) in
  let m := if xltb m (XF lo) then XF lo else m in
  if xltb (XF hi) m then XF hi else m.

(** psd.py 121-132. *)
Definition mu_cell (e : menv) (kw : psd_kw) (h : string) (conv : bool) (n : xr) : xr :=
  if String.eqb h "cl" && negb conv
  then (if dispersion e kw then mu_martin (k_lo kw) (k_hi kw) n else XF (100 / 9))
  else XF 0.

(** psd.py 137-143. *)
Definition lambda_cell (rh n q mu : xr) : xr :=
  let c := xdiv (xmul (XF PI) rh) (XF 6) in
  let fit := xpow (xdiv (xmul (xmul (xmul c n) (XF (10 ^ 6))) (xgam (xadd (xadd mu (XF 3)) (XF 1))))
                        (xmul q (xgam (xadd mu (XF 1))))) (XF (1 / 3)) in
  if xltb (XF 0) q then fit else XNaN.

(** psd.py 146-147. *)
Definition n0_cell (n lam mu : xr) : xr :=
  xdiv (xmul (xmul n (XF (10 ^ 6))) (xpow lam (xadd mu (XF 1)))) (xgam (xadd mu (XF 1))).

(** psd.py 46-151; the parameters are stored in the dataset. *)
Definition calc_mu_lambda (e : menv) (kw : psd_kw) (h : string) (conv : bool) : L unit :=
  run q <- rd (fun s => g3 s (qn conv h));
  run n <- rd (fun s => g3 s (nn conv h));
  run rh <- rd (fun s => do r <- dict (rho_hyd e) h;
                         match r with
                         | RVar => do v <- dict (var_density e) h; g2 s v
                         | RConst x => Ok (fun _ _ => XF x)
                         end);
  let mu : arr3 := fun i t k => mu_cell e kw h conv (n i t k) in
  let lam : arr3 := fun i t k => lambda_cell (rh t k) (n i t k) (q i t k) (mu i t k) in
  run _ <- assign "mu" (V3 mu);
  run _ <- assign "lambda" (V3 lam);
  assign "N_0" (V3 (fun i t k => n0_cell (n i t k) (lam i t k) (mu i t k))).

(** The three parameter arrays; P3 ice has no subcolumn dimension. *)
Inductive fits := Fit3 (n0 lam mu : arr3) | Fit2 (n0 lam mu : arr2).

Definition field_of (d : option (list (string * option string))) (h : string) : res string :=
  match d with
  | None => Raise TypeError
  | Some l => match assoc l h with
              | Some (Some n) => Ok n
              | _ => Raise KeyError
              end
  end.

Definition psd_fit3 (e : menv) (kw : psd_kw) (h : string) : L fits :=
  run _ <- calc_mu_lambda e kw h false;
  rd (fun s => do a <- g3 s "N_0"; do b <- g3 s "lambda"; do c <- g3 s "mu"; Ok (Fit3 a b c)).

(** psd.py 154-189 (stratiform, the only case the forward calculations use). *)
Definition calc_and_set_psd_params (e : menv) (kw : psd_kw) (h : string) : L fits :=
  if memb h ["cl"; "pl"]%string then
    (if memb (lower (mcphys e)) ["mg2"; "mg"; "morrison"; "nssl"; "p3"]%string
     then psd_fit3 e kw h else lraise ValueError)
  else if memb (lower (mcphys e)) ["mg2"; "mg"; "morrison"; "nssl"]%string
  then psd_fit3 e kw h
  else if memb (lower (mcphys e)) ["p3"]%string then
    rd (fun s =>
      do ni <- g2 s (p3_ni e); do n0 <- g2 s (p3_n0 e);
      do ln <- field_of (lam_field e) "ci"; do l <- g2 s ln;
      do mn <- field_of (mu_field e) "ci"; do m <- g2 s mn;
      Ok (Fit2 (fun t k => xmul (ni t k) (n0 t k)) l m))
  else lraise ValueError.

End Psd.
