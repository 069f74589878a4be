(** Extended reals: the float64 values of numpy with exact real arithmetic.
    NaN and the two infinities are explicit; rounding, overflow of finite
    operations and the sign of zero are not modelled (a zero divisor is
    taken as +0, except where stated). *)
From Coq Require Export Reals Lra.
From Verif Require Import Np.
Local Open Scope R_scope.

Inductive xr := XF (r : R) | XNaN | XP | XM.

Definition Rltb (a b : R) : bool := if Rlt_dec a b then true else false.
Definition Rleb (a b : R) : bool := if Rle_dec a b then true else false.
Definition Reqb (a b : R) : bool := if Req_EM_T a b then true else false.

(** IEEE-754 addition, negation, subtraction. *)
Definition xadd (a b : xr) : xr :=
  match a, b with
  | XNaN, _ | _, XNaN => XNaN
  | XF x, XF y => XF (x + y)
  | XP, XM | XM, XP => XNaN
  | XP, _ | _, XP => XP
  | XM, _ | _, XM => XM
  end.
Definition xopp (a : xr) : xr :=
  match a with XF x => XF (- x) | XNaN => XNaN | XP => XM | XM => XP end.
Definition xsub (a b : xr) : xr := xadd a (xopp b).

(** An infinity with the sign of [r] (NaN for 0). *)
Definition inf_of (r : R) : xr :=
  if Rlt_dec 0 r then XP else if Rlt_dec r 0 then XM else XNaN.

(** IEEE-754 multiplication and division. *)
Definition xmul (a b : xr) : xr :=
  match a, b with
  | XNaN, _ | _, XNaN => XNaN
  | XF x, XF y => XF (x * y)
  | XF x, XP | XP, XF x => inf_of x
  | XF x, XM | XM, XF x => inf_of (- x)
  | XP, XP | XM, XM => XP
  | XP, XM | XM, XP => XM
  end.
Definition xdiv (a b : xr) : xr :=
  match a, b with
  | XNaN, _ | _, XNaN => XNaN
  | XF x, XF y => if Req_EM_T y 0 then inf_of x else XF (x / y)
  | XF _, (XP | XM) => XF 0
  | (XP | XM), (XP | XM) => XNaN
  | XP, XF y => if Rlt_dec y 0 then XM else XP
  | XM, XF y => if Rlt_dec y 0 then XP else XM
  end.
Definition xabs (a : xr) : xr :=
  match a with XF x => XF (Rabs x) | XNaN => XNaN | _ => XP end.

(** [np.exp], [np.log10], [np.sqrt]. *)
Definition xexp (a : xr) : xr :=
  match a with XF x => XF (exp x) | XNaN => XNaN | XP => XP | XM => XF 0 end.
Definition log10 (r : R) : R := ln r / ln 10.
Definition xlog10 (a : xr) : xr :=
  match a with
  | XF x => if Rlt_dec 0 x then XF (log10 x)
            else if Rlt_dec x 0 then XNaN else XM
  | XP => XP
  | _ => XNaN
  end.
Definition xsqrt (a : xr) : xr :=
  match a with
  | XF x => if Rlt_dec x 0 then XNaN else XF (sqrt x)
  | XP => XP
  | _ => XNaN
  end.

(** [x ** y] ([np.power]).  A negative base gives NaN, which is what numpy
    returns for a non-integer exponent; integer exponents are written as
    products in the model. *)
Definition xpow (x y : xr) : xr :=
  match x, y with
  | _, XNaN => match x with XF a => if Req_EM_T a 1 then XF 1 else XNaN | _ => XNaN end
  | XNaN, XF b => if Req_EM_T b 0 then XF 1 else XNaN
  | XNaN, _ => XNaN
  | XF a, XF b =>
      if Rlt_dec 0 a then XF (Rpower a b)
      else if Req_EM_T b 0 then XF 1
      else if Rlt_dec a 0 then XNaN
      else if Rlt_dec 0 b then XF 0 else XP
  | XP, XF b => if Rlt_dec 0 b then XP else if Rlt_dec b 0 then XF 0 else XF 1
  | XF a, XP =>
      if Rlt_dec a 0 then XNaN else
      if Rlt_dec 1 a then XP else if Rlt_dec a 1 then XF 0 else XF 1
  | XF a, XM =>
      if Rlt_dec a 0 then XNaN else
      if Rlt_dec 1 a then XF 0 else if Rlt_dec a 1 then XP else XF 1
  | XP, XP => XP
  | XP, XM => XF 0
  | XM, _ => XNaN
  end.

(** Comparisons: False when an operand is NaN. *)
Definition xltb (a b : xr) : bool :=
  match a, b with
  | XNaN, _ | _, XNaN => false
  | XF x, XF y => Rltb x y
  | XM, XM | XP, _ | _, XM => false
  | _, _ => true
  end.
Definition xleb (a b : xr) : bool :=
  match a, b with
  | XNaN, _ | _, XNaN => false
  | XF x, XF y => Rleb x y
  | XM, _ | _, XP => true
  | _, _ => false
  end.
Definition xeqb (a b : xr) : bool :=
  match a, b with
  | XF x, XF y => Reqb x y
  | XP, XP | XM, XM => true
  | _, _ => false
  end.

(** [np.isnan], [np.isinf], [np.isfinite], [fillna], [np.nan_to_num]. *)
Definition isnan (a : xr) : bool := match a with XNaN => true | _ => false end.
Definition isinf (a : xr) : bool := match a with XP | XM => true | _ => false end.
Definition isfin (a : xr) : bool := match a with XF _ => true | _ => false end.
Definition fillna (v : R) (a : xr) : xr := match a with XNaN => XF v | _ => a end.
(** The largest float64. *)
Definition fmax : R := (2 - / 2 ^ 52) * 2 ^ 1023.
Definition nan_to_num (a : xr) : xr :=
  match a with XF x => XF x | XNaN => XF 0 | XP => XF fmax | XM => XF (- fmax) end.

(** [np.cumsum], [np.diff(..., prepend=0.)], [np.diff(..., append=0.)] and
    the element-wise product of two equally long arrays. *)
Fixpoint cumsum_from (acc : xr) (l : list xr) : list xr :=
  match l with
  | [] => []
  | x :: l' => xadd acc x :: cumsum_from (xadd acc x) l'
  end.
Definition cumsum (l : list xr) : list xr :=
  match l with [] => [] | x :: l' => x :: cumsum_from x l' end.
Fixpoint diff_from (prev : xr) (l : list xr) : list xr :=
  match l with
  | [] => []
  | x :: l' => xsub x prev :: diff_from x l'
  end.
Definition diff_prepend (v : xr) (l : list xr) : list xr := diff_from v l.
Definition diff (l : list xr) : list xr :=
  match l with [] => [] | x :: l' => diff_from x l' end.
Definition diff_append (v : xr) (l : list xr) : list xr := diff (l ++ [v]).
Fixpoint zmul (a b : list xr) : list xr :=
  match a, b with
  | x :: a', y :: b' => xmul x y :: zmul a' b'
  | _, _ => []
  end.
Fixpoint zadd (a b : list xr) : list xr :=
  match a, b with
  | x :: a', y :: b' => xadd x y :: zadd a' b'
  | _, _ => []
  end.

(** [np.sum] of a list, from 0. *)
Definition xsum (l : list xr) : xr := fold_left xadd l (XF 0).

(** [np.trapz(y, x=x)]. *)
Fixpoint trapz (x y : list xr) : xr :=
  match x, y with
  | x0 :: ((x1 :: _) as x'), y0 :: ((y1 :: _) as y') =>
      xadd (xdiv (xmul (xsub x1 x0) (xadd y0 y1)) (XF 2)) (trapz x' y')
  | _, _ => XF 0
  end.

(** [np.interp(x, xp, fp)] for increasing [xp]: clamped piecewise-linear
    interpolation; NaN for NaN. *)
Fixpoint interp_in (x : xr) (xp fp : list xr) : xr :=
  match xp, fp with
  | x0 :: ((x1 :: _) as xp'), y0 :: ((y1 :: _) as fp') =>
      if xltb x x1
      then xadd (xmul (xdiv (xsub y1 y0) (xsub x1 x0)) (xsub x x0)) y0
      else interp_in x xp' fp'
  | _, y0 :: _ => y0
  | _, [] => XNaN
  end.
Definition np_interp (x : xr) (xp fp : list xr) : xr :=
  if isnan x then XNaN
  else match xp, fp with
       | x0 :: _, y0 :: _ => if xltb x x0 then y0 else interp_in x xp fp
       | _, _ => XNaN
       end.
