(** Vocabulary for the P3 ice parameters of E3SMv3. *)
From Verif Require Export P3_Model Load_Spec Psd_Spec.
From Coq Require Import Sorted.
Local Open Scope R_scope.

(** A table axis: at least two numbers, in increasing order. *)
Definition table_axis (l : list xr) (rs : list R) : Prop :=
  l = map XF rs /\ StronglySorted Rlt rs /\ (2 <= length rs)%nat.
(** [x] lies in interval [i] of the axis, whose ends are [a] and [b]. *)
Definition in_interval (rs : list R) (i : nat) (x a b : R) : Prop :=
  nth_error rs i = Some a /\ nth_error rs (S i) = Some b /\ a <= x <= b.
(** Linear interpolation along one, two and three axes. *)
Definition lerp (t a b : R) : R := a + t * (b - a).
Definition trilinear (L : nat -> nat -> nat -> R) (i j k : nat) (u v w : R) : R :=
  lerp u (lerp v (lerp w (L i j k) (L i j (S k))) (lerp w (L i (S j) k) (L i (S j) (S k))))
         (lerp v (lerp w (L (S i) j k) (L (S i) j (S k))) (lerp w (L (S i) (S j) k) (L (S i) (S j) (S k)))).

(** A table of real slopes. *)
Record real_table (tb : p3_table) (fr rr qn : list R) (L : nat -> nat -> nat -> R) : Prop := {
  rt_fr : table_axis (ax_fr tb) fr;
  rt_rr : table_axis (ax_rr tb) rr;
  rt_qn : table_axis (ax_qn tb) qn;
  rt_lam : forall i j k, (i < length fr)%nat -> (j < length rr)%nat -> (k < length qn)%nat -> t_lam tb i j k = XF (L i j k)
}.
(** First and last number of an axis, and a value brought into its range. *)
Definition first_of (rs : list R) : R := nth 0 rs 0.
Definition last_of (rs : list R) : R := nth (length rs - 1) rs 0.
Definition into_range (rs : list R) (x : R) : R := Rmax (first_of rs) (Rmin x (last_of rs)).
(** The same for model data, which may be missing or infinite. *)
Definition into_range_x (rs : list R) (v : xr) : xr :=
  match v with
  | XF r => XF (into_range rs r)
  | XNaN => XNaN
  | XP => XF (last_of rs)
  | XM => XF (first_of rs)
  end.

(** The shape parameter of P3 ice (Heymsfield 2003): 0.076 (lambda in cm-1)^0.8 - 2,
    limited to 0..6. *)
Definition p3_shape (lam : R) : R := Rmin (Rmax (76 / 1000 * Rpower (lam / 100) (8 / 10) - 2) 0) 6.

(** The value of a field of the loaded dataset for the grid box at [ix] of the file. *)
Definition box_value (m m' : mobj) (k : string) (ix : string -> nat) : xr :=
  match assoc (vars (mds m')) k with Some v => at_ v (place m ix) | None => XNaN end.

(** The inputs of the table as derived on reading (C72). *)
Definition rime_density (m : mobj) (ix : string -> nat) : xr :=
  if xeqb (rime_fraction m ix) (XF 0) then XF 0 else xdiv (raw m "CLDRIM" ix) (raw m "BVRIM" ix).
Definition mass_per_number (m : mobj) (ix : string -> nat) : xr :=
  xdiv (xdiv (raw m "CLDICE" ix) (raw m "FREQI" ix)) (in_cloud_number m ix).

(** The slope for the inputs [x], [y], [z] (each brought into the range of its
    axis): missing if one is missing, else interpolated between the eight
    table values around the point. *)
Definition table_slope (fr rr qn : list R) (L : nat -> nat -> nat -> R) (x y z : xr) (l : xr) : Prop :=
  match into_range_x fr x, into_range_x rr y, into_range_x qn z with
  | XF x', XF y', XF z' => exists i j k a a' b b' c c',
      in_interval fr i x' a a' /\ in_interval rr j y' b b' /\ in_interval qn k z' c c' /\
      l = XF (trilinear L i j k ((x' - a) / (a' - a)) ((y' - b) / (b' - b)) ((z' - c) / (c' - c)))
  | _, _, _ => l = XNaN
  end.
(** The number concentration per unit diameter and number at zero size that
    gives a distribution of one particle: lambda^(mu+1) / Gamma(mu+1). *)
Definition unit_intercept (Gam : R -> R) (lam : R) : R := Rpower lam (p3_shape lam + 1) / Gam (p3_shape lam + 1).
