(** Vocabulary for the statistics properties. *)
From Verif Require Import Np Xr Mom_Spec.
Local Open Scope R_scope.

(** The thickness of the intersection of two layers. *)
Definition overlap (a b c d : R) : R := Rmax 0 (Rmin b d - Rmax a c).

(** Heights that increase from one index to the next. *)
Definition increasing (z : list R) : Prop :=
  forall k, (S k < length z)%nat -> nth k z 0 < nth (S k) z 0.

(** New layers (bottom, top), bottom first, that do not overlap. *)
Definition layered (new : list (R * R)) : Prop :=
  (forall k, (k < length new)%nat -> fst (nth k new (0, 0)) < snd (nth k new (0, 0))) /\
  (forall k, (S k < length new)%nat -> snd (nth k new (0, 0)) <= fst (nth (S k) new (0, 0))).

(** The thickness that old layer [l] (between half levels [l] and [l+1])
    has in common with new layer [k]. *)
Definition shared (zhalf : list R) (new : list (R * R)) (k l : nat) : R :=
  overlap (nth l zhalf 0) (nth (S l) zhalf 0) (fst (nth k new (0, 0))) (snd (nth k new (0, 0))).

(** Number of indices below [n] that satisfy [p]. *)
Fixpoint number (p : nat -> Prop) (n c : nat) : Prop :=
  match n with
  | O => c = O
  | S m => (p m /\ exists c', c = S c' /\ number p m c') \/ (~ p m /\ number p m c)
  end.

(** Comparison of a (possibly missing or infinite) value with a number. *)
Definition exceeds (x : xr) (a : R) : Prop := x = XP \/ exists r, x = XF r /\ a < r.
(** It lies in the half-open bin from [lo] to [hi]. *)
Definition in_bin (lo hi : R) (x : xr) : Prop := exists r, x = XF r /\ lo <= r < hi.

(** The linear value of decibels; -1e30 marks a missing value. *)
Definition linear (y : R) : R := if Req_EM_T y (- 10 ^ 30) then 0 else Rpower 10 (y / 10).
