(** The axis ratio of rain drops. *)
From Coq Require Import Reals Lra Psatz.
From Verif Require Import Scat_Spec.
Local Open Scope R_scope.

Definition slope (a b : R) : R :=
  251 / 10000 - 3644 / 100000 * (a + b) + 5303 / 1000000 * (a ^ 2 + a * b + b ^ 2) - 2492 / 10000000 * (a ^ 3 + a ^ 2 * b + a * b ^ 2 + b ^ 3).
Lemma brandes_diff a b : brandes b - brandes a = (b - a) * slope a b.
Proof. unfold brandes, slope. ring. Qed.
Definition grad (d : R) : R := 251 / 10000 - 7288 / 100000 * d + 15909 / 1000000 * d ^ 2 - 9968 / 10000000 * d ^ 3.
Lemma brandes_derive d : derivable_pt_lim brandes d (grad d).
Proof.
  unfold brandes, grad.
  replace (251 / 10000 - 7288 / 100000 * d + 15909 / 1000000 * d ^ 2 - 9968 / 10000000 * d ^ 3)
    with (0 + 251 / 10000 * 1 - 3644 / 100000 * (INR 2 * d ^ 1) + 5303 / 1000000 * (INR 3 * d ^ 2) - 2492 / 10000000 * (INR 4 * d ^ 3)) by (simpl; field).
  apply derivable_pt_lim_minus; [apply derivable_pt_lim_plus; [apply derivable_pt_lim_minus; [apply derivable_pt_lim_plus|]|]|].
  - apply derivable_pt_lim_const.
  - apply (derivable_pt_lim_scal id). apply derivable_pt_lim_id.
  - apply (derivable_pt_lim_scal (fun x => x ^ 2)). apply (derivable_pt_lim_pow d 2).
  - apply (derivable_pt_lim_scal (fun x => x ^ 3)). apply (derivable_pt_lim_pow d 3).
  - apply (derivable_pt_lim_scal (fun x => x ^ 4)). apply (derivable_pt_lim_pow d 4).
Qed.
Lemma secant d l h : l <= d <= h -> d ^ 2 <= (l + h) * d - l * h.
Proof. intros. nra. Qed.
Lemma tangent d m : 0 <= d -> 0 <= m -> 3 * m ^ 2 * d - 2 * m ^ 3 <= d ^ 3.
Proof.
  intros. assert (E : d ^ 3 - (3 * m ^ 2 * d - 2 * m ^ 3) = (d - m) ^ 2 * (d + 2 * m)) by ring.
  assert (0 <= (d - m) ^ 2 * (d + 2 * m)) by (apply Rmult_le_pos; [apply pow2_ge_0|lra]). lra.
Qed.
Lemma grad_neg d : 2 / 5 <= d -> grad d < 0.
Proof.
  intro H. unfold grad.
  assert (K : forall l h m, l <= d <= h -> 0 <= m ->
    251 / 10000 - 7288 / 100000 * d + 15909 / 1000000 * d ^ 2 - 9968 / 10000000 * d ^ 3 <=
    251 / 10000 - 7288 / 100000 * d + 15909 / 1000000 * ((l + h) * d - l * h) - 9968 / 10000000 * (3 * m ^ 2 * d - 2 * m ^ 3)).
  { intros l h m D M. pose proof (secant d l h D). pose proof (tangent d m ltac:(lra) M). lra. }
  destruct (Rle_dec d (6 / 10)); [pose proof (K (4 / 10) (6 / 10) (5 / 10) ltac:(lra) ltac:(lra)); lra|].
  destruct (Rle_dec d 3); [pose proof (K (6 / 10) 3 (15 / 10) ltac:(lra) ltac:(lra)); lra|].
  destruct (Rle_dec d 6); [pose proof (K 3 6 (45 / 10) ltac:(lra) ltac:(lra)); lra|].
  destruct (Rle_dec d 8); [pose proof (K 6 8 7 ltac:(lra) ltac:(lra)); lra|].
  destruct (Rle_dec d 9); [pose proof (K 8 9 (85 / 10) ltac:(lra) ltac:(lra)); lra|].
  destruct (Rle_dec d 12); [pose proof (K 9 12 (105 / 10) ltac:(lra) ltac:(lra)); lra|].
  destruct (Rle_dec d 17); [pose proof (K 12 17 14 ltac:(lra) ltac:(lra)); lra|].
  assert (0 <= d ^ 2) by apply pow2_ge_0. assert (16 * d ^ 2 <= d ^ 3) by (replace (d ^ 3) with (d * d ^ 2) by ring; apply Rmult_le_compat_r; lra). lra.
Qed.
Theorem drop_flatter a b : 2 / 5 <= a < b -> brandes b < brandes a.
Proof.
  intros [A B]. destruct (MVT_cor2 brandes grad a b B (fun c _ => brandes_derive c)) as (c & E & C).
  pose proof (grad_neg c ltac:(lra)). nra.
Qed.
Theorem drop_ratio d : 0 <= d <= 10 -> 2 / 5 < brandes d < 1.
Proof.
  intros [A B]. split.
  - destruct (Rle_dec d (2 / 5)).
    + unfold brandes. assert (0 <= d ^ 3) by (apply pow_le; lra). assert (d ^ 2 <= 1) by nra. assert (d ^ 4 <= 1) by nra. lra.
    + destruct (Req_dec d 10) as [->|N]; [unfold brandes; lra|].
      pose proof (drop_flatter d 10 ltac:(lra)). assert (2 / 5 < brandes 10) by (unfold brandes; lra). lra.
  - destruct (Rle_dec d (2 / 5)).
    + unfold brandes. assert (0 <= d ^ 2) by apply pow2_ge_0. assert (d ^ 3 <= 2 / 5 * d ^ 2) by (replace (d ^ 3) with (d * d ^ 2) by ring; apply Rmult_le_compat_r; lra).
      assert (0 <= d ^ 4) by (apply pow_le; lra). nra.
    + assert (brandes (2 / 5) < 1) by (unfold brandes; lra). pose proof (drop_flatter (2 / 5) d ltac:(lra)). lra.
Qed.
