(** Concrete cases for the statistics properties. *)
From Verif Require Import Np Xr Xr_Facts Mom_Spec Stat_Model Stat_Spec Stat_Facts Stat_More Stat_Count.
Local Open Scope R_scope.

(** Half levels 0, 2, 4, 6 km and three new layers. *)
Definition wz : nat -> list R := fun _ => [0; 2; 4; 6].
Definition wfull : nat -> list R := fun _ => [1; 3; 5; 7].
Definition wnew : list (R * R) := [(0, 1); (1, 2); (2, 5)].
Definition wy : nat -> nat -> nat -> R := fun _ _ l => INR (S l).

Lemma w_layered : layered wnew.
Proof. split; intros [|[|[|k]]] h; simpl in *; try lia; lra. Qed.
Lemma w_increasing i : increasing (wz i).
Proof. intros [|[|[|k]]] h; simpl in *; try lia; lra. Qed.

Lemma w_regrid lunits : exists r, change_grid 1 wfull wz wy wnew lunits = Ok r.
Proof.
  apply regrid_succeeds; [exact w_layered|]. intros i _. split; [apply w_increasing|].
  split; [simpl; lia|]. intros [|[|[|k]]] h; simpl in *; try lia; lra.
Qed.

Ltac ov := unfold shared, overlap, Rmin, Rmax; simpl;
  repeat (match goal with |- context [Rle_dec ?x ?y] =>
    lazymatch y with context [Rle_dec] => fail | _ => destruct (Rle_dec x y) end end); try lra.

Lemma w_mean : exists r, change_grid 1 wfull wz wy wnew false = Ok r /\ r 0%nat 0%nat 2%nat = 7 / 3 /\ r 0%nat 0%nat 1%nat = 0.
Proof.
  destruct (w_regrid false) as [r E]. exists r. split; [exact E|]. split.
  - destruct (regrid_mean _ _ _ _ _ _ E w_layered 0 0 2)%nat as [P M]; try (simpl; lia); try apply w_increasing;
      try (simpl; lra); [right; ov|].
    assert (S0 : shared (wz 0) wnew 2 0 = 0) by ov.
    assert (S1 : shared (wz 0) wnew 2 1 = 2) by ov.
    assert (S2 : shared (wz 0) wnew 2 2 = 1) by ov.
    assert (S3 : shared (wz 0) wnew 2 3 = 0) by (apply overlap_above; simpl; lra).
    change (length (wz 0)) with 4%nat in M. cbn [sumR] in M. rewrite S0, S1, S2, S3 in M.
    unfold wy in M. simpl INR in M. lra.
  - apply (regrid_bottom _ _ _ _ _ _ E w_layered 0 0 0)%nat; try apply w_increasing; simpl; try lia; lra.
Qed.

Lemma w_mean_refuted : exists r, change_grid 1 wfull wz wy wnew false = Ok r /\
  layered wnew /\ increasing (wz 0) /\ nth 0 (wz 0) 0 < snd (nth 1 wnew (0, 0)) /\
  r 0%nat 0%nat 1%nat * sumR (shared (wz 0) wnew 1) 4 <> sumR (fun l => shared (wz 0) wnew 1 l * wy 0 0 l) 4.
Proof.
  destruct w_mean as (r & E & _ & Z). exists r. split; [exact E|]. split; [exact w_layered|].
  split; [apply w_increasing|]. split; [simpl; lra|]. rewrite Z.
  assert (S0 : shared (wz 0) wnew 1 0 = 1) by ov.
  assert (S1 : shared (wz 0) wnew 1 1 = 0) by ov.
  assert (S2 : shared (wz 0) wnew 1 2 = 0) by ov.
  assert (S3 : shared (wz 0) wnew 1 3 = 0) by (apply overlap_above; simpl; lra).
  cbn [sumR]. rewrite S0, S1, S2, S3. unfold wy. simpl INR. lra.
Qed.

(** One new layer over two old ones. *)
Definition wz1 : nat -> list R := fun _ => [0; 1; 2; 3].
Definition wnew1 : list (R * R) := [(0, 2)].
Lemma w_layered1 : layered wnew1.
Proof. split; intros [|k] h; simpl in *; try lia; lra. Qed.
Lemma w_increasing1 i : increasing (wz1 i).
Proof. intros [|[|[|k]]] h; simpl in *; try lia; lra. Qed.
Lemma w_ze ze : exists r, regridded_ze 1 wfull wz1 ze wnew1 = Ok r.
Proof.
  unfold regridded_ze.
  destruct (regrid_succeeds 1 wfull wz1 (fun t i l => num_undef (ze i t l)) wnew1 false) as [g E]; [exact w_layered1| |].
  - intros i _. split; [apply w_increasing1|]. split; [simpl; lia|]. intros [|k] h; simpl in *; try lia; lra.
  - rewrite E. eexists. reflexivity.
Qed.
Lemma w_shares : shared (wz1 0) wnew1 0 0 = 1 /\ shared (wz1 0) wnew1 0 1 = 1 /\ shared (wz1 0) wnew1 0 2 = 0 /\ shared (wz1 0) wnew1 0 3 = 0.
Proof. repeat split; try ov. Qed.

Definition wgap (l : nat) : bool := (l =? 0)%nat.
Lemma w_partly_missing : exists r, regridded_ze 1 wfull wz1 (fun _ _ l => if wgap l then XNaN else XF 0) wnew1 = Ok r /\
  layered wnew1 /\ increasing (wz1 0) /\ shared (wz1 0) wnew1 0 0 = 1 /\ shared (wz1 0) wnew1 0 1 = 1 /\
  r 0%nat 0%nat 0%nat = XF (- (10 ^ 30 / 2)).
Proof.
  destruct (w_ze (fun _ _ l => if wgap l then XNaN else XF 0)) as [r E].
  destruct w_shares as (s0 & s1 & s2 & s3).
  exists r. split; [exact E|]. split; [exact w_layered1|]. split; [apply w_increasing1|]. split; [exact s0|]. split; [exact s1|].
  destruct (ze_partly_missing _ _ _ _ (fun _ => 0%R) wgap _ _ E w_layered1 0 0 0)%nat as (v & V & _ & M);
    try (simpl; lia); try apply w_increasing1; try (simpl; lra); try reflexivity; try (left; reflexivity).
  - intros. lra.
  - exists 1%nat. split; [simpl; lia|]. split; [rewrite s1; lra|reflexivity].
  - change (length (wz1 0)) with 4%nat in M. cbn [sumR] in M. rewrite s0, s1, s2, s3 in M. unfold wgap in M. cbn [Nat.eqb] in M.
    rewrite V. apply (f_equal XF). lra.
Qed.

Definition wdbz (l : nat) : R := if (l =? 0)%nat then 0 else 20.
Lemma w_decibels : exists r, regridded_ze 1 wfull wz1 (fun _ _ l => XF (wdbz l)) wnew1 = Ok r /\
  layered wnew1 /\ increasing (wz1 0) /\ shared (wz1 0) wnew1 0 0 = 1 /\ shared (wz1 0) wnew1 0 1 = 1 /\
  r 0%nat 0%nat 0%nat = XF 10 /\
  Rpower 10 (10 / 10) * sumR (shared (wz1 0) wnew1 0) 4
    <> sumR (fun l => shared (wz1 0) wnew1 0 l * Rpower 10 (wdbz l / 10)) 4.
Proof.
  destruct (w_ze (fun _ _ l => XF (wdbz l))) as [r E].
  destruct w_shares as (s0 & s1 & s2 & s3).
  exists r. split; [exact E|]. split; [exact w_layered1|]. split; [apply w_increasing1|]. split; [exact s0|]. split; [exact s1|].
  destruct (ze_mean _ _ _ _ wdbz _ _ E w_layered1 0 0 0)%nat as (v & V & _ & M);
    try (simpl; lia); try apply w_increasing1; try (simpl; lra); try reflexivity; try (left; reflexivity).
  - intros l. unfold wdbz. destruct (l =? 0)%nat; lra.
  - change (length (wz1 0)) with 4%nat in M. cbn [sumR] in M. rewrite s0, s1, s2, s3 in M. unfold wdbz in M. cbn in M.
    split; [rewrite V; apply (f_equal XF); lra|].
    cbn [sumR]. rewrite s0, s1, s2, s3. unfold wdbz. cbn [Nat.eqb].
    replace (10 / 10) with 1 by field. rewrite Rpower_1 by lra.
    replace (0 / 10) with 0 by field. rewrite Rpower_O by lra.
    replace (20 / 10) with (INR 2) by (simpl; field). rewrite Rpower_pow by lra. lra.
Qed.

(** Two subcolumns, one cloudy. *)
Definition wsr (i : nat) : xr := match i with 0 => XF 7 | 1 => XF 1 | _ => XNaN end%nat.
Lemma w_cf : number (fun i => exceeds (wsr i) 5) 3 1 /\ number (fun i => exceeds (wsr i) (1/100)) 3 2 /\
  lidar_CF 3 (fun i _ _ _ => wsr i) 0 0 0 = XF (1 / 2).
Proof.
  assert (N1 : number (fun i => exceeds (wsr i) 5) 3 1).
  { simpl. right. split; [intros [H|(r & E & _)]; discriminate|]. right.
    split; [intros [H|(r & E & h)]; [discriminate|injection E as <-; lra]|].
    left. split; [right; exists 7; split; [reflexivity|lra]|]. exists O. split; reflexivity. }
  assert (N2 : number (fun i => exceeds (wsr i) (1/100)) 3 2).
  { simpl. right. split; [intros [H|(r & E & _)]; discriminate|]. left.
    split; [right; exists 1; split; [reflexivity|lra]|]. exists 1%nat. split; [reflexivity|].
    left. split; [right; exists 7; split; [reflexivity|lra]|]. exists O. split; reflexivity. }
  split; [exact N1|]. split; [exact N2|].
  destruct (lidar_cf_spec 3 (fun i _ _ _ => wsr i) 0 0 0 1 2 N1 N2) as [_ H].
  destruct (H ltac:(discriminate)) as [E _]. rewrite E. apply (f_equal XF). simpl. lra.
Qed.

(** Edges 0, 10, 20; three subcolumns with 5, 15 and a missing value. *)
Definition wedges : list R := [0; 10; 20].
Definition wa (i _ : nat) : xr := match i with 0 => XF 5 | 1 => XF 15 | _ => XNaN end%nat.
Lemma w_edges : increasing wedges.
Proof. intros [|[|k]] h; simpl in *; try lia; lra. Qed.
Lemma w_in_range : number (fun i => in_bin (hd 0 wedges) (last wedges 0) (wa i 0)) 3 2.
Proof.
  simpl. right. split; [intros (r & E & _); discriminate|]. left.
  split; [exists 15; split; [reflexivity|lra]|]. exists 1%nat. split; [reflexivity|].
  left. split; [exists 5; split; [reflexivity|lra]|]. exists O. split; reflexivity.
Qed.
Lemma w_out_of_range : number (fun i => in_bin (hd 0 wedges) (last wedges 0) (XF (INR i + 100))) 3 0.
Proof.
  apply number_zero. intros i _ (r & E & h). injection E as <-. pose proof (pos_INR i). simpl in h. lra.
Qed.

(** A model surface at 1 km above the lowest new layer. *)
Definition wz2 : nat -> list R := fun _ => [1; 2; 3; 4].
Definition wnew2 : list (R * R) := [(0, 1); (1, 3)].
Lemma w_sr : exists r, calculate_SR 1 wfull wz2 (fun _ _ _ => XF 2) (fun _ _ _ => XF 1) wnew2 = Ok r /\
  snd (nth 0 wnew2 (0, 0)) <= nth 0 (wz2 0) 0.
Proof.
  assert (G : forall ze, exists r, regridded_ze 1 wfull wz2 ze wnew2 = Ok r).
  { intros ze. unfold regridded_ze.
    destruct (regrid_succeeds 1 wfull wz2 (fun t i l => num_undef (ze i t l)) wnew2 false) as [g E].
    - split; intros [|[|k]] h; simpl in *; try lia; lra.
    - intros i _. split; [intros [|[|[|k]]] h; simpl in *; try lia; lra|]. split; [simpl; lia|].
      intros [|[|k]] h; simpl in *; try lia; lra.
    - rewrite E. eexists. reflexivity. }
  destruct (G (fun _ _ _ => XF 2)) as [a A]. destruct (G (fun _ _ _ => XF 1)) as [b B].
  unfold calculate_SR. rewrite A. cbn [bind]. rewrite B. cbn [bind]. eexists. split; [reflexivity|]. simpl. lra.
Qed.
