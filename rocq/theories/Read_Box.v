(** The bounding box of WRF. *)
From Coq Require Import Lra.
From Verif Require Import Read_Spec Xds_Round Load_Facts Load_Crop Xds_Proofs Xds_Stack Xds_Fields Xr_Facts Read_Cut Read_Final.
Local Open Scope string_scope.
Local Open Scope list_scope.

Lemma argmin_from_ok (c : nat -> R) l : forall i best, best < i ->
  (forall j, j < length l -> nth j l XNaN = XF (c (i + j))) ->
  (forall j, j < i -> (c best <= c j)%R /\ (j < best -> (c best < c j)%R)) ->
  let k := argmin_from i best (XF (c best)) l in
  k < i + length l /\ forall j, j < i + length l -> (c k <= c j)%R /\ (j < k -> (c k < c j)%R).
Proof.
  induction l as [|b l IH]; intros i best B V H; cbn [argmin_from length].
  - rewrite Nat.add_0_r. split; [exact B|exact H].
  - assert (Eb : b = XF (c i)) by (specialize (V 0); simpl in V; rewrite Nat.add_0_r in V; apply V; lia).
    assert (V' : forall j, j < length l -> nth j l XNaN = XF (c (S i + j))).
    { intros j Hj. specialize (V (S j)). simpl in V. rewrite V by lia. f_equal. f_equal. lia. }
    rewrite Eb. rewrite Nat.add_succ_r, <- Nat.add_succ_l.
    destruct (xltb (XF (c i)) (XF (c best))) eqn:L.
    + apply xltb_fin in L. apply IH; [lia|exact V'|]. intros j Hj. destruct (Nat.eq_dec j i) as [->|N]; [split; [lra|lia]|].
      destruct (H j) as [H1 _]; [lia|]. split; [lra|intros _; lra].
    + apply xltb_fin_f in L. apply IH; [lia|exact V'|]. intros j Hj. destruct (Nat.eq_dec j i) as [->|N]; [split; [lra|lia]|].
      apply H. lia.
Qed.
Lemma nearest_ok (c : nat -> R) n b l : 0 < n -> length l = n -> (forall j, j < n -> nth j l XNaN = XF (c j)) ->
  exists i, nearest (XF b) l = Ok i /\ closest c n b i.
Proof.
  intros P L V. unfold nearest. destruct l as [|a l]; [simpl in L; lia|]. cbn [map argmin]. simpl in L.
  assert (Ea : a = XF (c 0)) by (apply (V 0); lia). subst a.
  set (g := fun j => Rabs (b - c j)).
  assert (X : forall j, xabs (xsub (XF b) (XF (c j))) = XF (g j)) by (intro j; unfold g; simpl; f_equal; f_equal; lra).
  rewrite X.
  pose proof (argmin_from_ok g (map (fun a => xabs (xsub (XF b) a)) l) 1 0) as H.
  rewrite map_length in H. eexists. split; [reflexivity|]. unfold closest. rewrite <- L.
  apply H; [lia| |intros j Hj; assert (j = 0) by lia; subst j; split; [apply Rle_refl|lia]].
  intros j Hj. rewrite (nth_indep _ XNaN (xabs (xsub (XF b) XNaN))) by (rewrite map_length; exact Hj).
  rewrite map_nth with (f := fun a => xabs (xsub (XF b) a)).
  specialize (V (S j)). simpl in V. rewrite V by lia. apply X.
Qed.

Lemma mean_const (f : nat -> xr) n r : 0 < n -> (forall t, t < n -> f t = XF r) -> mean (map f (seq 0 n)) = XF r.
Proof.
  intros P H. unfold mean. rewrite map_length, seq_length.
  assert (S : forall k a q, a + k <= n -> fold_left xadd (map f (seq a k)) (XF q) = XF (q + INR k * r)).
  { induction k as [|k IH]; intros a q L; [simpl; f_equal; lra|]. cbn [seq map fold_left]. rewrite H by lia.
    change (xadd (XF q) (XF r)) with (XF (q + r)). rewrite IH by lia. f_equal. rewrite S_INR. lra. }
  rewrite (S n 0 0%R) by lia. assert (N : INR n <> 0%R) by (apply not_0_INR; lia).
  rewrite (xdiv_fin _ _ N). f_equal. field. exact N.
Qed.
Lemma nan_const (g : xr -> xr -> bool) (f : nat -> xr) n r : (g (XF r) (XF r) = false) -> 0 < n -> (forall t, t < n -> f t = XF r) ->
  nanfold g (map f (seq 0 n)) = XF r.
Proof.
  intros G P H. unfold nanfold. destruct n as [|n]; [lia|]. cbn [seq map fold_left]. rewrite H by lia. cbn [isnan].
  assert (S : forall k a, a + k <= S n -> fold_left (fun a x => if isnan x then a else if isnan a then x else if g x a then x else a)
     (map f (seq a k)) (XF r) = XF r).
  { induction k as [|k IH]; intros a L; [reflexivity|]. cbn [seq map fold_left]. rewrite H by lia. cbn [isnan]. rewrite G.
    apply IH. lia. }
  apply S. lia.
Qed.
Lemma nth_map_seq {A} (f : nat -> A) n j d : j < n -> nth j (map f (seq 0 n)) d = f j.
Proof.
  intro H. rewrite (nth_indep _ d (f 0)) by (rewrite map_length, seq_length; exact H).
  rewrite map_nth, seq_nth by exact H. reflexivity.
Qed.

Section Box.
Variables (m : mobj) (lat lon : nat -> R) (la lo : var) (ny nx nt : nat).
Hypotheses (A1 : getv (mds m) "XLAT" = Ok la) (A2 : getv (mds m) "XLONG" = Ok lo)
  (S1 : shape (mds m) la = [nt; ny; nx]) (S2 : shape (mds m) lo = [nt; ny; nx])
  (P1 : 0 < nt) (P2 : 0 < ny) (P3 : 0 < nx)
  (V : forall t j i, t < nt -> j < ny -> i < nx -> vat la [t; j; i] = XF (lat j) /\ vat lo [t; j; i] = XF (lon i)).
Lemma box_ok b0 b1 b2 b3 : exists i0 i1 i2 i3,
  crop_box m "XLAT" "XLONG" (XF b0, XF b1, XF b2, XF b3) =
    Ok (cuts m [(lat_dim m, span i0 i2); (lon_dim m, span i1 i3)]) /\
  closest lat ny b0 i0 /\ closest lat ny b2 i2 /\ closest lon nx b1 i1 /\ closest lon nx b3 i3.
Proof.
  assert (Irr : forall r, xltb (XF r) (XF r) = false) by (intro r; apply xltb_fin_f; lra).
  assert (R1 : forall red g, red = nanfold g -> (forall r, g (XF r) (XF r) = false) -> forall j, j < ny ->
     mean (map (fun t => red (map (fun i => vat la [t; j; i]) (seq 0 nx))) (seq 0 nt)) = XF (lat j)).
  { intros red g -> G j Hj. apply mean_const; [exact P1|]. intros t Ht. apply nan_const; [apply G|exact P3|].
    intros i Hi. apply V; assumption. }
  assert (R2 : forall red g, red = nanfold g -> (forall r, g (XF r) (XF r) = false) -> forall i, i < nx ->
     mean (map (fun t => red (map (fun j => vat lo [t; j; i]) (seq 0 ny))) (seq 0 nt)) = XF (lon i)).
  { intros red g -> G i Hi. apply mean_const; [exact P1|]. intros t Ht. apply nan_const; [apply G|exact P2|].
    intros j Hj. apply V; assumption. }
  unfold crop_box. rewrite A1. cbn [bind]. rewrite A2. cbn [bind]. rewrite S1, S2.
  edestruct (nearest_ok lat ny b0) as (i0 & E0 & C0); [exact P2| | |rewrite E0].
  { rewrite map_length. apply seq_length. }
  { intros j Hj. rewrite nth_map_seq by exact Hj. eapply R1; [reflexivity|exact Irr|exact Hj]. }
  cbn [bind].
  edestruct (nearest_ok lat ny b2) as (i2 & E2 & C2); [exact P2| | |rewrite E2].
  { rewrite map_length. apply seq_length. }
  { intros j Hj. rewrite nth_map_seq by exact Hj. eapply R1; [reflexivity|exact Irr|exact Hj]. }
  cbn [bind].
  edestruct (nearest_ok lon nx b1) as (i1 & E1 & C1); [exact P3| | |rewrite E1].
  { rewrite map_length. apply seq_length. }
  { intros j Hj. rewrite nth_map_seq by exact Hj. eapply R2; [reflexivity|exact Irr|exact Hj]. }
  cbn [bind].
  edestruct (nearest_ok lon nx b3) as (i3 & E3 & C3); [exact P3| | |rewrite E3].
  { rewrite map_length. apply seq_length. }
  { intros j Hj. rewrite nth_map_seq by exact Hj. eapply R2; [reflexivity|exact Irr|exact Hj]. }
  exists i0, i1, i2, i3. split; [reflexivity|]. auto.
Qed.
End Box.

Lemma closest_unique c n b i j : closest c n b i -> closest c n b j -> i = j.
Proof.
  intros (A & B) (C & D). destruct (Nat.lt_trichotomy i j) as [H|[H|H]]; [|exact H|].
  - destruct (D i A) as [_ Q]. specialize (Q H). destruct (B j C) as [Q' _]. exfalso. lra.
  - destruct (B j C) as [_ Q]. specialize (Q H). destruct (D i A) as [Q' _]. exfalso. lra.
Qed.

(** On increasing coordinates: what lies inside is kept, but for the row closest to the upper edge. *)
Lemma box_inside c n lo hi i0 i2 : (forall i j, i < j < n -> (c i < c j)%R) -> (lo <= hi)%R ->
  closest c n lo i0 -> closest c n hi i2 ->
  (forall j, j < n -> (lo <= c j <= hi)%R -> j <> i2 -> i0 <= j < i2) /\
  (forall j, i0 <= j < i2 -> j = i0 \/ (lo < c j < hi)%R).
Proof.
  intros M L (A1 & A2) (B1 & B2). split.
  - intros j Hj (C1 & C2) N. split.
    + destruct (Nat.le_gt_cases i0 j) as [|Q]; [assumption|exfalso]. assert (c j < c i0)%R by (apply M; lia).
      destruct (A2 j Hj) as [W _]. rewrite !Rabs_left1 in W by lra. lra.
    + destruct (Nat.le_gt_cases j i2) as [|Q]; [lia|exfalso]. assert (c i2 < c j)%R by (apply M; lia).
      destruct (B2 j Hj) as [W _]. rewrite !Rabs_pos_eq in W by lra. lra.
  - intros j (C1 & C2). destruct (Nat.eq_dec j i0) as [|N]; [left; assumption|right].
    assert (c i0 < c j)%R by (apply M; lia). assert (c j < c i2)%R by (apply M; lia). split.
    + destruct (Rle_or_lt (c j) lo) as [Q|Q]; [exfalso|exact Q]. destruct (A2 j) as [W _]; [lia|].
      rewrite !Rabs_pos_eq in W by lra. lra.
    + destruct (Rle_or_lt hi (c j)) as [Q|Q]; [exfalso|exact Q]. destruct (B2 j) as [W _]; [lia|].
      rewrite !Rabs_left1 in W by lra. lra.
Qed.
