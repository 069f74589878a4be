(** Success of the regridding, half levels, missing values, counts. *)
From Verif Require Import Np Xr Xr_Facts Mom_Spec Stat_Model Stat_Spec Stat_Facts.
Local Open Scope R_scope.

Lemma scan_err nb nt ls : forall lev e, scan nb nt lev ls = Raise e -> e = IndexError.
Proof.
  induction ls as [|[b t] ls IH]; intros lev e H; cbn [scan] in H; [congruence|].
  destruct (Rle_dec _ _); [discriminate|]. destruct (scan nb nt (S lev) ls) eqn:E; [discriminate|].
  injection H as <-. apply (IH _ _ E).
Qed.
Lemma scans_err old new : forall start e, scans old start new = Raise e -> e = IndexError.
Proof.
  induction new as [|[nb nt] new IH]; intros start e H; cbn [scans] in H; [discriminate|].
  destruct (scan nb nt start _) as [x|] eqn:E; [|injection H as <-; apply (scan_err _ _ _ _ _ E)].
  cbn [bind] in H. destruct (scans old _ new) eqn:E'; [discriminate|].
  injection H as <-. apply (IH _ _ E').
Qed.
Lemma mapM_err {A B} (f : A -> res B) x : (forall a e, f a = Raise e -> e = x) -> forall l e, mapM f l = Raise e -> e = x.
Proof.
  intros hf. induction l as [|a l IH]; intros e H; simpl in H; [discriminate|].
  destruct (f a) eqn:E; [|injection H as <-; apply (hf _ _ E)]. simpl in H.
  destruct (mapM f l) eqn:E'; [discriminate|]. injection H as <-. apply IH. reflexivity.
Qed.
Lemma mapM_ok {A B} (f : A -> res B) l : (forall a, In a l -> exists b, f a = Ok b) -> exists r, mapM f l = Ok r.
Proof.
  induction l as [|a l IH]; intros h; [exists []; reflexivity|].
  destruct (h a (or_introl eq_refl)) as [b E]. destruct IH as [r E']; [intros; apply h; right; assumption|].
  exists (b :: r). simpl. rewrite E. simpl. rewrite E'. reflexivity.
Qed.

Lemma scan_ok nb nt ls : forall lev p, (p < length ls)%nat -> nt <= fst (nth p ls (0, 0)) -> exists x, scan nb nt lev ls = Ok x.
Proof.
  induction ls as [|[b t] ls IH]; intros lev p hp h; [simpl in hp; lia|]. cbn [scan].
  destruct (Rle_dec 0 (b - nt)) as [d|d]; [eexists; reflexivity|].
  destruct p as [|p]; [simpl in h; lra|].
  destruct (IH (S lev) p) as [x E]; [simpl in hp; lia|exact h|]. rewrite E. eexists. reflexivity.
Qed.

Lemma scans_ok zfull zhalf : increasing zhalf -> (2 <= length zhalf)%nat -> forall new start,
  layered new -> (start < length zhalf)%nat ->
  (forall k, (k < length new)%nat -> snd (nth k new (0, 0)) <= nth (length zhalf - 1) zhalf 0) ->
  exists wss, scans (old_grid zfull zhalf) start new = Ok wss.
Proof.
  intros hz hN. induction new as [|[nb nt] new IH]; intros start hl hs ht; [eexists; reflexivity|].
  cbn [scans].
  assert (hn : nb < nt) by (apply (proj1 hl O); simpl; lia).
  assert (hl' : layered new).
  { destruct hl as [a b]. split.
    - intros q hq. apply (a (S q)). simpl; lia.
    - intros q hq. apply (b (S q)). simpl; lia. }
  assert (len : length (skipn start (old_grid zfull zhalf)) = (length zhalf - start)%nat)
    by (rewrite skipn_length, old_length; reflexivity).
  destruct (scan_ok nb nt (skipn start (old_grid zfull zhalf)) start (length zhalf - 1 - start)) as [[ws l] E].
  - rewrite len. lia.
  - rewrite nth_skipn'. replace (start + (length zhalf - 1 - start))%nat with (length zhalf - 1)%nat by lia.
    rewrite old_bottom by lia. apply (ht O). simpl; lia.
  - destruct (scan_grid zfull zhalf nb nt start ws l hz hn E) as (h1 & h2 & _).
    rewrite E. cbn [bind fst snd].
    destruct (IH (S (if (l <? 3)%nat then 0 else (l - 2))%nat)) as [wss E']; [exact hl'| | |].
    + destruct (l <? 3)%nat eqn:C; [|apply Nat.ltb_ge in C]; lia.
    + intros k hk. apply (ht (S k)). simpl; lia.
    + rewrite E'. eexists. reflexivity.
Qed.

Lemma regrid_succeeds np zfull zhalf y new lunits : layered new ->
  (forall i, (i < np)%nat -> increasing (zhalf i) /\ (2 <= length (zhalf i))%nat /\
     forall k, (k < length new)%nat -> snd (nth k new (0, 0)) <= nth (length (zhalf i) - 1) (zhalf i) 0) ->
  exists r, change_grid np zfull zhalf y new lunits = Ok r.
Proof.
  intros hl h. unfold change_grid.
  destruct (mapM_ok (fun i => scans (old_grid (zfull i) (zhalf i)) 0 new) (seq 0 np)) as [ws E].
  - intros i hi. apply in_seq in hi. destruct (h i ltac:(lia)) as (a & b & c).
    apply scans_ok; auto. lia.
  - rewrite E. eexists. reflexivity.
Qed.

Lemma regrid_too_high np zfull zhalf y new lunits i k : layered new ->
  (i < np)%nat -> increasing (zhalf i) -> (k < length new)%nat ->
  (forall l, (l < length (zhalf i))%nat -> nth l (zhalf i) 0 < snd (nth k new (0, 0))) ->
  change_grid np zfull zhalf y new lunits = Raise IndexError.
Proof.
  intros hl hi hz hk h. destruct (change_grid np zfull zhalf y new lunits) as [r|e] eqn:E.
  - destruct (grid_inv _ _ _ _ _ _ _ E hl i hi hz k hk) as (_ & _ & (l & h1 & h2) & _).
    specialize (h l h1). lra.
  - unfold change_grid in E. destruct (mapM _ (seq 0 np)) as [ws|e'] eqn:E'; [discriminate|].
    injection E as <-. f_equal. apply (mapM_err _ IndexError (fun a e => scans_err _ _ _ e) _ _ E').
Qed.

(** Averaging in linear units. *)
Lemma yp_linear y : yp true y = linear y.
Proof. unfold yp, linear, Reqb, R_UNDEF. destruct (Req_EM_T y (- 10 ^ 30)); reflexivity. Qed.

Lemma regrid_linear np zfull zhalf y new r : change_grid np zfull zhalf y new true = Ok r ->
  layered new -> forall i j k, (i < np)%nat -> increasing (zhalf i) -> (k < length new)%nat ->
  nth 0 (zhalf i) 0 < snd (nth k new (0, 0)) ->
  (k = O \/ shared (zhalf i) new k 0 = 0) ->
  exists m, m * sumR (shared (zhalf i) new k) (length (zhalf i))
    = sumR (fun l => shared (zhalf i) new k l * linear (y i j l)) (length (zhalf i)) /\
  (0 < m -> r i j k = 10 * log10 m) /\ (m <= 0 -> r i j k = - 10 ^ 30).
Proof.
  intros H hl i j k hi hz hk hg hb.
  destruct (grid_inv _ _ _ _ _ _ _ H hl i hi hz k hk) as (ws & E & (l & hl1 & hl2) & S1 & _).
  assert (hn : fst (nth k new (0, 0)) < snd (nth k new (0, 0))) by (apply hl; exact hk).
  destruct (shared_total _ new k l hz hn hg hl1 hl2) as (p & hp1 & hp2).
  assert (pos : 0 < sumR (shared (zhalf i) new k) (length (zhalf i))).
  { apply (sumR_pos _ _ p); [intros; apply overlap_nonneg|lia|exact hp2]. }
  assert (U : forall f, wsum ws f = sumR (fun l => shared (zhalf i) new k l * f l) (length (zhalf i))).
  { intros f. rewrite S1.
    apply (sumR_from (fun l => shared (zhalf i) new k l * f l)); [destruct k; simpl; lia|lia|].
    intros u. destruct hb as [->|hb]; [discriminate|]. rewrite hb. ring. }
  assert (W : wsum ws (fun _ => 1) = sumR (shared (zhalf i) new k) (length (zhalf i))).
  { rewrite U. apply sumR_eq. intros; ring. }
  exists (wmean true ws (y i j)).
  assert (M : wmean true ws (y i j) = wmean false ws (fun l => yp true (y i j l))).
  { unfold wmean. reflexivity. }
  split; [|split].
  - rewrite M, <- W, wmean_sum by lra. rewrite U. apply sumR_eq. intros. rewrite yp_linear. reflexivity.
  - intros hm. rewrite E. unfold flagged. destruct (Rlt_dec _ _); [|contradiction].
    destruct (Rle_dec _ _); [lra|reflexivity].
  - intros hm. rewrite E. unfold flagged. destruct (Rlt_dec _ _); [|contradiction].
    destruct (Rle_dec _ _); [reflexivity|lra].
Qed.

(** *** Half levels *)
Lemma midpoints_length z : length (midpoints z) = (length z - 1)%nat.
Proof. induction z as [|a [|b z] IH]; [reflexivity|reflexivity|]. cbn [midpoints length] in *. lia. Qed.
Lemma midpoints_nth z p : (S p < length z)%nat -> nth p (midpoints z) 0 = (nth p z 0 + nth (S p) z 0) / 2.
Proof.
  revert p. induction z as [|a [|b z] IH]; intros p hp; [simpl in hp; lia|simpl in hp; lia|].
  destruct p as [|p]; [simpl; field|]. change (nth (S p) (midpoints (a :: b :: z)) 0) with (nth p (midpoints (b :: z)) 0).
  rewrite IH by (simpl in *; lia). reflexivity.
Qed.
Lemma half_levels_nth z p : (S p < length z)%nat -> nth p (half_levels z) 0 = (nth p z 0 + nth (S p) z 0) / 2.
Proof.
  intros h. unfold half_levels. rewrite app_nth1 by (rewrite midpoints_length; lia). apply midpoints_nth; exact h.
Qed.
Lemma half_levels_length z : z <> [] -> length (half_levels z) = length z.
Proof. intros h. unfold half_levels. rewrite app_length, midpoints_length. destruct z; [contradiction|]. simpl. lia. Qed.
Lemma half_levels_above z p : increasing z -> (S p < length z)%nat -> nth p z 0 < nth p (half_levels z) 0.
Proof. intros h hp. rewrite half_levels_nth by exact hp. specialize (h p hp). lra. Qed.
Lemma last_nth' (z : list R) d : z <> [] -> last z d = nth (length z - 1) z d.
Proof.
  induction z as [|a [|b z] IH]; intros h; [contradiction|reflexivity|].
  cbn [last length] in *. rewrite IH by discriminate. simpl. rewrite Nat.sub_0_r. reflexivity.
Qed.
Lemma half_levels_increasing z : increasing z -> increasing (half_levels z).
Proof.
  intros h k hk. destruct z as [|a z0]; [simpl in hk; lia|]. set (z := a :: z0) in *.
  assert (zn : z <> []) by (unfold z; discriminate). clearbody z.
  rewrite half_levels_length in hk by exact zn.
  rewrite (half_levels_nth z k) by exact hk.
  destruct (Nat.eq_dec (S (S k)) (length z)) as [e|e].
  - unfold half_levels. rewrite app_nth2; rewrite midpoints_length; [|lia].
    replace (S k - (length z - 1))%nat with 0%nat by lia.
    change (nth 0 [last z 0] 0) with (last z 0).
    rewrite last_nth' by exact zn. replace (length z - 1)%nat with (S k) by lia.
    specialize (h k hk). lra.
  - rewrite half_levels_nth by lia. pose proof (h k hk). pose proof (h (S k) ltac:(lia)). lra.
Qed.

(** *** Missing values *)
Lemma ze_inv nt zfull zhalf ze new r : regridded_ze nt zfull zhalf ze new = Ok r ->
  exists g, change_grid nt zfull zhalf (fun t i l => num_undef (ze i t l)) new false = Ok g /\
    forall i t k, r i t k = undef_nan (g t i k).
Proof.
  unfold regridded_ze. destruct (change_grid _ _ _ _ _ _) as [g|]; [|discriminate].
  cbn [bind]. intros H. injection H as <-. exists g. split; reflexivity.
Qed.
Lemma ground_kept : undef_nan (- 10 ^ 20) = XF (- 10 ^ 20).
Proof. unfold undef_nan, Reqb, R_UNDEF. destruct (Req_EM_T _ _) as [e|e]; [exfalso; lra|reflexivity]. Qed.

Lemma sr_ground nt zfull zhalf tot mol new r : calculate_SR nt zfull zhalf tot mol new = Ok r ->
  forall i t k, snd (nth k new (0, 0)) <= nth 0 (zhalf t) 0 -> r i t k = XF 1.
Proof.
  unfold calculate_SR. intros H i t k h.
  destruct (regridded_ze nt zfull zhalf tot new) as [a|] eqn:Ea; [|discriminate]. cbn [bind] in H.
  destruct (regridded_ze nt zfull zhalf mol new) as [b|] eqn:Eb; [|discriminate]. cbn [bind] in H.
  injection H as <-. apply ze_inv in Ea. apply ze_inv in Eb.
  destruct Ea as (g & Eg & A), Eb as (g' & Eg' & B).
  rewrite A, B, (regrid_ground _ _ _ _ _ _ _ Eg t i k h), (regrid_ground _ _ _ _ _ _ _ Eg' t i k h), ground_kept.
  rewrite xdiv_fin by lra. apply (f_equal XF). field.
Qed.

Lemma ze_all_missing nt zfull zhalf ze new r : regridded_ze nt zfull zhalf ze new = Ok r ->
  layered new -> forall i t k, (t < nt)%nat -> increasing (zhalf t) -> (k < length new)%nat ->
  nth 0 (zhalf t) 0 < snd (nth k new (0, 0)) -> (k = O \/ shared (zhalf t) new k 0 = 0) ->
  (forall l, 0 < shared (zhalf t) new k l -> ze i t l = XNaN) ->
  r i t k = XNaN.
Proof.
  intros H hl i t k ht hz hk hg hb hm. apply ze_inv in H. destruct H as (g & Eg & A). rewrite A.
  assert (B : R_UNDEF <= g t i k <= R_UNDEF).
  { apply (regrid_between _ _ _ _ _ _ Eg hl t i k ht hz hk hg hb). intros l _ h. rewrite (hm l h). simpl. lra. }
  replace (g t i k) with R_UNDEF by lra. unfold undef_nan, Reqb. destruct (Req_EM_T R_UNDEF R_UNDEF); [reflexivity|contradiction].
Qed.

(** *** Decibels *)
Lemma ze_mean_gen nt zfull zhalf ze new r : regridded_ze nt zfull zhalf ze new = Ok r ->
  layered new -> forall i t k, (t < nt)%nat -> increasing (zhalf t) -> (k < length new)%nat ->
  nth 0 (zhalf t) 0 < snd (nth k new (0, 0)) -> (k = O \/ shared (zhalf t) new k 0 = 0) ->
  (forall l, - 10 ^ 30 <= num_undef (ze i t l)) ->
  (exists l, 0 < shared (zhalf t) new k l /\ (S l < length (zhalf t))%nat /\ - 10 ^ 30 < num_undef (ze i t l)) ->
  exists v, r i t k = XF v /\ 0 < sumR (shared (zhalf t) new k) (length (zhalf t)) /\
    v * sumR (shared (zhalf t) new k) (length (zhalf t))
      = sumR (fun l => shared (zhalf t) new k l * num_undef (ze i t l)) (length (zhalf t)).
Proof.
  intros H hl i t k ht hz hk hg hb hd (p & p2 & p1 & p3). apply ze_inv in H. destruct H as (g & Eg & A).
  destruct (regrid_mean _ _ _ _ _ _ Eg hl t i k ht hz hk hg hb) as [pos E].
  exists (g t i k). split; [|split; [exact pos|exact E]].
  rewrite A. unfold undef_nan, Reqb. destruct (Req_EM_T (g t i k) R_UNDEF) as [e|e]; [exfalso|reflexivity].
  rewrite e in E. unfold R_UNDEF in E.
  assert (Z : sumR (fun l => shared (zhalf t) new k l * (num_undef (ze i t l) + 10 ^ 30)) (length (zhalf t)) = 0).
  { rewrite (sumR_eq _ (fun l => shared (zhalf t) new k l * num_undef (ze i t l) + shared (zhalf t) new k l * 10 ^ 30)) by (intros; ring).
    assert (SP : forall f h n, sumR (fun l => f l + h l) n = sumR f n + sumR h n).
    { intros f h n. induction n as [|n IH]; simpl; [ring|]. rewrite IH. ring. }
    rewrite SP, <- E, sumR_scal. ring. }
  assert (0 < sumR (fun l => shared (zhalf t) new k l * (num_undef (ze i t l) + 10 ^ 30)) (length (zhalf t))); [|lra].
  apply (sumR_pos _ _ p).
  - intros q _. apply Rmult_le_pos; [apply overlap_nonneg|]. specialize (hd q). lra.
  - lia.
  - apply Rmult_lt_0_compat; [exact p2|]. lra.
Qed.

Lemma ze_mean nt zfull zhalf ze dbz new r : regridded_ze nt zfull zhalf ze new = Ok r ->
  layered new -> forall i t k, (t < nt)%nat -> increasing (zhalf t) -> (k < length new)%nat ->
  nth 0 (zhalf t) 0 < snd (nth k new (0, 0)) -> (k = O \/ shared (zhalf t) new k 0 = 0) ->
  (forall l, ze i t l = XF (dbz l)) -> (forall l, - 10 ^ 30 < dbz l) ->
  exists v, r i t k = XF v /\ 0 < sumR (shared (zhalf t) new k) (length (zhalf t)) /\
    v * sumR (shared (zhalf t) new k) (length (zhalf t)) = sumR (fun l => shared (zhalf t) new k l * dbz l) (length (zhalf t)).
Proof.
  intros H hl i t k ht hz hk hg hb hv hd.
  destruct (ze_mean_gen _ _ _ _ _ _ H hl i t k ht hz hk hg hb) as (v & E & pos & M).
  - intros l. rewrite hv. simpl. left. apply hd.
  - apply ze_inv in H. destruct H as (g & Eg & A).
    destruct (grid_inv _ _ _ _ _ _ _ Eg hl t ht hz k hk) as (_ & _ & (l & h1 & h2) & _).
    assert (hn : fst (nth k new (0, 0)) < snd (nth k new (0, 0))) by (apply hl; exact hk).
    destruct (shared_total _ new k l hz hn hg h1 h2) as (p & a & b). exists p. split; [exact b|]. split; [exact a|].
    rewrite hv. apply hd.
  - exists v. split; [exact E|]. split; [exact pos|]. rewrite M. apply sumR_eq. intros l _. rewrite hv. reflexivity.
Qed.

Lemma jensen (w y : nat -> R) n v : (forall l, (l < n)%nat -> 0 <= w l) ->
  v * sumR w n = sumR (fun l => w l * y l) n ->
  Rpower 10 (v / 10) * sumR w n <= sumR (fun l => w l * Rpower 10 (y l / 10)) n.
Proof.
  intros hw E.
  set (c := ln 10 / 10). set (g := Rpower 10 (v / 10)).
  assert (T : forall x, g * (1 + c * (x - v)) <= Rpower 10 (x / 10)).
  { intros x. unfold g, Rpower. replace (x / 10 * ln 10) with (v / 10 * ln 10 + c * (x - v)) by (unfold c; field).
    rewrite exp_plus. apply Rmult_le_compat_l; [left; apply exp_pos|]. apply exp_ineq1_le. }
  assert (L : sumR (fun l => w l * (g * (1 + c * (y l - v)))) n = g * sumR w n + g * c * (sumR (fun l => w l * y l) n - v * sumR w n)).
  { clear E hw. induction n as [|n IH]; simpl; [ring|]. rewrite IH. ring. }
  rewrite E in L. replace (sumR (fun l => w l * y l) n - sumR (fun l => w l * y l) n) with 0 in L by ring.
  rewrite Rmult_0_r, Rplus_0_r in L. rewrite <- L.
  apply sumR_le. intros p hp. apply Rmult_le_compat_l; [apply hw; exact hp|apply T].
Qed.

Lemma ze_below_linear nt zfull zhalf ze dbz new r : regridded_ze nt zfull zhalf ze new = Ok r ->
  layered new -> forall i t k, (t < nt)%nat -> increasing (zhalf t) -> (k < length new)%nat ->
  nth 0 (zhalf t) 0 < snd (nth k new (0, 0)) -> (k = O \/ shared (zhalf t) new k 0 = 0) ->
  (forall l, ze i t l = XF (dbz l)) -> (forall l, - 10 ^ 30 < dbz l) ->
  exists v, r i t k = XF v /\
    v * sumR (shared (zhalf t) new k) (length (zhalf t)) = sumR (fun l => shared (zhalf t) new k l * dbz l) (length (zhalf t)) /\
    Rpower 10 (v / 10) * sumR (shared (zhalf t) new k) (length (zhalf t))
      <= sumR (fun l => shared (zhalf t) new k l * Rpower 10 (dbz l / 10)) (length (zhalf t)).
Proof.
  intros H hl i t k ht hz hk hg hb hv hd.
  destruct (ze_mean _ _ _ _ dbz _ _ H hl i t k ht hz hk hg hb hv hd) as (v & E & pos & M).
  exists v. split; [exact E|]. split; [exact M|]. apply jensen; [|exact M]. intros; apply overlap_nonneg.
Qed.

(** A layer with missing and other values is neither missing nor sensible. *)
Lemma ze_partly_missing nt zfull zhalf ze (dbz : nat -> R) (gap : nat -> bool) new r :
  regridded_ze nt zfull zhalf ze new = Ok r ->
  layered new -> forall i t k, (t < nt)%nat -> increasing (zhalf t) -> (k < length new)%nat ->
  nth 0 (zhalf t) 0 < snd (nth k new (0, 0)) -> (k = O \/ shared (zhalf t) new k 0 = 0) ->
  (forall l, ze i t l = if gap l then XNaN else XF (dbz l)) -> (forall l, - 10 ^ 30 < dbz l) ->
  (exists l, (S l < length (zhalf t))%nat /\ 0 < shared (zhalf t) new k l /\ gap l = false) ->
  exists v, r i t k = XF v /\ 0 < sumR (shared (zhalf t) new k) (length (zhalf t)) /\
    v * sumR (shared (zhalf t) new k) (length (zhalf t))
      = sumR (fun l => shared (zhalf t) new k l * (if gap l then - 10 ^ 30 else dbz l)) (length (zhalf t)).
Proof.
  intros H hl i t k ht hz hk hg hb hv hd (l & l1 & l2 & l3).
  assert (hv' : forall q, num_undef (ze i t q) = if gap q then - 10 ^ 30 else dbz q).
  { intros q. rewrite hv. destruct (gap q); reflexivity. }
  destruct (ze_mean_gen _ _ _ _ _ _ H hl i t k ht hz hk hg hb) as (v & E & pos & M).
  - intros q. rewrite hv'. destruct (gap q); [lra|left; apply hd].
  - exists l. split; [exact l2|]. split; [exact l1|]. rewrite hv', l3. apply hd.
  - exists v. split; [exact E|]. split; [exact pos|]. rewrite M. apply sumR_eq. intros q _. rewrite hv'. reflexivity.
Qed.

Lemma sumR_pos_weighted (w f : nat -> R) n : (forall l, 0 <= w l) -> (forall l, 0 < f l) -> 0 < sumR w n ->
  0 < sumR (fun l => w l * f l) n.
Proof.
  intros hw hf. induction n as [|n IH]; simpl; intro H; [lra|].
  assert (P : 0 <= sumR (fun l => w l * f l) n).
  { clear - hw hf. induction n as [|n IH]; simpl; [lra|]. assert (0 <= w n * f n) by (apply Rmult_le_pos; [apply hw|left; apply hf]). lra. }
  destruct (hw n) as [G|G].
  - assert (0 < w n * f n) by (apply Rmult_lt_0_compat; [exact G|apply hf]). lra.
  - rewrite <- G in *. rewrite Rmult_0_l. assert (0 < sumR w n) by lra. specialize (IH H0). lra.
Qed.
(** The scattering ratio of a layer is the ratio of the mean signals. *)
Lemma sr_ratio nt zfull zhalf tot mol (T M : nat -> R) new r : calculate_SR nt zfull zhalf tot mol new = Ok r ->
  layered new -> forall i t k, (t < nt)%nat -> increasing (zhalf t) -> (k < length new)%nat ->
  nth 0 (zhalf t) 0 < snd (nth k new (0, 0)) -> (k = O \/ shared (zhalf t) new k 0 = 0) ->
  (forall l, tot i t l = XF (T l)) -> (forall l, mol i t l = XF (M l)) ->
  (forall l, - 10 ^ 30 < T l) -> (forall l, 0 < M l) ->
  exists v, r i t k = XF v /\ 0 < sumR (fun l => shared (zhalf t) new k l * M l) (length (zhalf t)) /\
    v * sumR (fun l => shared (zhalf t) new k l * M l) (length (zhalf t))
      = sumR (fun l => shared (zhalf t) new k l * T l) (length (zhalf t)).
Proof.
  unfold calculate_SR. intros H hl i t k ht hz hk hg hb hT hM pT pM.
  destruct (regridded_ze nt zfull zhalf tot new) as [a|] eqn:Ea; [|discriminate]. cbn [bind] in H.
  destruct (regridded_ze nt zfull zhalf mol new) as [b|] eqn:Eb; [|discriminate]. cbn [bind] in H.
  injection H as <-.
  assert (pM' : forall l, - 10 ^ 30 < M l) by (intro l; specialize (pM l); lra).
  destruct (ze_mean _ _ _ _ T _ _ Ea hl i t k ht hz hk hg hb hT pT) as (v & E & pos & MV).
  destruct (ze_mean _ _ _ _ M _ _ Eb hl i t k ht hz hk hg hb hM pM') as (w & E' & _ & MW).
  set (W := sumR (shared (zhalf t) new k) (length (zhalf t))) in *.
  assert (PW : 0 < sumR (fun l => shared (zhalf t) new k l * M l) (length (zhalf t))).
  { apply sumR_pos_weighted; [intro; apply overlap_nonneg|exact pM|exact pos]. }
  assert (Pw : 0 < w) by (rewrite <- MW in PW; apply Rmult_lt_reg_r with W; [exact pos|rewrite Rmult_0_l; exact PW]).
  exists (v / w). rewrite E, E'. split; [apply xdiv_fin; lra|]. split; [exact PW|].
  rewrite <- MW, <- MV. field. lra.
Qed.
