(** Optical depth, extinction mask and molecular transmittance profiles. *)
From Verif Require Import Mom_Base Mom_Spec Mom_Facts Xr_Facts Atm_Model Lidar_Model Lidar_Spec.
Local Open Scope R_scope.

(** *** Sums *)
Lemma sumR_ext f g n : (forall j, (j < n)%nat -> f j = g j) -> sumR f n = sumR g n.
Proof. induction n as [|n IH]; intro H; simpl; [reflexivity|]. rewrite IH, H by auto. reflexivity. Qed.
Lemma sumR_shift f n : sumR f (S n) = f O + sumR (fun j => f (S j)) n.
Proof. induction n as [|n IH]; simpl in *; [ring|]. rewrite IH. ring. Qed.
Lemma sumR_nonneg f n : (forall j, (j < n)%nat -> 0 <= f j) -> 0 <= sumR f n.
Proof.
  induction n as [|n IH]; intro H; simpl; [lra|].
  assert (0 <= sumR f n) by (apply IH; auto). assert (0 <= f n) by auto. lra.
Qed.
Lemma sumR_le f n m : (n <= m)%nat -> (forall j, (n <= j < m)%nat -> 0 <= f j) -> sumR f n <= sumR f m.
Proof.
  induction 1 as [|m Hm IH]; intro H; [lra|]. simpl.
  assert (sumR f n <= sumR f m) by (apply IH; intros; apply H; lia).
  assert (0 <= f m) by (apply H; lia). lra.
Qed.

(** *** Profiles *)
Lemma length_prof3 e a i t : length (prof3 e a i t) = nht e.
Proof. unfold prof3. rewrite map_length, seq_length. reflexivity. Qed.
Lemma length_prof2 e g t : length (prof2 e g t) = nht e.
Proof. unfold prof2. rewrite map_length, seq_length. reflexivity. Qed.
Lemma nth_map_seq (f : nat -> xr) n k d : (k < n)%nat -> nth k (map f (seq 0 n)) d = f k.
Proof.
  intro H. rewrite (nth_indep _ d (f O)) by (rewrite map_length, seq_length; exact H).
  rewrite map_nth, seq_nth by exact H. reflexivity.
Qed.
Lemma nth_prof3 e a i t k d : (k < nht e)%nat -> nth k (prof3 e a i t) d = a i t k.
Proof. apply nth_map_seq. Qed.
Lemma nth_prof2 e g t k d : (k < nht e)%nat -> nth k (prof2 e g t) d = g t k.
Proof. apply nth_map_seq. Qed.

(** *** Cumulative sums of real profiles *)
Lemma cumsum_sum l f d k :
  (forall j, (j < length l)%nat -> nth j l d = XF (f j)) -> (k < length l)%nat ->
  nth k (cumsum l) d = XF (sumR f (S k)).
Proof.
  intros H. induction k as [|k IH]; intro Hk.
  - rewrite nth_cumsum_0, H by lia. simpl. f_equal; ring.
  - rewrite nth_cumsum_S, IH, H by lia. reflexivity.
Qed.
Lemma rev_cumsum_sum l f d k :
  (forall j, (j < length l)%nat -> nth j l d = XF (f j)) -> (k < length l)%nat ->
  nth k (rev (cumsum (rev l))) d = XF (sumR (fun j => f (k + j)%nat) (length l - k)).
Proof.
  intros H Hk. remember (length l - S k)%nat as m eqn:Em. revert k Hk Em.
  induction m as [|m IH]; intros k Hk Em.
  - rewrite nth_rev_cumsum_last, H by lia. replace (length l - k)%nat with 1%nat by lia.
    simpl. f_equal. rewrite Nat.add_0_r. ring.
  - rewrite nth_rev_cumsum_S, (IH (S k)), H by lia.
    replace (length l - k)%nat with (S (length l - S k)) by lia.
    rewrite sumR_shift, Nat.add_0_r. simpl. f_equal.
    rewrite (sumR_ext (fun j => f (S (k + j))) (fun j => f (k + S j)%nat)) by (intros; f_equal; lia).
    ring.
Qed.

Lemma nth_cons_removelast x (l : list xr) k d : (k < length l)%nat ->
  nth (S k) (x :: removelast l ++ []) d = nth k (removelast l) d.
Proof. intros. rewrite app_nil_r. reflexivity. Qed.

(** *** C21: optical depth of a real profile *)
Section Od.
Variables (z a : list xr) (Z A : nat -> R) (n : nat) (d : xr).
Hypothesis Lz : length z = n.
Hypothesis La : length a = n.
Hypothesis Hz : forall k, (k < n)%nat -> nth k z d = XF (Z k).
Hypothesis Ha : forall k, (k < n)%nat -> nth k a d = XF (A k).

Lemma od_sfc_term j : (j < n)%nat ->
  nth j (zmul (diff_prepend (XF 0) z) (XF 0 :: removelast a)) d
  = XF (match j with O => 0 | S i => (Z (S i) - Z i) * A i end).
Proof.
  intro Hj. unfold diff_prepend.
  rewrite nth_zmul by (rewrite ?length_diff_from; cbn [length]; rewrite ?length_removelast; lia).
  destruct j as [|j].
  - rewrite nth_diff_from_0, Hz by lia. simpl. f_equal; ring.
  - rewrite nth_diff_from_S, !Hz by lia. cbn [nth].
    rewrite nth_removelast, Ha by lia. simpl. f_equal; ring.
Qed.
Lemma od_sfc k : (k < n)%nat ->
  nth k (od_profile true z a) d = XF (sumR (fun j => (Z (S j) - Z j) * A j) k).
Proof.
  intro Hk. unfold od_profile.
  assert (L : length (zmul (diff_prepend (XF 0) z) (XF 0 :: removelast a)) = n).
  { rewrite length_zmul. unfold diff_prepend. rewrite length_diff_from. cbn [length].
    rewrite length_removelast. lia. }
  rewrite (cumsum_sum _ _ _ _ ltac:(rewrite L; exact od_sfc_term)) by lia.
  f_equal. rewrite sumR_shift. ring.
Qed.

Lemma od_top_term j : (j < n)%nat ->
  nth j (zmul (diff_append (XF 0) z) (tl a ++ [XF 0])) d
  = XF (if Nat.eqb (S j) n then 0 else (Z (S j) - Z j) * A (S j)).
Proof.
  intro Hj.
  rewrite nth_zmul by (rewrite ?length_diff_append, ?app_length, ?length_tl; simpl; lia).
  destruct (Nat.eqb_spec (S j) n) as [E|E].
  - rewrite nth_diff_append_last, Hz by lia.
    rewrite app_nth2 by (rewrite length_tl; lia). rewrite length_tl.
    replace (j - (length a - 1))%nat with O by lia. simpl. f_equal; ring.
  - rewrite nth_diff_append, !Hz by lia. rewrite app_nth1 by (rewrite length_tl; lia).
    rewrite nth_tl, Ha by lia. simpl. f_equal; ring.
Qed.
Lemma od_top k : (k < n)%nat ->
  nth k (od_profile false z a) d
  = XF (sumR (fun j => (Z (S (k + j)) - Z (k + j)%nat) * A (S (k + j))) (n - 1 - k)).
Proof.
  intro Hk. unfold od_profile.
  assert (L : length (zmul (diff_append (XF 0) z) (tl a ++ [XF 0])) = n).
  { rewrite length_zmul, length_diff_append, app_length, length_tl. simpl. lia. }
  rewrite (rev_cumsum_sum _ _ _ _ ltac:(rewrite L; exact od_top_term)) by lia.
  rewrite L. f_equal. replace (n - k)%nat with (S (n - 1 - k)) by lia. cbn [sumR].
  replace (S (k + (n - 1 - k))) with n by lia. rewrite Nat.eqb_refl.
  rewrite (sumR_ext _ (fun j => (Z (S (k + j)) - Z (k + j)%nat) * A (S (k + j)))); [ring|].
  intros j Hj. destruct (Nat.eqb_spec (S (k + j)) n); [lia|reflexivity].
Qed.
End Od.

(** [accumulate_OD] on a dataset. *)
Lemma accumulate_OD_run e c z h sfc s q a :
  var3 s (qn c h) q -> var3 s (out "alpha_p" h c) a ->
  accumulate_OD e c z h sfc s
  = (Ok tt, upd s (out "OD" h c)
       (V3 (of_prof3 (fun i t => od_profile sfc (prof2 e z t) (prof3 e a i t))))).
Proof.
  intros Hq Ha. unfold accumulate_OD.
  rewrite (bind_rd _ _ _ q) by (apply g3_var; exact Hq).
  rewrite (bind_rd _ _ _ a) by (apply g3_var; exact Ha). reflexivity.
Qed.

Lemma accumulate_OD_real e c z h sfc s Z A :
  (forall t k, point e t k -> z t k = XF (Z t k)) ->
  (exists q, var3 s (qn c h) q) -> real3 e s (out "alpha_p" h c) A ->
  exists s', accumulate_OD e c z h sfc s = (Ok tt, s')
    /\ unchanged_except [out "OD" h c] s s'
    /\ real3 e s' (out "OD" h c)
         (fun i t k => if sfc then od_up (Z t) (A i t) k else od_down (nht e) (Z t) (A i t) k).
Proof.
  intros Hz [q Hq] (a & Ha & HA).
  eexists. split; [apply (accumulate_OD_run e c z h sfc s q a Hq Ha)|]. split.
  - intros x N. apply upd_other. intros ->. apply N. left; reflexivity.
  - eexists. split; [apply upd_same|]. intros i t k (Hi & Ht & Hk). unfold of_prof3.
    assert (P1 : forall k, (k < nht e)%nat -> nth k (prof2 e z t) XNaN = XF (Z t k)).
    { intros j Hj. rewrite nth_prof2 by exact Hj. apply Hz. split; assumption. }
    assert (P2 : forall k, (k < nht e)%nat -> nth k (prof3 e a i t) XNaN = XF (A i t k)).
    { intros j Hj. rewrite nth_prof3 by exact Hj. apply HA. repeat split; assumption. }
    destruct sfc.
    + apply (od_sfc _ _ (Z t) (A i t) (nht e)); auto using length_prof2, length_prof3.
    + apply (od_top _ _ (Z t) (A i t) (nht e)); auto using length_prof2, length_prof3.
Qed.

(** Monotonicity. *)
Lemma od_up_mono (Z A : nat -> R) n k k' :
  (forall j, (S j < n)%nat -> Z j <= Z (S j)) -> (forall j, (j < n)%nat -> 0 <= A j) ->
  (k <= k')%nat -> (k' < n)%nat -> 0 <= od_up Z A k /\ od_up Z A k <= od_up Z A k'.
Proof.
  intros HZ HA Hk Hn. unfold od_up. split.
  - apply sumR_nonneg. intros j Hj. apply Rmult_le_pos; [|apply HA; lia].
    assert (Z j <= Z (S j)) by (apply HZ; lia). lra.
  - apply sumR_le; [exact Hk|]. intros j Hj. apply Rmult_le_pos; [|apply HA; lia].
    assert (Z j <= Z (S j)) by (apply HZ; lia). lra.
Qed.
Lemma od_down_step n Z A k : (S k < n)%nat ->
  od_down n Z A k = (Z (S k) - Z k) * A (S k) + od_down n Z A (S k).
Proof.
  intro H. unfold od_down. replace (n - 1 - k)%nat with (S (n - 1 - S k)) by lia.
  rewrite sumR_shift, Nat.add_0_r. f_equal. apply sumR_ext. intros j _.
  replace (k + S j)%nat with (S k + j)%nat by lia. reflexivity.
Qed.
Lemma od_down_mono (Z A : nat -> R) n k k' :
  (forall j, (S j < n)%nat -> Z j <= Z (S j)) -> (forall j, (j < n)%nat -> 0 <= A j) ->
  (k <= k')%nat -> (k' < n)%nat -> 0 <= od_down n Z A k' /\ od_down n Z A k' <= od_down n Z A k.
Proof.
  intros HZ HA Hk Hn. split.
  - unfold od_down. apply sumR_nonneg. intros j Hj. apply Rmult_le_pos; [|apply HA; lia].
    assert (Z (k' + j)%nat <= Z (S (k' + j))) by (apply HZ; lia). lra.
  - revert Hn. induction Hk as [|k' Hk IH]; intro Hn; [lra|].
    specialize (IH ltac:(lia)). rewrite (od_down_step n Z A k') in IH by lia.
    assert (0 <= (Z (S k') - Z k') * A (S k')).
    { apply Rmult_le_pos; [|apply HA; lia]. assert (Z k' <= Z (S k')) by (apply HZ; lia). lra. }
    lra.
Qed.
