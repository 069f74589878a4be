(** Optical depth and transmittance of the molecular atmosphere. *)
From Verif Require Import Mom_Base Mom_Spec Mom_Facts Xr_Facts Atm_Model Atm_Spec Atm_Facts.
Local Open Scope R_scope.

Lemma nth_map_seq {A} (f : nat -> A) n k d : (k < n)%nat -> nth k (map f (seq 0 n)) d = f k.
Proof.
  intro H. rewrite nth_indep with (d' := f 0%nat) by (rewrite map_length, seq_length; exact H).
  rewrite map_nth, seq_nth by exact H. reflexivity.
Qed.

Lemma sumR_S f m : sumR f (S m) = f 0%nat + sumR (fun j => f (S j)) m.
Proof. induction m as [|m IH]; [simpl; lra|]. cbn [sumR] in *. rewrite IH. simpl. lra. Qed.
Lemma sumR_ext f g m : (forall j, (j < m)%nat -> f j = g j) -> sumR f m = sumR g m.
Proof. induction m as [|m IH]; intro H; [reflexivity|]. cbn [sumR]. rewrite IH by (intros; apply H; lia). rewrite H by lia. reflexivity. Qed.
Definition layers_of (z b : list xr) : list xr :=
  zmul (map (fun d => xdiv d (XF 2)) (diff z)) (zadd (removelast b) (tl b)).
Lemma u_up z b : (0 < length b)%nat -> u_profile true z b = XF 0 :: cumsum (layers_of z b).
Proof. destruct b; [simpl; lia|reflexivity]. Qed.
Lemma u_down z b : (0 < length b)%nat -> u_profile false z b = rev (cumsum (rev (layers_of z b))) ++ [XF 0].
Proof. destruct b; [simpl; lia|reflexivity]. Qed.

Section Prof.
Variables (n : nat) (z b : nat -> xr) (Z B : nat -> R).
Hypothesis Hz : forall k, (k < n)%nat -> z k = XF (Z k).
Hypothesis Hb : forall k, (k < n)%nat -> b k = XF (B k).
Let zl := map z (seq 0 n).
Let bl := map b (seq 0 n).
Let layers := layers_of zl bl.

Lemma len_zl : length zl = n. Proof. unfold zl. rewrite map_length, seq_length. reflexivity. Qed.
Lemma len_bl : length bl = n. Proof. unfold bl. rewrite map_length, seq_length. reflexivity. Qed.
Lemma len_layers : length layers = (n - 1)%nat.
Proof.
  unfold layers, layers_of. rewrite length_zmul, map_length, length_diff, length_zadd, length_removelast, length_tl, len_zl, len_bl. lia.
Qed.
Lemma nth_layers k d : (S k < n)%nat -> nth k layers d = XF (layer_depth Z B k).
Proof.
  intro H. unfold layers, layers_of.
  rewrite nth_zmul.
  2:{ rewrite map_length, length_diff, len_zl; lia. }
  2:{ rewrite length_zadd, length_removelast, length_tl, len_bl; lia. }
  rewrite nth_zadd by (rewrite ?length_removelast, ?length_tl, len_bl; lia).
  rewrite nth_removelast by (rewrite len_bl; lia). rewrite nth_tl.
  rewrite nth_indep with (d' := xdiv d (XF 2)) by (rewrite map_length, length_diff, len_zl; lia).
  rewrite (map_nth (fun d => xdiv d (XF 2))). rewrite nth_diff by (rewrite len_zl; lia).
  unfold zl, bl. rewrite !nth_map_seq by lia. rewrite !Hz, !Hb by lia.
  unfold xsub. cbn [xopp xadd]. rewrite xdiv_fin by lra. cbn [xmul]. apply (f_equal XF).
  unfold layer_depth. field.
Qed.

Lemma up_depth k d : (k < n)%nat -> nth k (u_profile true zl bl) d = XF (molecular_depth true n Z B k).
Proof.
  intro H. rewrite u_up by (rewrite len_bl; lia). fold layers. unfold molecular_depth.
  induction k as [|k IH]; [reflexivity|]. cbn [nth].
  destruct k as [|k].
  - rewrite nth_cumsum_0 by (rewrite len_layers; lia). rewrite nth_layers by lia. cbn [sumR]. apply (f_equal XF); lra.
  - rewrite nth_cumsum_S by (rewrite len_layers; lia). rewrite nth_layers by lia.
    cbn [nth] in IH. rewrite IH by lia. reflexivity.
Qed.
Lemma down_depth k d : (k < n)%nat -> nth k (u_profile false zl bl) d = XF (molecular_depth false n Z B k).
Proof.
  intro H. rewrite u_down by (rewrite len_bl; lia). fold layers. unfold molecular_depth.
  assert (LL : length (rev (cumsum (rev layers))) = (n - 1)%nat).
  { rewrite rev_length, length_cumsum, rev_length, len_layers. reflexivity. }
  remember (n - 1 - k)%nat as m eqn:Em. revert k H Em. induction m as [|m IH]; intros k H Em.
  - rewrite app_nth2 by lia. rewrite LL. replace (k - (n - 1))%nat with 0%nat by lia. reflexivity.
  - rewrite app_nth1 by lia. specialize (IH (S k) ltac:(lia) ltac:(lia)).
    rewrite sumR_S. rewrite (sumR_ext _ (fun j => layer_depth Z B (S k + j))) by (intros; f_equal; lia).
    rewrite Nat.add_0_r. destruct m as [|m].
    + rewrite nth_rev_cumsum_last by (rewrite len_layers; lia). rewrite nth_layers by lia. simpl. apply (f_equal XF); lra.
    + rewrite nth_rev_cumsum_S by (rewrite len_layers; lia). rewrite nth_layers by lia.
      rewrite app_nth1 in IH by lia. rewrite IH. cbn [xadd]. apply (f_equal XF); lra.
Qed.
Lemma depth_of sfc k d : (k < n)%nat -> nth k (u_profile sfc zl bl) d = XF (molecular_depth sfc n Z B k).
Proof. destruct sfc; [apply up_depth|apply down_depth]. Qed.
End Prof.

Lemma layer_nonneg Z B k : Z k < Z (S k) -> 0 <= B k -> 0 <= B (S k) -> 0 <= layer_depth Z B k.
Proof. intros. unfold layer_depth. apply Rmult_le_pos; lra. Qed.
Lemma layer_pos Z B k : Z k < Z (S k) -> 0 < B k -> 0 < B (S k) -> 0 < layer_depth Z B k.
Proof. intros. unfold layer_depth. apply Rmult_lt_0_compat; lra. Qed.

Lemma depth_first sfc n Z B : molecular_depth sfc n Z B (first_level sfc n) = 0.
Proof. destruct sfc; unfold molecular_depth, first_level; [reflexivity|]. rewrite Nat.sub_diag. reflexivity. Qed.
Lemma depth_nonneg sfc n Z B k : (k < n)%nat ->
  (forall j, (S j < n)%nat -> 0 <= layer_depth Z B j) -> 0 <= molecular_depth sfc n Z B k.
Proof.
  intros H L. assert (S0 : forall f m, (forall j, (j < m)%nat -> 0 <= f j) -> 0 <= sumR f m).
  { intros f m; induction m as [|m IH]; intro Q; simpl; [lra|]. assert (0 <= f m) by (apply Q; lia).
    assert (0 <= sumR f m) by (apply IH; intros; apply Q; lia). lra. }
  unfold molecular_depth. destruct sfc; apply S0; intros; apply L; lia.
Qed.
Lemma down_step n Z B k : (S k < n)%nat ->
  molecular_depth false n Z B k = layer_depth Z B k + molecular_depth false n Z B (S k).
Proof.
  intro H. unfold molecular_depth. replace (n - 1 - k)%nat with (S (n - 1 - S k)) by lia. rewrite sumR_S, Nat.add_0_r.
  f_equal. apply sumR_ext. intros; f_equal; lia.
Qed.
Lemma depth_mono sfc n Z B k k' : (k < n)%nat -> (k' < n)%nat -> farther sfc k k' ->
  (forall j, (S j < n)%nat -> 0 <= layer_depth Z B j) ->
  molecular_depth sfc n Z B k <= molecular_depth sfc n Z B k'.
Proof.
  intros H H' F L. destruct sfc; unfold farther in F.
  - induction F as [|m F IH]; [lra|]. apply Rle_trans with (molecular_depth true n Z B m); [apply IH; lia|].
    unfold molecular_depth. cbn [sumR]. specialize (L m ltac:(lia)). lra.
  - induction F as [|m F IH]; [lra|]. apply Rle_trans with (molecular_depth false n Z B m); [|apply IH; lia].
    rewrite (down_step n Z B m) by lia. specialize (L m ltac:(lia)). lra.
Qed.
Lemma depth_strict sfc n Z B k k' : (k < n)%nat -> (k' < n)%nat -> farther sfc k k' -> k <> k' ->
  (forall j, (S j < n)%nat -> 0 < layer_depth Z B j) ->
  molecular_depth sfc n Z B k < molecular_depth sfc n Z B k'.
Proof.
  intros H H' F N L. assert (L' : forall j, (S j < n)%nat -> 0 <= layer_depth Z B j) by (intros; left; auto).
  destruct sfc; unfold farther in F.
  - apply Rlt_le_trans with (molecular_depth true n Z B (S k)).
    + unfold molecular_depth. cbn [sumR]. specialize (L k ltac:(lia)). lra.
    + apply depth_mono; simpl; auto; lia.
  - apply Rlt_le_trans with (molecular_depth false n Z B (k - 1)).
    + rewrite (down_step n Z B (k - 1)) by lia. replace (S (k - 1)) with k by lia.
      specialize (L (k - 1)%nat ltac:(lia)). lra.
    + apply depth_mono; simpl; auto; lia.
Qed.
Lemma depth_sum n Z B k : (k < n)%nat ->
  molecular_depth true n Z B k + molecular_depth false n Z B k = sumR (layer_depth Z B) (n - 1).
Proof.
  intro H. unfold molecular_depth. remember (n - 1 - k)%nat as m eqn:Em.
  replace (n - 1)%nat with (k + m)%nat by lia. clear. induction m as [|m IH]; simpl.
  - rewrite Nat.add_0_r. lra.
  - rewrite Nat.add_succ_r. cbn [sumR]. lra.
Qed.

(** The whole calculation. *)
Lemma theory_run e lam sfc s P T Z : no_pole lam -> atmosphere e s P T Z ->
  exists s' B V S S1 N K, calc_theory_beta_m e lam sfc s = (Ok tt, s') /\
   real2 e s' "beta" B /\ real2 e s' "sigma_180_vol" V /\ real2 e s' "sigma" S /\ real2 e s' "sigma_180" S1 /\
   real2 e s' "N_s" N /\ real2 e s' "kappa" K /\
   (forall t k, point e t k -> molec lam (P t k) (T t k) (B t k) (V t k) (S t k) (S1 t k) (N t k) (K t k)) /\
   real2 e s' "u_atm" (fun t k => molecular_depth sfc (nht e) (Z t) (B t) k) /\
   real2 e s' "tau" (fun t k => exp (-2 * molecular_depth sfc (nht e) (Z t) (B t) k)).
Proof.
  intros L ((pr & Hp & Vp) & (tr & Ht & Vt) & (zr & Hz & Vz) & PP & TT & ZZ).
  set (rv := fun x : xr => match x with XF r => r | _ => 0 end).
  assert (M : forall t k, point e t k -> exists B V S S1 N K, molec lam (P t k) (T t k) B V S S1 N K)
    by (intros; apply molec_ok; auto).
  set (B := fun t k => rv (beta_mol lam (XF (P t k)) (XF (T t k)))).
  set (V := fun t k => rv (sigma180_vol lam (XF (P t k)) (XF (T t k)))).
  set (S := fun t k => rv (sigma_mol lam (XF (P t k)) (XF (T t k)))).
  set (S1 := fun t k => rv (xmul (sigma180_cm2 lam (XF (P t k)) (XF (T t k))) (XF (/ 10 ^ 4)))).
  set (N := fun t k => rv (xdiv (N_s (XF (P t k)) (XF (T t k))) (XF (/ 10 ^ 6)))).
  set (K := fun t k => rv (kappa_mol lam (XF (P t k)) (XF (T t k)))).
  assert (MM : forall t k, point e t k -> molec lam (P t k) (T t k) (B t k) (V t k) (S t k) (S1 t k) (N t k) (K t k)).
  { intros t k Q. destruct (M t k Q) as (b & v & s0 & s1 & n & kk & X).
    unfold B, V, S, S1, N, K. destruct X as [X1 X2 X3 X4 X5 X6 X7 X8 X9 X10 X11 X12 X13].
    rewrite X1, X2, X3, X4, X5, X6. cbn [rv]. split; assumption. }
  exists (snd (calc_theory_beta_m e lam sfc s)), B, V, S, S1, N, K.
  unfold calc_theory_beta_m.
  rewrite (bind_rd _ _ _ pr) by (apply g2_var; exact Hp).
  rewrite (bind_rd _ _ _ tr) by (apply g2_var; exact Ht).
  rewrite (bind_rd _ _ _ zr) by (apply g2_var; exact Hz). cbv zeta.
  repeat rewrite bind_assign. rewrite assign_eq. cbn [snd].
  assert (G : forall (x : string) (g : arr2) f s', assoc (dvars s') x = Some (V2 g) ->
     (forall t k, point e t k -> g t k = XF (f t k)) -> real2 e s' x f) by (intros x g f s' A1 A2; exists g; split; assumption).
  assert (Bv : forall t k, point e t k -> beta_mol lam (p_hpa e (pr t k)) (t_cel e (tr t k)) = XF (B t k)).
  { intros t k Q. rewrite Vp, Vt by exact Q. apply (MM t k Q). }
  assert (U : forall t k, point e t k -> of_prof2 (fun t => u_profile sfc (prof2 e (fun t k => z_met e (zr t k)) t)
     (prof2 e (fun t k => beta_mol lam (p_hpa e (pr t k)) (t_cel e (tr t k))) t)) t k
     = XF (molecular_depth sfc (nht e) (Z t) (B t) k)).
  { intros t k (Q1 & Q2). unfold of_prof2, prof2.
    apply (depth_of (nht e) (fun k => z_met e (zr t k)) (fun k => beta_mol lam (p_hpa e (pr t k)) (t_cel e (tr t k))) (Z t) (B t)).
    - intros; apply Vz; split; assumption.
    - intros; apply Bv; split; assumption.
    - exact Q2. }
  split; [reflexivity|].
  do 6 (split; [eapply G; [repeat first [apply upd_same | rewrite upd_other by discriminate]
               | cbv beta; intros t k Q; try rewrite Vp by exact Q; try rewrite Vt by exact Q; apply (MM t k Q)]|]).
  split; [exact MM|].
  split; (eapply G; [repeat first [apply upd_same | rewrite upd_other by discriminate]|]).
  - intros t k Q. apply U; exact Q.
  - cbv beta. intros t k Q. rewrite U by exact Q. reflexivity.
Qed.
