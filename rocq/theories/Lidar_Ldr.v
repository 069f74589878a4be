(** Totals, depolarisation ratio and extinction mask. *)
From Verif Require Import Mom_Base Mom_Spec Mom_Facts Xr_Facts Lidar_Model Lidar_Spec Lidar_Od.
Local Open Scope R_scope.

Lemma set_hyd_ok e arg hs : classes_of e arg hs -> set_hyd_types e arg = Ok hs.
Proof.
  destruct arg as [l|]; simpl; [intros ->; reflexivity|].
  intros [-> N]. destruct hs; [congruence|reflexivity].
Qed.

Lemma sum_over_cons {A} (x : A) l f : sum_over (x :: l) f = f x + sum_over l f.
Proof. reflexivity. Qed.
Lemma sum_over_nil {A} (f : A -> R) : sum_over [] f = 0.
Proof. reflexivity. Qed.

(** *** C22, C23 *)
Lemma total_of_spec e field s S C :
  num3 e s (out field "tot" false) S ->
  (p_conv e = true -> num3 e s (out field "tot" true) C) ->
  exists a, total_of e field s = Ok a /\
    forall i t k, cell e i t k -> a i t k = XF (if p_conv e then C i t k + S i t k else S i t k).
Proof.
  intros (b & Hb & Eb) HC. unfold total_of. destruct (p_conv e).
  - destruct (HC eq_refl) as (a & Ha & Ea). rewrite (g3_var _ _ _ Ha), (g3_var _ _ _ Hb). simpl.
    eexists. split; [reflexivity|]. intros i t k Hc. unfold lift2, fill0, map3.
    rewrite Ea, Eb by exact Hc. reflexivity.
  - rewrite (g3_var _ _ _ Hb). simpl. eexists. split; [reflexivity|]. intros i t k Hc.
    unfold fill0, map3. apply Eb; exact Hc.
Qed.

Definition lidar_totals : list string :=
  ["sub_col_beta_p_tot"; "sub_col_alpha_p_tot"; "sub_col_OD_tot"; "sub_col_beta_att_tot"]%string.

Lemma total_of_agree e field s t :
  (forall c, assoc (dvars s) (out field "tot" c) = assoc (dvars t) (out field "tot" c)) ->
  total_of e field s = total_of e field t.
Proof. intro H. unfold total_of, g3. rewrite !H. reflexivity. Qed.

Lemma num3_other e s n v name f : name <> n -> num3 e s name f -> num3 e (upd s n v) name f.
Proof. intros N (a & Ha & Ea). exists a. split; [|exact Ea]. unfold var3. rewrite upd_other by exact N. exact Ha. Qed.

Ltac neq_out := unfold out, cs; simpl; let H := fresh in intro H; try discriminate H.

Lemma att_cell_real eta bm b tau od :
  att_cell eta (XF bm) (XF b) (XF tau) (XF od) = XF (attenuated eta bm b tau od).
Proof. reflexivity. Qed.

Lemma total_alpha_beta_run e eta s Bs Bc As Ac Os Oc BM T :
  num3 e s (out "beta_p" "tot" false) Bs -> (p_conv e = true -> num3 e s (out "beta_p" "tot" true) Bc) ->
  num3 e s (out "alpha_p" "tot" false) As -> (p_conv e = true -> num3 e s (out "alpha_p" "tot" true) Ac) ->
  num3 e s (out "OD" "tot" false) Os -> (p_conv e = true -> num3 e s (out "OD" "tot" true) Oc) ->
  real2 e s "sigma_180_vol" BM -> real2 e s "tau" T ->
  exists s', calc_total_alpha_beta e eta s = (Ok tt, s')
    /\ unchanged_except lidar_totals s s'
    /\ let tot S C i t k := if p_conv e then C i t k + S i t k else S i t k : R in
       real3 e s' "sub_col_beta_p_tot" (tot Bs Bc) /\
       real3 e s' "sub_col_alpha_p_tot" (tot As Ac) /\
       real3 e s' "sub_col_OD_tot" (tot Os Oc) /\
       real3 e s' "sub_col_beta_att_tot"
         (fun i t k => attenuated eta (BM t k) (tot Bs Bc i t k) (T t k) (tot Os Oc i t k)).
Proof.
  intros H1 H2 H3 H4 H5 H6 (bm & Hbm & Ebm) (tau & Htau & Etau). unfold calc_total_alpha_beta.
  destruct (total_of_spec e "beta_p" s Bs Bc H1 H2) as (b & Rb & Eb).
  rewrite (bind_rd _ _ _ b) by exact Rb. rewrite bind_assign.
  set (s1 := upd s _ _).
  assert (G3 : num3 e s1 (out "alpha_p" "tot" false) As) by (apply num3_other; [neq_out|exact H3]).
  assert (G4 : p_conv e = true -> num3 e s1 (out "alpha_p" "tot" true) Ac)
    by (intro P; apply num3_other; [neq_out|auto]).
  destruct (total_of_spec e "alpha_p" s1 As Ac G3 G4) as (a & Ra & Ea).
  rewrite (bind_rd _ _ _ a) by exact Ra. rewrite bind_assign.
  set (s2 := upd s1 _ _).
  assert (G5 : num3 e s2 (out "OD" "tot" false) Os)
    by (apply num3_other; [neq_out|apply num3_other; [neq_out|exact H5]]).
  assert (G6 : p_conv e = true -> num3 e s2 (out "OD" "tot" true) Oc)
    by (intro P; apply num3_other; [neq_out|apply num3_other; [neq_out|auto]]).
  destruct (total_of_spec e "OD" s2 Os Oc G5 G6) as (o & Ro & Eo).
  rewrite (bind_rd _ _ _ o) by exact Ro. rewrite bind_assign.
  set (s3 := upd s2 _ _).
  assert (V : var2 s3 "sigma_180_vol" bm).
  { unfold var2, s3, s2, s1. rewrite !upd_other by discriminate. exact Hbm. }
  assert (V' : var2 s3 "tau" tau).
  { unfold var2, s3, s2, s1. rewrite !upd_other by discriminate. exact Htau. }
  rewrite (bind_rd _ _ _ bm) by (apply g2_var; exact V).
  rewrite (bind_rd _ _ _ tau) by (apply g2_var; exact V').
  eexists. split; [apply assign_eq|]. split.
  { intros x N. simpl in N. unfold s3, s2, s1.
    rewrite !upd_other by (intros ->; apply N; tauto). reflexivity. }
  cbv zeta. split; [|split; [|split]].
  - exists b. split; [unfold var3, s3, s2, s1; rewrite !upd_other by discriminate; apply upd_same|exact Eb].
  - exists a. split; [unfold var3, s3, s2; rewrite !upd_other by discriminate; apply upd_same|exact Ea].
  - exists o. split; [unfold var3, s3; rewrite !upd_other by discriminate; apply upd_same|exact Eo].
  - eexists. split; [apply upd_same|]. intros i t k Hc. cbv beta.
    rewrite Ebm, Etau, Eb, Eo by (try exact Hc; destruct Hc as (?&?&?); split; assumption).
    apply att_cell_real.
Qed.

Lemma attenuated_bounds eta bm b tau od :
  0 <= eta -> 0 <= bm -> 0 <= b -> 0 <= tau <= 1 -> 0 <= od ->
  0 <= attenuated eta bm b tau od <= (bm + b) * tau
  /\ (bm + b) * tau <= bm + b.
Proof.
  intros He Hm Hb Ht Ho. unfold attenuated.
  assert (E : 0 < exp (-2 * eta * od) <= 1).
  { split; [apply exp_pos|]. rewrite <- exp_0.
    assert (H : -2 * eta * od <= 0) by (assert (0 <= eta * od) by (apply Rmult_le_pos; assumption); lra).
    destruct H as [H| ->]; [left; apply exp_increasing; exact H|right; reflexivity]. }
  assert (P : 0 <= (bm + b) * tau) by (apply Rmult_le_pos; lra).
  split.
  - split; [apply Rmult_le_pos; lra|].
    rewrite <- (Rmult_1_r ((bm + b) * tau)) at 2. apply Rmult_le_compat_l; lra.
  - rewrite <- (Rmult_1_r (bm + b)) at 2. apply Rmult_le_compat_l; lra.
Qed.
Lemma attenuated_od0 eta bm b tau : attenuated eta bm b tau 0 = (bm + b) * tau.
Proof. unfold attenuated. rewrite Rmult_0_r, exp_0. ring. Qed.
Lemma attenuated_mono eta bm b tau od od' :
  0 <= eta -> 0 <= bm + b -> 0 <= tau -> od <= od' ->
  attenuated eta bm b tau od' <= attenuated eta bm b tau od.
Proof.
  intros He Hb Ht Ho. unfold attenuated.
  assert (P : 0 <= (bm + b) * tau) by (apply Rmult_le_pos; assumption).
  apply Rmult_le_compat_l; [exact P|].
  assert (H : -2 * eta * od' <= -2 * eta * od).
  { assert (0 <= eta * (od' - od)) by (apply Rmult_le_pos; lra). lra. }
  destruct H as [H| ->]; [left; apply exp_increasing; exact H|right; reflexivity].
Qed.

(** *** C24 *)
Lemma ldr_sums_spec e c s hs B w : forall num den,
  (forall h, In h hs -> num3 e s (out "beta_p" h c) (B h)) ->
  (forall h, In h hs -> assoc (ldr_hyd e) h = Some (w h)) ->
  exists n d, ldr_sums e c hs num den s = Ok (n, d) /\
    forall i t k x y, cell e i t k -> num i t k = XF x -> den i t k = XF y ->
      n i t k = XF (x + sum_over hs (fun h => B h i t k * w h)) /\
      d i t k = XF (y + sum_over hs (fun h => B h i t k)).
Proof.
  induction hs as [|h hs IH]; intros num den HB Hw.
  - exists num, den. split; [reflexivity|]. intros i t k x y _ -> ->. simpl. rewrite !Rplus_0_r. auto.
  - destruct (HB h (or_introl eq_refl)) as (b & Vb & Eb).
    cbn [ldr_sums]. rewrite (g3_var _ _ _ Vb). cbn [bind]. unfold dict.
    rewrite (Hw h (or_introl eq_refl)). cbn [bind].
    edestruct IH as (n & d & E & F); [intros; apply HB; right; assumption|intros; apply Hw; right; assumption|].
    exists n, d. split; [exact E|]. intros i t k x y Hc Hn Hd.
    destruct (F i t k (x + B h i t k * w h) (y + B h i t k) Hc) as [F1 F2].
    + rewrite Hn, (Eb i t k Hc). reflexivity.
    + rewrite Hd, (Eb i t k Hc). reflexivity.
    + rewrite F1, F2, !sum_over_cons. split; f_equal; ring.
Qed.

Lemma ldr_quot n d : xdiv (XF n) (pos_or_nan (XF d)) = if Rlt_dec 0 d then XF (n / d) else XNaN.
Proof.
  unfold pos_or_nan. destruct (Rlt_dec 0 d) as [H|H].
  - rewrite (proj2 (xltb_fin 0 d) H). apply xdiv_fin. lra.
  - rewrite (proj2 (xltb_fin_f 0 d)) by lra. reflexivity.
Qed.

Lemma ldr_loop_spec e hs B w : forall cls num den s,
  NoDup cls ->
  (forall c h, In c cls -> In h hs -> num3 e s (out "beta_p" h c) (B c h)) ->
  (forall h, In h hs -> assoc (ldr_hyd e) h = Some (w h)) ->
  exists n d s', ldr_loop e cls hs num den s = (Ok (n, d), s')
    /\ unchanged_except (map ldr_name cls) s s'
    /\ (forall c, In c cls -> exists l, var3 s' (ldr_name c) l /\ forall i t k, cell e i t k ->
          l i t k = if Rlt_dec 0 (ldr_den [c] hs B i t k)
                    then XF (ldr_num [c] hs B w i t k / ldr_den [c] hs B i t k) else XNaN)
    /\ forall i t k x y, cell e i t k -> num i t k = XF x -> den i t k = XF y ->
      n i t k = XF (x + ldr_num cls hs B w i t k) /\ d i t k = XF (y + ldr_den cls hs B i t k).
Proof.
  induction cls as [|c cls IH]; intros num den s ND HB Hw.
  - exists num, den, s. split; [reflexivity|]. split; [intros x _; reflexivity|]. split; [intros c []|].
    intros i t k x y _ -> ->. unfold ldr_num, ldr_den. simpl. rewrite !Rplus_0_r. auto.
  - cbn [ldr_loop].
    destruct (ldr_sums_spec e c s hs (B c) w zeros3 zeros3) as (n1 & d1 & E1 & F1);
      [intros; apply HB; [left; reflexivity|assumption]|exact Hw|].
    rewrite (bind_rd _ _ _ (n1, d1)) by exact E1. rewrite bind_assign.
    set (s1 := upd s _ _). inversion ND as [|? ? NI ND']; subst.
    destruct (IH (lift2 xadd num n1) (lift2 xadd den d1) s1 ND') as (n & d & s' & E & U & Lc & F).
    + intros c' h Hc' Hh. apply num3_other; [|apply HB; [right; exact Hc'|exact Hh]].
      unfold out. simpl. intro H; discriminate H.
    + exact Hw.
    + exists n, d, s'. split; [exact E|]. split; [|split].
      * intros x N. rewrite (U x) by (intro; apply N; right; assumption).
        apply upd_other. intros ->. apply N. left; reflexivity.
      * intros c' [<-|Hc']; [|apply Lc; exact Hc'].
        eexists. split.
        { unfold var3. rewrite U; [apply upd_same|]. intro H. apply in_map_iff in H as (c' & Ec & Hc').
          apply app_str_inj in Ec. destruct c, c'; try discriminate; auto. }
        intros i t k Hc. cbv beta.
        destruct (F1 i t k 0 0 Hc eq_refl eq_refl) as [-> ->].
        rewrite ldr_quot. unfold ldr_den, ldr_num. rewrite !sum_over_cons, !sum_over_nil.
        rewrite !Rplus_0_l, !Rplus_0_r. reflexivity.
      * intros i t k x y Hc Hn Hd.
        destruct (F1 i t k 0 0 Hc eq_refl eq_refl) as [G1 G2].
        destruct (F i t k (x + ldr_num [c] hs B w i t k) (y + ldr_den [c] hs B i t k) Hc) as [K1 K2].
        { unfold lift2. rewrite Hn, G1. cbn [xadd]. f_equal. unfold ldr_num. cbn. rewrite Rplus_0_r, Rplus_0_l. reflexivity. }
        { unfold lift2. rewrite Hd, G2. cbn [xadd]. f_equal. unfold ldr_den. cbn. rewrite Rplus_0_r, Rplus_0_l. reflexivity. }
        rewrite K1, K2. unfold ldr_num, ldr_den. rewrite !sum_over_cons, !sum_over_nil. split; f_equal; ring.
Qed.

(** A weighted mean lies between the weights that take part. *)
Lemma sum_over_nonneg {A} (l : list A) f : (forall x, In x l -> 0 <= f x) -> 0 <= sum_over l f.
Proof.
  induction l as [|a l IH]; intro H; cbn; [lra|].
  assert (0 <= f a) by (apply H; left; reflexivity).
  assert (0 <= sum_over l f) by (apply IH; intros; apply H; right; assumption). unfold sum_over in *. lra.
Qed.
Lemma sum_over_le {A} (l : list A) f g : (forall x, In x l -> f x <= g x) -> sum_over l f <= sum_over l g.
Proof.
  induction l as [|a l IH]; intro H; cbn; [lra|].
  assert (f a <= g a) by (apply H; left; reflexivity).
  assert (sum_over l f <= sum_over l g) by (apply IH; intros; apply H; right; assumption).
  unfold sum_over in *. lra.
Qed.
Lemma sum_over_scal {A} (l : list A) f x : sum_over l (fun a => f a * x) = sum_over l f * x.
Proof. induction l as [|a l IH]; cbn; [ring|]. unfold sum_over in *. rewrite IH. ring. Qed.

Lemma ldr_mean_bounds cls hs B w i t k lo hi :
  (forall c h, In c cls -> In h hs -> 0 <= B c h i t k) ->
  (forall c h, In c cls -> In h hs -> 0 < B c h i t k -> lo <= w h <= hi) ->
  0 < ldr_den cls hs B i t k ->
  lo <= ldr_num cls hs B w i t k / ldr_den cls hs B i t k <= hi.
Proof.
  intros HB Hw Hd.
  assert (L : ldr_den cls hs B i t k * lo <= ldr_num cls hs B w i t k).
  { unfold ldr_den, ldr_num. rewrite <- sum_over_scal. apply sum_over_le. intros c Hc.
    rewrite <- sum_over_scal. apply sum_over_le. intros h Hh.
    destruct (HB c h Hc Hh) as [P|<-]; [|lra]. apply Rmult_le_compat_l; [lra|].
    apply (Hw c h Hc Hh P). }
  assert (U : ldr_num cls hs B w i t k <= ldr_den cls hs B i t k * hi).
  { unfold ldr_den, ldr_num. rewrite <- sum_over_scal. apply sum_over_le. intros c Hc.
    rewrite <- sum_over_scal. apply sum_over_le. intros h Hh.
    destruct (HB c h Hc Hh) as [P|<-]; [|lra]. apply Rmult_le_compat_l; [lra|].
    apply (Hw c h Hc Hh P). }
  split.
  - apply Rmult_le_reg_r with (ldr_den cls hs B i t k); [exact Hd|].
    unfold Rdiv. rewrite Rmult_assoc, Rinv_l by lra. lra.
  - apply Rmult_le_reg_r with (ldr_den cls hs B i t k); [exact Hd|].
    unfold Rdiv. rewrite Rmult_assoc, Rinv_l by lra. lra.
Qed.

(** *** C25: the mask of a profile *)
Lemma exceeds_dec x thr : xltb (XF thr) x = true <-> exceeds x thr.
Proof.
  destruct x; cbn; try tauto; try (split; [discriminate|tauto]).
  unfold Rltb. destruct (Rlt_dec thr r); split; auto; discriminate.
Qed.
Definition cumv (thr : R) (x : xr) : R := if xltb (XF thr) x then 2 else 0.
Lemma cum_nth thr od k d : (k < length od)%nat ->
  nth k (map (fun x => if xltb (XF thr) x then XF 2 else XF 0) od) d = XF (cumv thr (nth k od d)).
Proof.
  intro H. rewrite (nth_indep _ d ((fun x => if xltb (XF thr) x then XF 2 else XF 0) d))
    by (rewrite map_length; exact H).
  rewrite (map_nth (fun x => if xltb (XF thr) x then XF 2 else XF 0)).
  unfold cumv. destruct (xltb (XF thr) (nth k od d)); reflexivity.
Qed.

Definition mask_val (sfc : bool) (thr : R) (od : list xr) (k : nat) (d : xr) : R :=
  let me := cumv thr (nth k od d) in
  let nxt := if sfc then (if (S k <? length od)%nat then cumv thr (nth (S k) od d) else 0)
             else match k with O => 0 | S j => cumv thr (nth j od d) end in
  me + (if Rlt_dec 0 (nxt - me) then 1 else 0).

Lemma nth_ind_map k l d : (k < length l)%nat ->
  nth k (map (fun x => if xltb (XF 0) x then XF 1 else XF 0) l) d
  = if xltb (XF 0) (nth k l d) then XF 1 else XF 0.
Proof.
  intro H. rewrite (nth_indep _ d ((fun x => if xltb (XF 0) x then XF 1 else XF 0) d))
    by (rewrite map_length; exact H).
  apply (map_nth (fun x => if xltb (XF 0) x then XF 1 else XF 0)).
Qed.

Lemma mask_nth sfc thr od k d : (k < length od)%nat ->
  nth k (mask_profile sfc thr od) d = XF (mask_val sfc thr od k d).
Proof.
  intro H. unfold mask_profile.
  set (cum := map (fun x => if xltb (XF thr) x then XF 2 else XF 0) od).
  assert (Lc : length cum = length od) by (unfold cum; apply map_length).
  set (df := if sfc then _ else _).
  assert (Ld : length df = length od).
  { unfold df. destruct sfc; rewrite ?rev_length, length_diff_append, ?rev_length; exact Lc. }
  rewrite nth_zadd by (rewrite ?map_length; lia).
  rewrite nth_ind_map by lia. unfold cum at 1. rewrite cum_nth by exact H.
  assert (D : nth k df d = XF ((if sfc then (if (S k <? length od)%nat then cumv thr (nth (S k) od d) else 0)
             else match k with O => 0 | S j => cumv thr (nth j od d) end) - cumv thr (nth k od d))).
  { unfold df. destruct sfc.
    - destruct (Nat.ltb_spec (S k) (length od)).
      + rewrite nth_diff_append by lia. unfold cum. rewrite !cum_nth by lia. reflexivity.
      + rewrite nth_diff_append_last by lia. unfold cum. rewrite !cum_nth by lia. reflexivity.
    - rewrite rev_nth by (rewrite length_diff_append, rev_length; lia).
      rewrite length_diff_append, rev_length, Lc.
      destruct k as [|k].
      + rewrite nth_diff_append_last by (rewrite rev_length; lia).
        rewrite rev_nth by lia. unfold cum. rewrite map_length.
        replace (length od - S (length od - 1))%nat with O by lia. rewrite cum_nth by lia. reflexivity.
      + rewrite nth_diff_append by (rewrite rev_length; lia). rewrite !rev_nth by lia.
        unfold cum. rewrite map_length.
        replace (length od - S (S (length od - S (S k))))%nat with k by lia.
        replace (length od - S (length od - S (S k)))%nat with (S k) by lia.
        rewrite !cum_nth by lia. reflexivity. }
  rewrite D. unfold mask_val. cbv zeta.
  match goal with |- xadd _ (if xltb (XF 0) (XF ?x) then _ else _) = _ => set (y := x) end.
  destruct (Rlt_dec 0 y) as [P|P].
  - rewrite (proj2 (xltb_fin 0 y) P). reflexivity.
  - rewrite (proj2 (xltb_fin_f 0 y)) by lra. reflexivity.
Qed.

Lemma cumv_2 thr x : exceeds x thr -> cumv thr x = 2.
Proof. intro H. unfold cumv. rewrite (proj2 (exceeds_dec x thr) H). reflexivity. Qed.
Lemma cumv_0 thr x : ~ exceeds x thr -> cumv thr x = 0.
Proof.
  intro H. unfold cumv. destruct (xltb (XF thr) x) eqn:E; [|reflexivity].
  apply exceeds_dec in E. tauto.
Qed.
Lemma exceeds_em x thr : exceeds x thr \/ ~ exceeds x thr.
Proof. destruct (xltb (XF thr) x) eqn:E; [left; apply exceeds_dec; exact E|right]. intro H. apply exceeds_dec in H. congruence. Qed.

Lemma mask_val_spec sfc thr od k d : (k < length od)%nat ->
  let m := mask_val sfc thr od k d in
  (exceeds (nth k od d) thr -> m = 2) /\
  (~ exceeds (nth k od d) thr ->
     (forall k', beyond sfc (length od) k k' -> exceeds (nth k' od d) thr -> m = 1) /\
     ((forall k', beyond sfc (length od) k k' -> ~ exceeds (nth k' od d) thr) -> m = 0)).
Proof.
  intros H m. unfold m, mask_val, beyond. split.
  - intro E. rewrite (cumv_2 _ _ E).
    assert (B : forall x, cumv thr x - 2 <= 0) by (intro x; unfold cumv; destruct (xltb (XF thr) x); lra).
    destruct (Rlt_dec _ _) as [P|P]; [|lra]. exfalso.
    destruct sfc.
    + destruct (Nat.ltb_spec (S k) (length od)); [specialize (B (nth (S k) od d))|]; lra.
    + destruct k as [|k]; [|specialize (B (nth k od d))]; lra.
  - intro E. rewrite (cumv_0 _ _ E). split.
    + intros k' Hb He. destruct sfc.
      * destruct Hb as [-> Hk']. rewrite (proj2 (Nat.ltb_lt (S k) (length od)) Hk').
        rewrite (cumv_2 _ _ He). destruct (Rlt_dec 0 (2 - 0)); lra.
      * subst k. rewrite (cumv_2 _ _ He). destruct (Rlt_dec 0 (2 - 0)); lra.
    + intro Hn. destruct sfc.
      * destruct (Nat.ltb_spec (S k) (length od)) as [Hl|Hl].
        -- rewrite (cumv_0 _ _ (Hn (S k) (conj eq_refl Hl))). destruct (Rlt_dec 0 (0 - 0)); lra.
        -- destruct (Rlt_dec 0 (0 - 0)); lra.
      * destruct k as [|k]; [destruct (Rlt_dec 0 (0 - 0)); lra|].
        rewrite (cumv_0 _ _ (Hn k eq_refl)). destruct (Rlt_dec 0 (0 - 0)); lra.
Qed.

(** *** The call *)
Definition ldr_outputs (e : menv) : list string :=
  map ldr_name (cloud_types e) ++ ["sub_col_LDR_tot"; "ext_mask"]%string.

Lemma LDR_and_ext_run e ext sfc arg hso hs h0 hr b0 od B w s :
  classes_of e hso hs -> hyds e = h0 :: hr -> var3 s (out "beta_p" h0 false) b0 ->
  (forall c h, In c (cloud_types e) -> In h hs -> num3 e s (out "beta_p" h c) (B c h)) ->
  (forall h, In h hs -> assoc (ldr_hyd e) h = Some (w h)) ->
  var3 s "sub_col_OD_tot" od ->
  exists s', calc_LDR_and_ext e ext sfc arg hso s = (Ok tt, s')
    /\ unchanged_except (ldr_outputs e) s s'
    /\ (forall c, In c (cloud_types e) -> exists l, var3 s' (ldr_name c) l /\ forall i t k, cell e i t k ->
          l i t k = if Rlt_dec 0 (ldr_den [c] hs B i t k)
                    then XF (ldr_num [c] hs B w i t k / ldr_den [c] hs B i t k) else XNaN)
    /\ (exists l, var3 s' "sub_col_LDR_tot" l /\ forall i t k, cell e i t k ->
          l i t k = if Rlt_dec 0 (ldr_den (cloud_types e) hs B i t k)
                    then XF (ldr_num (cloud_types e) hs B w i t k / ldr_den (cloud_types e) hs B i t k)
                    else XNaN)
    /\ (exists m, var3 s' "ext_mask" m /\ forall i t k, cell e i t k -> exists v,
          m i t k = XF v /\
          (exceeds (od i t k) ext -> v = 2) /\
          (~ exceeds (od i t k) ext ->
             (forall k', beyond sfc (nht e) k k' -> exceeds (od i t k') ext -> v = 1) /\
             ((forall k', beyond sfc (nht e) k k' -> ~ exceeds (od i t k') ext) -> v = 0))).
Proof.
  intros Hc H0 Hb0 HB Hw Hod. unfold calc_LDR_and_ext.
  rewrite (bind_rd _ _ _ hs) by (apply set_hyd_ok; exact Hc).
  rewrite (bind_rd _ _ _ h0) by (rewrite H0; reflexivity).
  rewrite (bind_rd _ _ _ b0) by (apply g3_var; exact Hb0).
  destruct (ldr_loop_spec e hs B w (cloud_types e) zeros3 zeros3 s) as (n & d & s1 & E & U & Lc & F);
    [unfold cloud_types; destruct (p_conv e); repeat constructor; simpl; intuition discriminate
    |exact HB|exact Hw|].
  change (if p_conv e then [true; false] else [false]) with (cloud_types e).
  rewrite (bind_ok _ _ _ (n, d) s1) by exact E. rewrite bind_assign.
  set (s2 := upd s1 _ _).
  assert (V : var3 s2 "sub_col_OD_tot" od).
  { unfold var3, s2. rewrite upd_other by discriminate. rewrite U; [exact Hod|].
    intro H. apply in_map_iff in H as (c & Ec & _). destruct c; discriminate Ec. }
  rewrite (bind_rd _ _ _ od) by (apply g3_var; exact V).
  eexists. split; [apply assign_eq|]. split; [|split; [|split]].
  - intros x N. unfold ldr_outputs in N.
    assert (N1 : ~ In x (map ldr_name (cloud_types e))) by (intro; apply N; apply in_or_app; auto).
    assert (N2 : x <> "sub_col_LDR_tot"%string) by (intros ->; apply N; apply in_or_app; simpl; auto).
    assert (N3 : x <> "ext_mask"%string) by (intros ->; apply N; apply in_or_app; simpl; auto).
    rewrite upd_other by exact N3. unfold s2. rewrite upd_other by exact N2. apply U; exact N1.
  - intros c Hcc. destruct (Lc c Hcc) as (l & Vl & El). exists l. split; [|exact El].
    unfold var3, s2. rewrite !upd_other by (destruct c; discriminate). exact Vl.
  - eexists. split.
    { unfold var3, s2. rewrite upd_other by discriminate. apply upd_same. }
    intros i t k Hcell. cbv beta. destruct (F i t k 0 0 Hcell eq_refl eq_refl) as [-> ->].
    rewrite ldr_quot, !Rplus_0_l. reflexivity.
  - eexists. split; [apply upd_same|]. intros i t k Hcell. unfold of_prof3.
    destruct Hcell as (Hi & Ht & Hk).
    exists (mask_val sfc ext (prof3 e od i t) k XNaN).
    split; [apply mask_nth; rewrite length_prof3; exact Hk|].
    assert (HkL : (k < length (prof3 e od i t))%nat) by (rewrite length_prof3; exact Hk).
    pose proof (mask_val_spec sfc ext (prof3 e od i t) k XNaN HkL) as S. cbv zeta in S.
    rewrite length_prof3 in S. rewrite nth_prof3 in S by exact Hk.
    destruct S as [S1 S2]. split; [exact S1|]. intro NE. destruct (S2 NE) as [S3 S4]. split.
    + intros k' Hb He. apply (S3 k' Hb). rewrite nth_prof3; [exact He|].
      destruct sfc; simpl in Hb; lia.
    + intro Hn. apply S4. intros k' Hb. rewrite nth_prof3; [apply Hn; exact Hb|].
      destruct sfc; simpl in Hb; lia.
Qed.
