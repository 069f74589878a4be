(** C26, C28: lidar and radar classification. *)
From Verif Require Import Mom_Base Mom_Spec Mom_Facts Xr_Facts Lidar_Spec Class_Model Class_Spec.
From Coq Require Import Lia.
Local Open Scope R_scope.

(** *** Interpolation *)
Lemma xsub_fin a b : xsub (XF a) (XF b) = XF (a - b).
Proof. reflexivity. Qed.
Lemma interp_in_curve x xs ys :
  xs <> [] -> length ys = length xs ->
  (forall j, (S j < length xs)%nat -> nth j xs 0 < nth (S j) xs 0) ->
  nth 0 xs 0 <= x ->
  exists y, interp_in (XF x) (map XF xs) (map XF ys) = XF y /\ on_curve xs ys x y.
Proof.
  revert ys. induction xs as [|x0 xs IH]; [congruence|]. intros ys _ Hl Hm H0.
  destruct ys as [|y0 ys]; [discriminate|]. destruct xs as [|x1 xs].
  - destruct ys; [|discriminate]. exists y0. split; [reflexivity|]. right; left. simpl in *. auto.
  - destruct ys as [|y1 ys]; [discriminate|].
    assert (H01 : x0 < x1) by (apply (Hm 0%nat); simpl; lia). simpl in H0.
    cbn [map interp_in].
    destruct (xltb (XF x) (XF x1)) eqn:E.
    + apply xltb_fin in E. rewrite !xsub_fin, xdiv_fin by lra. cbn [xmul xadd].
      eexists. split; [reflexivity|]. right; right. exists 0%nat. simpl. split; [lia|]. split; [lra|].
      field. lra.
    + apply xltb_fin_f in E.
      destruct (IH (y1 :: ys)) as (y & Ey & Hy); [discriminate|simpl in *; lia| |exact E|].
      { intros j Hj. apply (Hm (S j)). simpl in *. lia. }
      exists y. split; [exact Ey|].
      destruct Hy as [[Hlt ->]|[[Hge ->]|(j & Hj & Hr & ->)]].
      * simpl in Hlt. lra.
      * right; left. simpl in *. rewrite Nat.sub_0_r in *. auto.
      * right; right. exists (S j). simpl in *. split; [lia|]. auto.
Qed.
Lemma np_interp_curve x xs ys :
  xs <> [] -> length ys = length xs ->
  (forall j, (S j < length xs)%nat -> nth j xs 0 < nth (S j) xs 0) ->
  exists y, np_interp (XF x) (map XF xs) (map XF ys) = XF y /\ on_curve xs ys x y.
Proof.
  intros Hn Hl Hm. destruct (Rlt_le_dec x (nth 0 xs 0)) as [Hx|Hx].
  - destruct xs as [|x0 xs]; [congruence|]. destruct ys as [|y0 ys]; [discriminate|].
    exists y0. simpl in Hx. unfold np_interp. cbn [isnan map].
    rewrite (proj2 (xltb_fin x x0) Hx). split; [reflexivity|]. left. auto.
  - destruct (interp_in_curve x xs ys Hn Hl Hm Hx) as (y & Ey & Hy). exists y. split; [|exact Hy].
    unfold np_interp. cbn [isnan]. destruct xs as [|x0 xs]; [congruence|]. destruct ys as [|y0 ys]; [discriminate|].
    cbn [map]. simpl in Hx. rewrite (proj2 (xltb_fin_f x x0) Hx). exact Ey.
Qed.
(** The value on the curve is unique. *)
Lemma mono_nth xs : (forall j, (S j < length xs)%nat -> nth j xs 0 < nth (S j) xs 0) ->
  forall i j, (i < j < length xs)%nat -> nth i xs 0 < nth j xs 0.
Proof.
  intros Hm i j. induction j as [|j IH]; intro H; [lia|].
  destruct (Nat.eq_dec i j) as [->|N]; [apply Hm; lia|].
  apply Rlt_trans with (nth j xs 0); [apply IH; lia|apply Hm; lia].
Qed.
Lemma on_curve_fun xs ys x y y' : xs <> [] ->
  (forall j, (S j < length xs)%nat -> nth j xs 0 < nth (S j) xs 0) ->
  on_curve xs ys x y -> on_curve xs ys x y' -> y = y'.
Proof.
  intros Hn Hm.
  assert (Hle : forall i j, (i <= j < length xs)%nat -> nth i xs 0 <= nth j xs 0).
  { intros i j H. destruct (Nat.eq_dec i j) as [->|N]; [lra|]. apply Rlt_le, mono_nth; [exact Hm|lia]. }
  assert (Hlen : (0 < length xs)%nat) by (destruct xs; [congruence|simpl; lia]).
  pose proof (Hle 0%nat (length xs - 1)%nat ltac:(lia)) as H0.
  intros [[H ->]|[[H ->]|(j & Hj & H & ->)]] [[H' ->]|[[H' ->]|(j' & Hj' & H' & ->)]]; try reflexivity; try lra.
  - pose proof (Hle 0%nat j' ltac:(lia)). lra.
  - pose proof (Hle (S j') (length xs - 1)%nat ltac:(lia)). lra.
  - pose proof (Hle 0%nat j ltac:(lia)). lra.
  - pose proof (Hle (S j) (length xs - 1)%nat ltac:(lia)). lra.
  - assert (j = j') as <-; [|reflexivity].
    destruct (lt_eq_lt_dec j j') as [[L|E]|L]; [|exact E|].
    + pose proof (Hle (S j) j' ltac:(lia)). lra.
    + pose proof (Hle (S j') j ltac:(lia)). lra.
Qed.

(** *** One cell *)
Lemma map_log10 l : Forall (fun b => 0 < b) l -> map (fun b => xlog10 (XF b)) l = map XF (map log10 l).
Proof. induction 1 as [|b l Hb _ IH]; [reflexivity|]. cbn [map]. rewrite IH, xlog10_fin by exact Hb. reflexivity. Qed.
Lemma cell_test th l b : thr_ok th -> real_or_nan l -> real_or_nan b ->
  (xleb (np_interp l (map XF (th_ldr th)) (map (fun b => xlog10 (XF b)) (th_beta th)))
        (if xltb (XF 0) b then xlog10 b else XNaN) = true <-> reaches th l b).
Proof.
  intros (Hn & Hl & Hp & Hm) HL HB. rewrite map_log10 by exact Hp.
  destruct l as [x| | |]; try destruct HL.
  2:{ split; [discriminate|]. intros (x & r & y & E & _). discriminate. }
  destruct (np_interp_curve x (th_ldr th) (map log10 (th_beta th)) Hn) as (y & Ey & Hy);
    [rewrite map_length; exact Hl|exact Hm|]. rewrite Ey.
  destruct b as [r| | |]; try destruct HB.
  2:{ split; [discriminate|]. intros (x' & r' & y' & _ & E & _). discriminate. }
  destruct (xltb (XF 0) (XF r)) eqn:E.
  - apply xltb_fin in E. rewrite xlog10_fin, xleb_fin by exact E. split.
    + intro H. exists x, r, y. auto 6.
    + intros (x' & r' & y' & [= <-] & [= <-] & _ & Hy' & H).
      rewrite (on_curve_fun _ _ _ _ _ Hn Hm Hy Hy'). exact H.
  - apply xltb_fin_f in E. split; [discriminate|]. intros (x' & r' & y' & _ & [= <-] & H & _). lra.
Qed.
Lemma phase_cell_spec ths l b : Forall thr_ok ths -> real_or_nan l -> real_or_nan b ->
  exists v, phase_cell ths l b = XF (INR v) /\ last_class ths l b v.
Proof.
  intros Hok HL HB. unfold phase_cell. change (XF 0) with (XF (INR 0)) at 2.
  induction ths as [|th ths IH] using rev_ind.
  - exists 0%nat. split; [reflexivity|]. left. split; [reflexivity|]. intros th [].
  - apply Forall_app in Hok. destruct Hok as [H1 H2]. inversion H2 as [|? ? Hth _]; subst.
    destruct (IH H1) as (v & Ev & Hv). rewrite fold_left_app, Ev. cbn [fold_left].
    pose proof (cell_test th l b Hth HL HB) as T.
    destruct (xleb _ _).
    + exists (th_ind th). split; [reflexivity|]. right. exists ths, th, []. repeat split; auto; tauto.
    + assert (N : ~ reaches th l b) by (intro H; apply T in H; discriminate).
      exists v. split; [reflexivity|].
      destruct Hv as [[-> Hv]|(pre & th' & post & -> & Hr & -> & Hp)].
      * left. split; [reflexivity|]. intros x Hx. apply in_app_or in Hx. destruct Hx as [Hx|[<-|[]]]; auto.
      * right. exists pre, th', (post ++ [th]). rewrite <- app_assoc. repeat split; auto.
        intros x Hx. apply in_app_or in Hx. destruct Hx as [Hx|[<-|[]]]; auto.
Qed.
Lemma zeros_nan_shown c v : zeros_nan c (XF (INR v)) = shown c v.
Proof.
  unfold zeros_nan, shown. destruct c; [|reflexivity]. cbn [andb].
  destruct (Nat.eqb v 0) eqn:E.
  - apply Nat.eqb_eq in E. subst v. change (INR 0) with 0. rewrite (proj2 (xeqb_fin 0 0) eq_refl). reflexivity.
  - apply Nat.eqb_neq in E. rewrite (proj2 (xeqb_fin_f (INR v) 0)); [reflexivity|].
    apply not_0_INR. exact E.
Qed.
Lemma exceeds_xltb r x : exceeds x r <-> xltb (XF r) x = true.
Proof.
  unfold exceeds. destruct x; cbn [xltb]; try tauto; try (split; [tauto|discriminate]).
  fold (xltb (XF r) (XF r0)). rewrite xltb_fin. tauto.
Qed.

(** *** One mask *)
Lemma classify_one_run ext ths conv0 remove mask ldr od beta s Ld Bt Od :
  Forall thr_ok ths -> Forall (fun th => (th_ind th <= length ths)%nat) ths ->
  (exists a, var3 s "sub_col_LDR_tot" a) -> (exists a, var3 s "sub_col_LDR_strat" a) ->
  var3 s ldr Ld -> var3 s beta Bt -> (remove = true -> var3 s od Od) ->
  exists m, classify_one ext ths conv0 remove mask ldr od beta s = (Ok tt, upd s mask (V3 m)) /\
    forall i t k, real_or_nan (Ld i t k) -> real_or_nan (Bt i t k) ->
      exists v, m i t k = shown conv0 v /\
        (remove = true /\ exceeds (Od i t k) ext -> v = 0%nat) /\
        (~ (remove = true /\ exceeds (Od i t k) ext) -> last_class ths (Ld i t k) (Bt i t k) v).
Proof.
  intros Hok Hind (a1 & H1) (a2 & H2) HL HB HO. unfold classify_one.
  rewrite (bind_rd _ _ _ a1) by (apply g3_var; exact H1).
  assert (Hleg : legend_ok ths = true).
  { unfold legend_ok. apply forallb_forall. intros th Hth. apply Nat.leb_le.
    exact (proj1 (Forall_forall _ _) Hind th Hth). }
  rewrite Hleg.
  assert (E : exists bl, (match ths with
             | [] => lret (zeros3, zeros3)
             | _ => run b <- rd (fun s => g3 s beta); run l <- rd (fun s => g3 s ldr); lret (b, l)
             end) s = (Ok bl, s) /\ forall i t k, phase_cell ths (snd bl i t k) (fst bl i t k) = phase_cell ths (Ld i t k) (Bt i t k)).
  { destruct ths; [eexists; split; [reflexivity|reflexivity]|].
    rewrite (bind_rd _ _ _ Bt) by (apply g3_var; exact HB).
    rewrite (bind_rd _ _ _ Ld) by (apply g3_var; exact HL). eexists. split; reflexivity. }
  destruct E as (bl & Ebl & Ecell). rewrite (bind_ok _ _ _ _ _ Ebl), bind_lret. cbv zeta.
  destruct remove.
  - rewrite lbind_assoc, (bind_rd _ _ _ Od) by (apply g3_var; auto). rewrite bind_lret.
    rewrite (bind_rd _ _ _ a2) by (apply g3_var; exact H2).
    eexists. split; [apply assign_eq|]. intros i t k RL RB. cbv beta. unfold map3.
    pose proof (exceeds_xltb ext (Od i t k)) as T. destruct (xltb (XF ext) (Od i t k)).
    + exists 0%nat. split; [apply (zeros_nan_shown conv0 0)|]. split; [auto|]. intro N. exfalso. tauto.
    + rewrite Ecell. destruct (phase_cell_spec ths _ _ Hok RL RB) as (v & -> & Hv).
      exists v. split; [apply zeros_nan_shown|]. split; [intros [_ H]; apply T in H; discriminate|auto].
  - rewrite bind_lret. rewrite (bind_rd _ _ _ a2) by (apply g3_var; exact H2).
    eexists. split; [apply assign_eq|]. intros i t k RL RB. cbv beta. unfold map3.
    rewrite Ecell. destruct (phase_cell_spec ths _ _ Hok RL RB) as (v & -> & Hv).
    exists v. split; [apply zeros_nan_shown|]. split; [intros [H _]; discriminate|auto].
Qed.

(** *** The whole call *)
Lemma value_var s n a i t k : var3 s n a -> value s n i t k = a i t k.
Proof. unfold value, var3. intros ->. reflexivity. Qed.

Lemma one_step e ext ths conv0 remove s p :
  Forall thr_ok ths -> Forall (fun th => (th_ind th <= length ths)%nat) ths ->
  (exists a, var3 s "sub_col_LDR_tot" a) -> (exists a, var3 s "sub_col_LDR_strat" a) ->
  fields_of s remove p ->
  exists m, (let '(mask, ldr, od, beta) := p in classify_one ext ths conv0 remove mask ldr od beta s)
            = (Ok tt, upd s (mname p) (V3 m)) /\
    mask_is e ext ths conv0 remove s (upd s (mname p) (V3 m)) p.
Proof.
  destruct p as [[[mask ldr] od] beta]. intros H1 H2 H3 H4 ((Ld & HL) & (Bt & HB) & HO).
  assert (HO' : exists Od, remove = true -> var3 s od Od).
  { destruct remove; [destruct (HO eq_refl) as [a Ha]; exists a; auto|exists zeros3; discriminate]. }
  destruct HO' as (Od & HO').
  destruct (classify_one_run ext ths conv0 remove mask ldr od beta s Ld Bt Od H1 H2 H3 H4 HL HB HO')
    as (m & Em & Hm).
  exists m. split; [exact Em|]. exists m. split; [apply upd_same|].
  intros i t k _ RL RB. rewrite (value_var _ _ _ _ _ _ HL) in *. rewrite (value_var _ _ _ _ _ _ HB) in *.
  destruct (Hm i t k RL RB) as (v & Ev & Hv1 & Hv2). exists v. split; [exact Ev|].
  destruct remove.
  - rewrite (value_var _ _ _ _ _ _ (HO' eq_refl)). auto.
  - split; [intros [H _]; discriminate|]. intros _. apply Hv2. intros [H _]; discriminate.
Qed.

Definition is_input (n : string) : Prop := exists y, n = ("sub_col_" ++ y)%string.
Lemma fields_upd s remove p n v : fields_of s remove p ->
  (let '(_, ldr, od, beta) := p in is_input ldr /\ is_input od /\ is_input beta) ->
  ~ is_input n -> fields_of (upd s n v) remove p.
Proof.
  destruct p as [[[mask ldr] od] beta]. intros ((a & Ha) & (b & Hb) & Ho) (I1 & I2 & I3) N.
  assert (K : forall x w, is_input x -> var3 s x w -> var3 (upd s n v) x w).
  { intros x w Hx H. unfold var3. rewrite upd_other; [exact H|]. intros ->. auto. }
  split; [exists a; auto|]. split; [exists b; auto|]. intro R. destruct (Ho R) as [o Ho']. exists o; auto.
Qed.
Lemma mask_carry e ext ths conv0 remove s s0 s' n v p :
  (let '(_, ldr, od, beta) := p in is_input ldr /\ is_input od /\ is_input beta) ->
  (forall x, is_input x -> assoc (dvars s) x = assoc (dvars s0) x) -> mname p <> n ->
  mask_is e ext ths conv0 remove s s' p -> mask_is e ext ths conv0 remove s0 (upd s' n v) p.
Proof.
  destruct p as [[[mask ldr] od] beta]. intros (I1 & I2 & I3) A N (m & Hm & H).
  exists m. split; [unfold var3; rewrite upd_other by exact N; exact Hm|].
  assert (E : forall x i t k, is_input x -> value s x i t k = value s0 x i t k).
  { intros x i t k Hx. unfold value. rewrite A by exact Hx. reflexivity. }
  intros i t k. rewrite <- !E by assumption. apply H.
Qed.
Lemma mask_same e ext ths conv0 remove s s0 s' p :
  (let '(_, ldr, od, beta) := p in is_input ldr /\ is_input od /\ is_input beta) ->
  (forall x, is_input x -> assoc (dvars s) x = assoc (dvars s0) x) ->
  mask_is e ext ths conv0 remove s s' p -> mask_is e ext ths conv0 remove s0 s' p.
Proof.
  destruct p as [[[mask ldr] od] beta]. intros (I1 & I2 & I3) A (m & Hm & H).
  exists m. split; [exact Hm|].
  assert (E : forall x i t k, is_input x -> value s x i t k = value s0 x i t k).
  { intros x i t k Hx. unfold value. rewrite A by exact Hx. reflexivity. }
  intros i t k. rewrite <- !E by assumption. apply H.
Qed.

Ltac inp := repeat split; try (eexists; simpl; reflexivity).
Lemma not_input_s n : ~ is_input ("strat_phase_mask_" ++ n). Proof. intros [y H]. discriminate. Qed.
Lemma not_input_c n : ~ is_input ("conv_phase_mask_" ++ n). Proof. intros [y H]. discriminate. Qed.
Lemma not_input_p n : ~ is_input ("phase_mask_" ++ n). Proof. intros [y H]. discriminate. Qed.

Lemma lidar_classify_run e ins deflt arg ths conv0 remove s :
  lower (i_class ins) = "lidar"%string -> ths_of arg deflt ths ->
  Forall thr_ok ths -> Forall (fun th => (th_ind th <= length ths)%nat) ths ->
  (exists a, var3 s "sub_col_LDR_tot" a) -> (exists a, var3 s "sub_col_LDR_strat" a) ->
  (forall p, In p (lidar_masks e (i_str ins)) -> fields_of s remove p) ->
  exists s', lidar_classify_phase e ins deflt arg conv0 remove s = (Ok tt, s') /\
    unchanged_except (map mname (lidar_masks e (i_str ins))) s s' /\
    forall p, In p (lidar_masks e (i_str ins)) -> mask_is e (ext_OD ins) ths conv0 remove s s' p.
Proof.
  intros Hc Hths H1 H2 H3 H4 HF. unfold lidar_classify_phase. rewrite Hc. cbn [String.eqb Ascii.eqb Bool.eqb negb].
  assert (E : (match arg with
              | Some l => lret l
              | None => match deflt with [] => lraise ValueError | _ => lret deflt end
              end) s = (Ok ths, s)).
  { destruct arg; simpl in Hths; [subst; reflexivity|]. destruct Hths as [-> N]. destruct ths; [congruence|reflexivity]. }
  rewrite (bind_ok _ _ _ _ _ E). clear E.
  unfold lidar_masks in *. destruct (p_conv e).
  - cbn [app] in *.
    set (ps := (("strat_phase_mask_" ++ i_str ins)%string, "sub_col_LDR_strat"%string, "sub_col_OD_tot_strat"%string, "sub_col_beta_p_tot_strat"%string)) in *.
    set (pc := (("conv_phase_mask_" ++ i_str ins)%string, "sub_col_LDR_conv"%string, "sub_col_OD_tot_conv"%string, "sub_col_beta_p_tot_conv"%string)) in *.
    set (pt := (("phase_mask_" ++ i_str ins ++ "_all_hyd")%string, "sub_col_LDR_tot"%string, "sub_col_OD_tot"%string, "sub_col_beta_p_tot"%string)) in *.
    destruct (one_step e (ext_OD ins) ths conv0 remove s ps H1 H2 H3 H4) as (m1 & E1 & M1); [apply HF; simpl; auto|].
    set (s1 := upd s (mname ps) (V3 m1)) in *.
    assert (K : forall s0 n v x, is_input x -> ~ is_input n -> assoc (dvars (upd s0 n v)) x = assoc (dvars s0) x).
    { intros s0 n v x Hx N. apply upd_other. intros ->. auto. }
    assert (KV : forall s0 n v x, is_input x -> ~ is_input n -> (exists a, var3 s0 x a) -> exists a, var3 (upd s0 n v) x a).
    { intros s0 n v x Hx N [a Ha]. exists a. unfold var3. rewrite K by assumption. exact Ha. }
    destruct (one_step e (ext_OD ins) ths conv0 remove s1 pc H1 H2) as (m2 & E2 & M2).
    { apply KV; [inp|apply not_input_s|exact H3]. }
    { apply KV; [inp|apply not_input_s|exact H4]. }
    { apply fields_upd; [apply HF; simpl; auto|inp|apply not_input_s]. }
    set (s2 := upd s1 (mname pc) (V3 m2)) in *.
    destruct (one_step e (ext_OD ins) ths conv0 remove s2 pt H1 H2) as (m3 & E3 & M3).
    { apply KV; [inp|apply not_input_c|]. apply KV; [inp|apply not_input_s|exact H3]. }
    { apply KV; [inp|apply not_input_c|]. apply KV; [inp|apply not_input_s|exact H4]. }
    { apply fields_upd; [apply fields_upd; [apply HF; simpl; auto|inp|apply not_input_s]|inp|apply not_input_c]. }
    exists (upd s2 (mname pt) (V3 m3)). split; [|split].
    + rewrite lbind_assoc. rewrite (bind_ok _ _ _ _ _ E1). rewrite (bind_ok _ _ _ _ _ E2). exact E3.
    + intros x Hx. simpl in Hx. rewrite upd_other by (intro; subst; apply Hx; auto).
      unfold s2. rewrite upd_other by (intro; subst; apply Hx; auto).
      unfold s1. apply upd_other. intro; subst; apply Hx; auto.
    + intros p [<-|[<-|[<-|[]]]].
      * apply (mask_carry e _ _ _ _ s s s2); [inp|reflexivity|discriminate|].
        apply (mask_carry e _ _ _ _ s s s1); [inp|reflexivity|discriminate|exact M1].
      * apply (mask_carry e _ _ _ _ s1 s s2); [inp| |discriminate|exact M2].
        intros x Hx. apply K; [exact Hx|apply not_input_s].
      * apply (mask_same e _ _ _ _ s2 s); [inp| |exact M3].
        intros x Hx. unfold s2. rewrite K by (exact Hx || apply not_input_c).
        apply K; [exact Hx|apply not_input_s].
  - cbn [app] in *. rewrite bind_lret.
    destruct (one_step e (ext_OD ins) ths conv0 remove s _ H1 H2 H3 H4 (HF _ (or_introl eq_refl))) as (m & E & M).
    eexists. split; [exact E|]. split.
    + intros x Hx. apply upd_other. intro; subst; apply Hx; simpl; auto.
    + intros p [<-|[]]. exact M.
Qed.
Lemma lidar_classify_other e ins deflt arg conv0 remove s :
  lower (i_class ins) <> "lidar"%string -> lidar_classify_phase e ins deflt arg conv0 remove s = (Raise ValueError, s).
Proof. intro N. unfold lidar_classify_phase. apply String.eqb_neq in N. rewrite N. reflexivity. Qed.
Lemma lidar_classify_no_thresholds e ins conv0 remove s :
  lidar_classify_phase e ins [] None conv0 remove s = (Raise ValueError, s).
Proof. unfold lidar_classify_phase. destruct (String.eqb _ _); reflexivity. Qed.

(** *** Radar *)
Lemma at_least_xleb a b : at_least a b <-> xleb b a = true.
Proof. destruct a, b; cbn [at_least xleb]; try tauto; try (split; [tauto|discriminate]).
  fold (xleb (XF r0) (XF r)). rewrite xleb_fin. tauto. Qed.
Lemma sounding_cell_spec rng ze zmin z zz cloud : (rng <> None -> zz = XF z) ->
  exists v, sounding_cell rng ze zmin zz cloud = XF (INR v) /\ radar_class rng ze zmin z (cloud = true) v.
Proof.
  intro Hz. unfold sounding_cell, radar_class. pose proof (at_least_xleb ze zmin) as T.
  assert (G : forall m2 : nat, (exists w, w = m2 /\
      (~ at_least ze zmin -> cloud <> true -> w = 0%nat) /\ (~ at_least ze zmin -> cloud = true -> w = 1%nat) /\
      (at_least ze zmin -> cloud = true -> w = 2%nat) /\ (at_least ze zmin -> cloud <> true -> w = 3%nat)) ->
    exists v, match rng with
      | None => XF (INR m2)
      | Some (lo, hi) => if xltb zz (XF lo) || xltb (XF hi) zz then XF 0 else XF (INR m2)
      end = XF (INR v) /\ (outside rng z -> v = 0%nat) /\
  (~ outside rng z -> ~ at_least ze zmin -> cloud <> true -> v = 0%nat) /\
  (~ outside rng z -> ~ at_least ze zmin -> cloud = true -> v = 1%nat) /\
  (~ outside rng z -> at_least ze zmin -> cloud = true -> v = 2%nat) /\
  (~ outside rng z -> at_least ze zmin -> cloud <> true -> v = 3%nat)).
  { intros m2 (w & -> & Hw). destruct rng as [[lo hi]|]; cbn [outside].
    - rewrite Hz by discriminate.
      destruct (xltb (XF z) (XF lo)) eqn:E1; [|destruct (xltb (XF hi) (XF z)) eqn:E2]; cbn [orb].
      + apply xltb_fin in E1. exists 0%nat. split; [reflexivity|]. tauto.
      + apply xltb_fin in E2. exists 0%nat. split; [reflexivity|]. tauto.
      + apply xltb_fin_f in E1. apply xltb_fin_f in E2. exists m2. split; [reflexivity|].
        split; [lra|]. tauto.
    - exists m2. split; [reflexivity|]. tauto. }
  destruct (xleb zmin ze); destruct cloud; cbn [andb negb Nat.eqb]; apply G; eexists; (split; [reflexivity|]);
    repeat split; intros; try reflexivity; exfalso; try tauto; try (apply T in H; discriminate); try congruence.
Qed.
Lemma sounding_one_run e rng conv0 mask zf cloud s ze zm Z :
  var3 s zf ze -> var2 s "Ze_min" zm -> (rng <> None -> real2 e s (z_name e) Z) ->
  exists m, sounding_one e rng conv0 mask zf cloud s = (Ok tt, upd s mask (V3 m)) /\
    forall i t k, cell e i t k -> exists v, m i t k = shown conv0 v /\
      radar_class rng (ze i t k) (zm t k) (Z t k) (cloud i t k = true) v.
Proof.
  intros Hz Hm HZ. unfold sounding_one.
  rewrite (bind_rd _ _ _ ze) by (apply g3_var; exact Hz). rewrite (bind_rd _ _ _ zm) by (apply g2_var; exact Hm).
  assert (E : exists zz, (match rng with None => lret (fun _ _ => XNaN) | Some _ => rd (fun s => g2 s (z_name e)) end) s = (Ok zz, s)
     /\ (rng <> None -> forall t k, point e t k -> zz t k = XF (Z t k))).
  { destruct rng.
    - destruct HZ as (g & Hg & Eg); [discriminate|]. exists g. split; [unfold rd; rewrite (g2_var _ _ _ Hg); reflexivity|auto].
    - eexists. split; [reflexivity|]. congruence. }
  destruct E as (zz & E & Ezz). rewrite (bind_ok _ _ _ _ _ E).
  eexists. split; [apply assign_eq|]. intros i t k Hc. cbv beta.
  destruct (sounding_cell_spec rng (ze i t k) (zm t k) (Z t k) (zz t k) (cloud i t k)) as (v & Ev & Hv).
  { intro N. apply Ezz; [exact N|]. unfold cell, point in *. tauto. }
  exists v. rewrite Ev. split; [apply zeros_nan_shown|exact Hv].
Qed.
Lemma radar_class_iff rng ze zm z (P Q : Prop) v : (P <-> Q) -> radar_class rng ze zm z P v -> radar_class rng ze zm z Q v.
Proof. unfold radar_class. intros E H. tauto. Qed.
Lemma radar_classify_run e ins rng conv0 s ze zm Z F :
  lower (i_class ins) = "radar"%string ->
  (forall p, In p (radar_masks e (i_str ins)) -> var3 s (snd (fst p)) (ze (snd (fst p)))) ->
  var2 s "Ze_min" zm -> (rng <> None -> real2 e s (z_name e) Z) ->
  (forall c, In c (cloud_types e) -> varb s (fn c "cl") (F c)) ->
  ~ In (z_name e) (map (fun p => fst (fst p)) (radar_masks e (i_str ins))) ->
  exists s', radar_classify_phase e ins rng conv0 s = (Ok tt, s') /\
    unchanged_except (map (fun p => fst (fst p)) (radar_masks e (i_str ins))) s s' /\
    forall mask zf cls, In (mask, zf, cls) (radar_masks e (i_str ins)) ->
      exists m, var3 s' mask m /\ forall i t k, cell e i t k ->
        exists v, m i t k = shown conv0 v /\ radar_class rng (ze zf i t k) (zm t k) (Z t k) (cloudy cls F i t k) v.
Proof.
  intros Hc HZe Hzm HZ HF HN. unfold radar_classify_phase. rewrite Hc. cbn [String.eqb Ascii.eqb Bool.eqb negb].
  assert (Hf : In false (cloud_types e)) by (unfold cloud_types; destruct (p_conv e); simpl; auto).
  rewrite (bind_rd _ _ _ (F false)) by (apply gb_var, HF; exact Hf).
  assert (C1 : forall c i t k, F c i t k = true <-> cloudy [c] F i t k).
  { intros c i t k. unfold cloudy. split; [intro H; exists c; simpl; auto|intros (c' & [<-|[]] & H); exact H]. }
  unfold radar_masks, cloud_types in *. destruct (p_conv e); cbn [app map fst snd] in *.
  - rewrite (bind_rd _ _ _ (F true)) by (apply gb_var, HF; simpl; auto).
    set (n1 := ("strat_phase_mask_" ++ i_str ins ++ "_sounding")%string) in *.
    set (n2 := ("conv_phase_mask_" ++ i_str ins ++ "_sounding")%string) in *.
    set (n3 := ("phase_mask_" ++ i_str ins ++ "_sounding_all_hyd")%string) in *.
    pose proof (HZe _ (or_introl eq_refl)) as Z1. pose proof (HZe _ (or_intror (or_introl eq_refl))) as Z2.
    pose proof (HZe _ (or_intror (or_intror (or_introl eq_refl)))) as Z3. cbn [fst snd] in Z1, Z2, Z3.
    assert (KZ : forall s0 n v, n <> z_name e -> (rng <> None -> real2 e s0 (z_name e) Z) -> rng <> None -> real2 e (upd s0 n v) (z_name e) Z).
    { intros s0 n v N H R. destruct (H R) as (g & Hg & Eg). exists g. split; [|exact Eg].
      unfold var2. rewrite upd_other by congruence. exact Hg. }
    destruct (sounding_one_run e rng conv0 n1 _ (F false) s _ zm Z Z1 Hzm HZ) as (m1 & E1 & M1).
    set (s1 := upd s n1 (V3 m1)) in *.
    assert (HZ1 : rng <> None -> real2 e s1 (z_name e) Z) by (apply KZ; [intro; apply HN; simpl; auto|exact HZ]).
    destruct (sounding_one_run e rng conv0 n2 "sub_col_Ze_att_tot_conv" (F true) s1 (ze "sub_col_Ze_att_tot_conv"%string) zm Z) as (m2 & E2 & M2).
    { unfold var3, s1. rewrite upd_other by discriminate. exact Z2. }
    { unfold var2, s1. rewrite upd_other by discriminate. exact Hzm. }
    { exact HZ1. }
    set (s2 := upd s1 n2 (V3 m2)) in *.
    destruct (sounding_one_run e rng conv0 n3 "sub_col_Ze_att_tot" (fun i t k => F false i t k || F true i t k) s2 (ze "sub_col_Ze_att_tot"%string) zm Z) as (m3 & E3 & M3).
    { unfold var3, s2, s1. rewrite !upd_other by discriminate. exact Z3. }
    { unfold var2, s2, s1. rewrite !upd_other by discriminate. exact Hzm. }
    { apply KZ; [intro; apply HN; simpl; auto|exact HZ1]. }
    exists (upd s2 n3 (V3 m3)). split; [|split].
    + rewrite (bind_ok _ _ _ _ _ E1). rewrite (bind_ok _ _ _ _ _ E2). exact E3.
    + intros x Hx. simpl in Hx. rewrite upd_other by (intro; subst; apply Hx; auto).
      unfold s2. rewrite upd_other by (intro; subst; apply Hx; auto).
      unfold s1. apply upd_other. intro; subst; apply Hx; auto.
    + intros mask zf cls [H|[H|[H|[]]]]; injection H as <- <- <-.
      * exists m1. split; [unfold var3, s2, s1; rewrite !upd_other by discriminate; apply upd_same|].
        intros i t k Hcell. destruct (M1 i t k Hcell) as (v & Ev & Hv). exists v. split; [exact Ev|].
        eapply radar_class_iff; [apply C1|exact Hv].
      * exists m2. split; [unfold var3, s2; rewrite upd_other by discriminate; apply upd_same|].
        intros i t k Hcell. destruct (M2 i t k Hcell) as (v & Ev & Hv). exists v. split; [exact Ev|].
        eapply radar_class_iff; [apply C1|exact Hv].
      * exists m3. split; [apply upd_same|].
        intros i t k Hcell. destruct (M3 i t k Hcell) as (v & Ev & Hv). exists v. split; [exact Ev|].
        eapply radar_class_iff; [|exact Hv]. unfold cloudy. rewrite Bool.orb_true_iff. split.
        -- intros [H|H]; [exists false|exists true]; simpl; auto.
        -- intros (c & [<-|[<-|[]]] & H); auto.
  - pose proof (HZe _ (or_introl eq_refl)) as Z1. cbn [fst snd] in Z1.
    destruct (sounding_one_run e rng conv0 ("phase_mask_" ++ i_str ins ++ "_sounding_all_hyd")%string _ (F false) s _ zm Z Z1 Hzm HZ) as (m & E & M).
    eexists. split; [exact E|]. split.
    + intros x Hx. apply upd_other. intro; subst; apply Hx; simpl; auto.
    + intros mask zf cls [H|[]]. injection H as <- <- <-. exists m. split; [apply upd_same|].
      intros i t k Hcell. destruct (M i t k Hcell) as (v & Ev & Hv). exists v. split; [exact Ev|].
      eapply radar_class_iff; [apply C1|exact Hv].
Qed.
