(** Limits of displays of every subcolumn; CFADs. *)
From Coq Require Import Reals Lra ZArith Lia.
From Verif Require Import Xr_Facts Xds_Stack Load_Facts Every_Model Every_Spec Every_Facts Every_Thm.
Local Open Scope string_scope.
Local Open Scope list_scope.

Section Model.
Context (m : mobj) (zname : string) (col : Z) (n nt nl k0 : nat) (c : nat -> R) (h : nat -> nat -> R) (CM : columns_model m zname col n nt nl k0 c h).
Theorem nonatt_limits ze be radar lidar w : field_of m "sub_col_Ze_tot" ze -> field_of m "sub_col_beta_p_tot" be -> k_min w = None -> k_max w = None ->
  exists x' p1 p2, every_nonatt m zname col radar lidar w = (x', Ok [p1; p2]) /\
    limited p1 false (fst radar) (snd radar) /\ limited p2 true (fst lidar) (snd lidar).
Proof.
  intros F1 F2 W1 W2. destruct (nonatt_ok m zname col n nt nl k0 c h CM ze be radar lidar w F1 F2 W1 W2) as (x' & p1 & p2 & E & _ & L1 & _ & L2).
  exists x', p1, p2. auto.
Qed.
Theorem signal_limits ze be radar lidar w : field_of m "sub_col_Ze_att_tot" ze -> field_of m "sub_col_beta_att_tot" be ->
  every_signal m zname col radar lidar w = if k_max w then (mds m, Raise KeyError)
    else every_signal m zname col (XF (-50), XF 10) (XF (1 / 10 ^ 8), XF (1 / 10 ^ 3)) {| k_min := None; k_max := None |}.
Proof.
  intros F1 F2. destruct (k_max w) as [v|] eqn:W.
  - apply (signal_vmax_fails m zname col n nt nl k0 c h CM ze be radar lidar w F1 F2). congruence.
  - unfold every_signal. rewrite W. reflexivity.
Qed.
End Model.
Theorem radar_cfad_limits edges grid a w :
  (k_min w <> None -> exists e, plot_radar_CFAD edges grid a w = Raise e) /\
  (k_min w = None -> plot_radar_CFAD edges grid a w = plot_radar_CFAD edges grid a {| k_min := None; k_max := None |}).
Proof.
  unfold plot_radar_CFAD, cfad_limits_radar. split; intro H.
  - destruct (k_min w); [|congruence]. destruct (k_max w); eexists; reflexivity.
  - rewrite H. destruct (k_max w); reflexivity.
Qed.
Theorem lidar_cfad_limits edges grid a w : k_min w <> None -> exists e, plot_lidar_SR_CFAD edges grid a w = Raise e.
Proof.
  unfold plot_lidar_SR_CFAD, cfad_limits_SR. intro H. destruct (k_min w); [|congruence]. destruct (k_max w); eexists; reflexivity.
Qed.
Theorem radar_cfad edges grid a w (e : nat -> R) bins : length edges = S bins -> (forall i, i < S bins -> nth i edges XNaN = XF (e i)) ->
  ash a = [length grid; bins] -> k_min w = None ->
  exists p, plot_radar_CFAD edges grid a w = Ok p /\ p_edges p = true /\ p_rows p = length grid /\ p_cols p = bins /\
    (forall i, i <= bins -> p_x p i = XF (e i)) /\ (forall k, p_y p k = XF (INR k * (48 / 100))) /\
    (forall k i, p_val p k i = aat a [k; i]).
Proof.
  intros L E S W. unfold plot_radar_CFAD, cfad_limits_radar. rewrite W.
  destruct (cfad_ok edges grid a (XF 0) (XF (2 / 10)) bins e L E S) as (p & P & A & B & C & D & F & G & _). exists p. repeat (split; [assumption|]). assumption.
Qed.
Theorem lidar_cfad edges grid a w bins : length edges = S bins -> ash a = [length grid; bins] -> k_min w = None ->
  exists p, plot_lidar_SR_CFAD edges grid a w = Ok p /\ p_edges p = true /\ p_rows p = length grid /\ p_cols p = bins /\
    (forall i, i <= bins -> p_x p i = XF (INR i)) /\ (forall k, p_y p k = XF (INR k * (48 / 100))) /\
    (forall k i, p_val p k i = aat a [k; i]) /\ p_lo p = Some (XF 0) /\ p_hi p = Some (match k_max w with Some v => v | None => XF 0 end).
Proof.
  intros L S W. unfold plot_lidar_SR_CFAD, cfad_limits_SR. rewrite W.
  destruct (cfad_ok (map (fun i => XF (INR i)) (seq 0 (length edges))) grid a (XF 0) (or_else (k_max w) (XF 0)) bins INR) as (p & P & A & B & C & D & F & G & H).
  - rewrite map_length, seq_length. exact L.
  - intros i I. rewrite L, (nth_indep _ XNaN (XF (INR 0))) by (rewrite map_length, seq_length; exact I). rewrite (map_nth (fun i => XF (INR i))), seq_nth by exact I. reflexivity.
  - exact S.
  - exists p. repeat (split; [assumption|]). exact H.
Qed.
Theorem cfad_heights edges grid grid' a w : length grid = length grid' ->
  plot_radar_CFAD edges grid a w = plot_radar_CFAD edges grid' a w /\ plot_lidar_SR_CFAD edges grid a w = plot_lidar_SR_CFAD edges grid' a w.
Proof. intro L. split; apply cfad_same_grid, L. Qed.
Theorem cfad_centres edges grid a w (e : nat -> R) bins : length edges = S bins -> (forall i, i < S bins -> nth i edges XNaN = XF (e i)) ->
  ash a = [length grid; bins] -> k_min w = None -> (forall k, k < length grid -> nth k grid XNaN = XF (48 / 100 * (INR k + 1 / 2))) ->
  exists p, plot_radar_CFAD edges grid a w = Ok p /\ forall k, k < length grid ->
    exists lo hi, p_y p k = XF lo /\ p_y p (S k) = XF hi /\ nth k grid XNaN = XF ((lo + hi) / 2).
Proof.
  intros L E S W G. destruct (radar_cfad edges grid a w e bins L E S W) as (p & P & _ & _ & _ & _ & Y & _). exists p. split; [exact P|].
  intros k K. do 2 eexists. split; [apply Y|]. split; [apply Y|]. rewrite (G k K), S_INR. f_equal. lra.
Qed.
Theorem save_bins x bins bins' cf cz cs : save_cfads x bins cf cz cs = save_cfads x bins' cf cz cs.
Proof. reflexivity. Qed.
