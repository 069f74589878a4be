(** Positions and values of the cells. *)
From Coq Require Import Reals Lra ZArith Lia.
From Verif Require Import Xr_Facts Disp_Stat Disp_Prof Disp_Crop Xds_Proofs Xds_Stack Xds_Fields Load_Facts Curt_Facts Curt_Time Curt_Thm Curt_Regrid Every_Model Every_Spec.
Local Open Scope string_scope.
Local Open Scope list_scope.

Lemma map_add_seq a b n : map (fun l => a + l) (seq b n) = seq (a + b) n.
Proof. revert b. induction n as [|n IH]; intro b; [reflexivity|]. cbn. f_equal. rewrite IH. f_equal. lia. Qed.
Lemma xval_seq n nt : xval n nt = seq 1 (n * nt).
Proof.
  unfold xval. induction n as [|n IH]; [reflexivity|]. rewrite seq_S, flat_map_app, IH. cbn [flat_map plus]. rewrite app_nil_r, map_add_seq.
  replace (S n * nt) with (n * nt + nt) by lia. rewrite seq_app. f_equal. f_equal. lia.
Qed.
Lemma count_below nt t r : t <= nt -> (INR t < r)%R -> (r <= INR t + 1)%R -> searchsorted nt r = t.
Proof.
  intros T A B. unfold searchsorted. replace nt with (t + (nt - t)) by lia. rewrite seq_app, filter_app, app_length.
  assert (F1 : filter (fun l => if Rlt_dec (INR l) r then true else false) (seq 1 t) = seq 1 t).
  { assert (P : forall l, In l (seq 1 t) -> (INR l < r)%R). { intros l I. apply in_seq in I. pose proof (le_INR l t ltac:(lia)). lra. }
    revert P. generalize (seq 1 t). induction l as [|a l IH]; intro P; [reflexivity|]. cbn. destruct (Rlt_dec (INR a) r) as [_|N]; [|elim N; apply P; left; reflexivity].
    f_equal. apply IH. intros b I. apply P. right. exact I. }
  assert (F2 : filter (fun l => if Rlt_dec (INR l) r then true else false) (seq (1 + t) (nt - t)) = []).
  { assert (P : forall l, In l (seq (1 + t) (nt - t)) -> ~ (INR l < r)%R). { intros l I. apply in_seq in I. pose proof (le_INR (S t) l ltac:(lia)) as Q. rewrite S_INR in Q. lra. }
    revert P. generalize (seq (1 + t) (nt - t)). induction l as [|a l IH]; intro P; [reflexivity|]. cbn. destruct (Rlt_dec (INR a) r) as [Y|_]; [elim (P a (or_introl eq_refl) Y)|].
    apply IH. intros b I. apply P. right. exact I. }
  rewrite F1, F2, seq_length. cbn. lia.
Qed.
Lemma cell_time_ok n nt (g : nat -> xr) c t s : 2 <= nt -> s < n -> t < nt -> (forall j, j < nt -> g j = XF (c j)) ->
  nth (t * n + s) (long_times n nt g) XNaN = XF (cell_time c n t s).
Proof.
  intros NT HS T G. unfold long_times. rewrite xval_seq.
  assert (K : t * n + s < n * nt) by nia.
  rewrite (nth_indep _ XNaN (interp nt g (INR 0 / INR n))) by (rewrite map_length, seq_length; exact K).
  rewrite (map_nth (fun v => interp nt g (INR v / INR n))), seq_nth by exact K.
  assert (N0 : (0 < INR n)%R) by (apply lt_0_INR; lia).
  assert (R : (INR (1 + (t * n + s)) / INR n = INR t + INR (S s) / INR n)%R).
  { replace (1 + (t * n + s)) with (t * n + S s) by lia. rewrite plus_INR, mult_INR. field. lra. }
  assert (F1 : (0 < INR (S s) / INR n)%R) by (apply Rdiv_lt_0_compat; [apply lt_0_INR; lia|exact N0]).
  assert (F2 : (INR (S s) / INR n <= 1)%R). { apply Rmult_le_reg_r with (INR n); [exact N0|]. unfold Rdiv. rewrite Rmult_assoc, Rinv_l, Rmult_1_l, Rmult_1_r by lra. apply le_INR. lia. }
  unfold interp. rewrite R, (count_below nt t) by (lia || lra).
  unfold cell_time. destruct (Nat.eqb_spec t 0) as [->|NZ].
  - change (Nat.max 0 1) with 1. rewrite Nat.min_l by lia. cbn [Nat.sub]. rewrite !G by lia. cbn [xsub xadd xopp INR].
    rewrite xdiv_fin by lra. cbn [xmul xadd]. f_equal. field. lra.
  - rewrite Nat.max_l, Nat.min_l by lia. rewrite !G by lia. replace (S (t - 1)) with t by lia.
    assert (D : (INR (S t) - INR t = 1)%R) by (rewrite S_INR; ring). rewrite D. cbn [xsub xadd xopp]. rewrite xdiv_fin by lra. cbn [xmul xadd]. f_equal. field. lra.
Qed.
Lemma heights_ok n nt h j t s : s < n -> t < nt -> long_heights n nt h j (t * n + s) = h t j.
Proof.
  intros S. revert t. induction nt as [|nt IH]; intros t T; [lia|]. unfold long_heights. rewrite seq_S, fold_left_app. cbn [fold_left plus].
  destruct (Nat.eq_dec t nt) as [->|N].
  - destruct (Nat.leb_spec (n * nt) (nt * n + s)); [|nia]. destruct (Nat.leb_spec (nt * n + s) (n * (nt + 1))); [|nia]. reflexivity.
  - destruct (Nat.leb_spec (n * nt) (t * n + s)); [nia|]. cbn [andb]. apply IH. lia.
Qed.
Lemma split_cell n nt k : k < n * nt -> exists t s, t < nt /\ s < n /\ k = t * n + s.
Proof.
  intro K. destruct n as [|n]; [cbn in K; lia|]. exists (k / S n), (k mod S n). pose proof (Nat.div_mod_eq k (S n)) as E. pose proof (Nat.mod_upper_bound k (S n) ltac:(lia)).
  split; [apply Nat.div_lt_upper_bound; lia|]. split; [assumption|]. lia.
Qed.
Lemma cell_div n t s : s < n -> Nat.div (t * n + s) n = t.
Proof. intro S. rewrite Nat.add_comm, Nat.div_add by lia. rewrite Nat.div_small by exact S. reflexivity. Qed.
Lemma cell_mod n t s : s < n -> Nat.modulo (t * n + s) n = s.
Proof. intro S. rewrite Nat.add_comm, Nat.mod_add by lia. apply Nat.mod_small, S. Qed.

Section Model.
Context (m : mobj) (zname : string) (col : Z) (n nt nl k0 : nat) (c : nat -> R) (h : nat -> nat -> R) (CM : columns_model m zname col n nt nl k0 c h).
Lemma positions_ok : exists q, cell_positions m zname col = Ok q /\ c_n q = n /\ c_nt q = nt /\ c_nl q = nl /\ c_col q = k0 /\
  forall t s, t < nt -> s < n -> c_x q (t * n + s) = XF (cell_time c n t s) /\ forall j, j < nl -> c_y q j (t * n + s) = XF (h t j).
Proof.
  destruct CM as [(S1 & S2 & S3) (N & T) (D1 & D2) CL COL (v & A & D & V)]. destruct CL as (tv & TA & TD & TV & _).
  unfold cell_positions. apply has_dim_in in D1, D2. rewrite D1, D2. cbn [andb negb].
  rewrite (vector_ok _ (time_dim m) tv (time_dim m)); [|unfold all_vars; rewrite Xds_Round.assoc_app, TA; reflexivity|exact TD]. cbn [bind]. rewrite S1, S2, S3.
  destruct (Nat.ltb_spec nt 2); [lia|]. destruct (Nat.eqb_spec n 0); [lia|]. cbn [orb]. unfold getv. rewrite A. cbn [bind]. unfold shape. rewrite D. cbn [map].
  rewrite (position_ok _ col k0 COL). cbn [bind]. rewrite S2, S3, !Nat.eqb_refl. cbn [andb]. eexists. split; [reflexivity|]. cbn [c_n c_nt c_nl c_col c_x c_y].
  repeat (split; [reflexivity|]). intros t s Ht Hs. split.
  - apply cell_time_ok; [exact T|exact Hs|exact Ht|]. intros j J. apply TV. rewrite S2. exact J.
  - intros j J. rewrite heights_ok by assumption. apply V; assumption.
Qed.
Lemma epaint_ok q val log lo hi (f : nat -> nat -> nat -> xr) : c_n q = n -> c_nt q = nt -> c_nl q = nl ->
  (forall t s, t < nt -> s < n -> c_x q (t * n + s) = XF (cell_time c n t s) /\ forall j, j < nl -> c_y q j (t * n + s) = XF (h t j)) ->
  (forall t s j, t < nt -> s < n -> j < nl -> val j (t * n + s) = f s t j) ->
  exists p, epaint q 1000 val log lo hi = Ok p /\ every_shows p n nt nl c h f /\ limited p log lo hi.
Proof.
  intros E1 E2 E3 P V. unfold epaint. rewrite E1, E2, E3.
  assert (Y : forall t s j, t < nt -> s < n -> j < nl -> xdiv (c_y q j (t * n + s)) (XF 1000) = XF (h t j / 1000)).
  { intros t s j T S J. destruct (P t s T S) as [_ H]. rewrite (H j J), xdiv_fin by lra. reflexivity. }
  assert (F : forallb (fun k => isfin (c_x q k) && forallb (fun j => isfin (xdiv (c_y q j k) (XF 1000))) (seq 0 nl)) (seq 0 (n * nt)) = true).
  { apply forallb_forall. intros k K. apply in_seq in K. destruct (split_cell n nt k) as (t & s & T & S & ->); [lia|]. destruct (P t s T S) as [-> _]. cbn [isfin andb].
    apply forallb_forall. intros j J. apply in_seq in J. rewrite Y by (assumption || lia). reflexivity. }
  rewrite F. eexists. split; [reflexivity|]. split; [|repeat split].
  split; [reflexivity|]. split; [reflexivity|]. intros t s j T S J. cbn [e_x e_y e_val]. destruct (P t s T S) as [X _]. split; [exact X|]. split; [apply Y; assumption|]. apply V; assumption.
Qed.
Lemma field4_ok q name f : c_n q = n -> c_nt q = nt -> c_nl q = nl -> c_col q = k0 -> field_of m name f ->
  exists v, field4 (mds m) q name = Ok v /\ assoc (all_vars (mds m)) name = Some v /\ vdims v = ["subcolumn"; time_dim m; "lev"; "ncol"] /\ (forall s t j k, vat v [s; t; j; k] = f s t j k) /\
    forall t s j, s < n -> plane q v j (t * n + s) = f s t j k0.
Proof.
  intros E1 E2 E3 E4 (v & A & D & V). destruct CM as [(S1 & S2 & S3) (N & T) _ _ COL _]. exists v. unfold field4, getv. rewrite A. cbn [bind]. unfold shape. rewrite D. cbn [map].
  rewrite E1, E2, E3, E4, S1, S2, S3, !Nat.eqb_refl. destruct COL as [K _]. destruct (Nat.ltb_spec k0 (sz (mds m) "ncol")); [|lia]. cbn [andb].
  split; [reflexivity|]. split; [reflexivity|]. split; [reflexivity|]. split; [exact V|]. intros t s j S. unfold plane. rewrite E1, E4, cell_div, cell_mod by exact S. apply V.
Qed.
End Model.
Lemma tiny_missing p a : tiny (Z.of_nat p) a = missing p a.
Proof. unfold tiny. rewrite <- pow_powerRZ. destruct a; reflexivity. Qed.
Lemma tiny20 a : tiny 20 a = missing 20 a. Proof. exact (tiny_missing 20 a). Qed.
Lemma tiny40 a : tiny 40 a = missing 40 a. Proof. exact (tiny_missing 40 a). Qed.
Lemma neg_negative a : below_zero a = negative a.
Proof. destruct a; reflexivity. Qed.
Lemma nonpos_not a : at_most_zero a = not_positive a.
Proof. destruct a; reflexivity. Qed.
(** Cells are drawn in order of time. *)
Lemma cell_time_between c n t s : s < n -> (forall i j, i < j -> (c i < c j)%R) ->
  (cell_time c n t s <= c t)%R /\ (0 < t -> (c (t - 1)%nat < cell_time c n t s)%R) /\ (S s = n -> cell_time c n t s = c t).
Proof.
  intros S M. assert (N0 : (0 < INR n)%R) by (apply lt_0_INR; lia).
  assert (F1 : (0 < INR (Datatypes.S s) / INR n)%R) by (apply Rdiv_lt_0_compat; [apply lt_0_INR; lia|exact N0]).
  assert (F2 : (INR (Datatypes.S s) / INR n <= 1)%R). { apply Rmult_le_reg_r with (INR n); [exact N0|]. unfold Rdiv. rewrite Rmult_assoc, Rinv_l, Rmult_1_l, Rmult_1_r by lra. apply le_INR. lia. }
  unfold cell_time. set (u := (INR (Datatypes.S s) / INR n)%R) in *.
  assert (P : (0 < if Nat.eqb t O then c 1%nat - c O else c t - c (t - 1)%nat)%R).
  { destruct (Nat.eqb_spec t 0); [pose proof (M 0 1 ltac:(lia))|pose proof (M (t - 1) t ltac:(lia))]; lra. }
  split; [|split].
  - nra.
  - intro T. destruct (Nat.eqb_spec t 0); [lia|]. nra.
  - intro E. assert (U : u = 1%R) by (unfold u; rewrite E; field; lra). rewrite U. ring.
Qed.
