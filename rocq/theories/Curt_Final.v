(** Statements about curtains. *)
From Coq Require Import Reals Lra ZArith Lia.
From Verif Require Import Xr_Facts Disp_Stat Disp_Prof Disp_Crop Disp_Inst Xds_Proofs Xds_Stack Xds_Fields Load_Facts Disp_Wit Curt_Model Curt_Spec Curt_Facts Curt_Time Curt_Thm Curt_Regrid.
Local Open Scope string_scope.
Local Open Scope list_scope.

Lemma asked_truthy h : hatching_asked h -> truthy h = true.
Proof. intros [-> | (s & N & ->)]; [reflexivity|]. cbn [truthy]. apply Bool.negb_true_iff, String.eqb_neq, N. Qed.
Section Curtain.
Context (d : disp) (name : string) (z : Z) (f : nat -> nat -> xr) (c y : nat -> R) (times levels : nat) (pressure : bool) (zname : string)
  (AX : axes_of d c times levels) (C : curtain_of d name z f) (P : placed d pressure zname times levels y).
Let D := draws_curtain d name z f c y times levels pressure zname AX C P.
Theorem curtain o : titled_for times o -> limits o ->
  exists p, subcolumn_timeseries d name z pressure zname (with_mask o None (HBool false)) = Ok p /\ shows p times levels c y f /\ p_hatch p = None /\ coloured_as o p.
Proof. exact (d_plain _ _ _ _ _ _ _ D (titled_mask times) o). Qed.
Theorem curtain_masked o K : titled_for times o -> limits o ->
  exists p, subcolumn_timeseries d name z pressure zname (with_mask o (Some (mask_of times levels K)) (HBool false)) = Ok p /\
  shows p times levels c y (fun t k => if hides (K t k) then XNaN else f t k) /\ p_hatch p = None /\ coloured_as o p.
Proof. exact (d_masked _ _ _ _ _ _ _ D (titled_mask times) o K). Qed.
Theorem curtain_other o k : titled_for times o -> ash k <> [times; levels] ->
  subcolumn_timeseries d name z pressure zname (with_mask o (Some k) (HBool false)) = subcolumn_timeseries d name z pressure zname (with_mask o None (HBool false)).
Proof. exact (d_other_mask _ _ _ _ _ _ _ D (titled_mask times) o k). Qed.
Theorem curtain_hatched o K h : titled_for times o -> limits o -> hatching_asked h -> (forall t k, K t k = XF 0 \/ hides (K t k) = true) ->
  exists p, subcolumn_timeseries d name z pressure zname (with_mask o (Some (mask_of times levels K)) h) = Ok p /\
  shows p times levels c y f /\ coloured_as o p /\ exists g, p_hatch p = Some g /\ forall t k, g k t = true <-> hides (K t k) = true.
Proof.
  intros T L H N. apply asked_truthy in H. destruct (d_hatched _ _ _ _ _ _ _ D (titled_mask times) o K h T L H) as (p & E & S & CO & g & G & V).
  exists p. split; [exact E|]. split; [exact S|]. split; [exact CO|]. exists g. split; [exact G|]. intros t k. rewrite V.
  destruct (N t k) as [-> | N1]; split; intro Q; try congruence.
  - cbn [hides] in Q. destruct (Rle_dec 0 0); [discriminate|lra].
  - intro E0. rewrite E0 in N1. cbn [hides] in N1. destruct (Rle_dec 0 0); [discriminate|lra].
Qed.
Theorem curtain_hatched_negative o K h : titled_for times o -> limits o -> hatching_asked h ->
  exists p g, subcolumn_timeseries d name z pressure zname (with_mask o (Some (mask_of times levels K)) h) = Ok p /\ p_hatch p = Some g /\
    forall t k r, K t k = XF r -> (r < 0)%R -> hides (K t k) = false /\ g k t = true.
Proof.
  intros T L H. apply asked_truthy in H. destruct (d_hatched _ _ _ _ _ _ _ D (titled_mask times) o K h T L H) as (p & E & _ & _ & g & G & V).
  exists p, g. split; [exact E|]. split; [exact G|]. intros t k r R N. rewrite V, R. cbn [hides]. split.
  - destruct (Rle_dec r 0); [reflexivity|lra]. - intro Q. injection Q as ->. lra.
Qed.
Theorem curtain_hatched_all o h : titled_for times o -> limits o -> hatching_asked h ->
  exists p g, subcolumn_timeseries d name z pressure zname (with_mask o None h) = Ok p /\ p_hatch p = Some g /\ forall t k, g k t = true.
Proof.
  intros T L H. apply asked_truthy in H. destruct (d_hatched_all _ _ _ _ _ _ _ D (titled_mask times) o h T L H) as (p & E & _ & g & G & V). exists p, g. auto.
Qed.
Theorem curtain_hatched_other o k h : limits o -> hatching_asked h -> ash k <> [times; levels] ->
  subcolumn_timeseries d name z pressure zname (with_mask o (Some k) h) = Raise IndexError.
Proof. intros L H. exact (d_hatched_other _ _ _ _ _ _ _ D o k h L (asked_truthy h H)). Qed.
Theorem curtain_no_limits o : o_log o = true -> o_lo o = None \/ o_hi o = None ->
  subcolumn_timeseries d name z pressure zname o = Raise UnboundLocalError.
Proof. exact (d_no_limits _ _ _ _ _ _ _ D o). Qed.
Let Q := draws_q d name z f c y times levels pressure zname AX C P.
Theorem q_curtain o : titled_for times o -> limits o ->
  exists p, q_timeseries d name z pressure zname (with_mask o None (HBool false)) = Ok p /\
    shows p times levels c (fun k => y k / 1000)%R (fun t k => xmul (f t k) (XF 1000)) /\ p_hatch p = None /\ coloured_as o p.
Proof. exact (d_plain _ _ _ _ _ _ _ Q (titled_mask times) o). Qed.
Theorem q_masked o K : titled_for times o -> limits o ->
  exists p, q_timeseries d name z pressure zname (with_mask o (Some (mask_of times levels K)) (HBool false)) = Ok p /\
  shows p times levels c (fun k => y k / 1000)%R (fun t k => if hides (K t k) then XNaN else xmul (f t k) (XF 1000)) /\ p_hatch p = None /\ coloured_as o p.
Proof. exact (d_masked _ _ _ _ _ _ _ Q (titled_mask times) o K). Qed.
Theorem q_no_limits o : o_log o = true -> o_lo o = None \/ o_hi o = None ->
  q_timeseries d name z pressure zname o = Raise UnboundLocalError.
Proof. exact (d_no_limits _ _ _ _ _ _ _ Q o). Qed.
End Curtain.

Section Instrument.
Context (x : xds) (name hdim : string) (c : nat -> R) (f : nat -> nat -> xr) (y : nat -> R) (I : instrument_of x name hdim c f y).
Let D := draws_instrument x name hdim c f y I.
Theorem instrument o : titled_for (sz x "time") o -> limits o ->
  exists p, instrument_timeseries x name (with_mask o None (HBool false)) = Ok p /\ shows p (sz x "time") (sz x hdim) c y f /\ p_hatch p = None /\ coloured_as o p.
Proof. exact (d_plain _ _ _ _ _ _ _ D (titled_mask _) o). Qed.
Theorem instrument_masked o K : titled_for (sz x "time") o -> limits o ->
  exists p, instrument_timeseries x name (with_mask o (Some (mask_of (sz x "time") (sz x hdim) K)) (HBool false)) = Ok p /\
  shows p (sz x "time") (sz x hdim) c y (fun t k => if hides (K t k) then XNaN else f t k) /\ p_hatch p = None /\ coloured_as o p.
Proof. exact (d_masked _ _ _ _ _ _ _ D (titled_mask _) o K). Qed.
Theorem instrument_no_limits o : o_log o = true -> o_lo o = None \/ o_hi o = None -> instrument_timeseries x name o = Raise UnboundLocalError.
Proof. exact (d_no_limits _ _ _ _ _ _ _ D o). Qed.
End Instrument.

(** Without a title, numbers as times always fail. *)
Lemma bind_raise {A B} (r : res A) (k : A -> res B) : (forall a, exists e, k a = Raise e) -> exists e, bind r k = Raise e.
Proof. intro H. destruct r as [a|e]; [apply H|exists e; reflexivity]. Qed.
Lemma title_fails o n : o_titled o = false -> o_dated o = false -> exists e, title o n = Raise e.
Proof. intros T D. unfold title. rewrite T, D. destruct (Nat.eqb n 0); eexists; reflexivity. Qed.
Theorem untitled d x name z pressure zname o : o_titled o = false -> o_dated o = false ->
  (exists e, subcolumn_timeseries d name z pressure zname o = Raise e) /\ (exists e, q_timeseries d name z pressure zname o = Raise e) /\
  exists e, instrument_timeseries x name o = Raise e.
Proof.
  intros T D. unfold subcolumn_timeseries, q_timeseries, instrument_timeseries. cbv zeta.
  split; [|split]; apply bind_raise; intro x1; apply bind_raise; intros [nt t]; apply bind_raise; intros [ny y]; apply bind_raise; intro v; apply bind_raise; intro p.
  all: match goal with |- context [title ?o ?n] => destruct (title_fails o n T D) as [e ->]; exists e; reflexivity end.
Qed.

Theorem profile d name f c times levels pressure zname t : axes_of d c times levels -> subcolumn_field d name f -> 0 < times ->
  exists i, i < times /\ (forall j, j < times -> (Rabs (t - c i) <= Rabs (t - c j))%R) /\
    forall y, placed_at d pressure zname i levels y -> forall o, limits o ->
    (exists p, single_profile d name (XF t) pressure zname (with_mask o None (HBool false)) = Ok p /\
      shows p (sz (d_ds d) "subcolumn") levels INR y (fun s k => f s i k) /\ p_hatch p = None /\ coloured_as o p) /\
    forall K, exists p, single_profile d name (XF t) pressure zname (with_mask o (Some (mask_of (sz (d_ds d) "subcolumn") levels K)) (HBool false)) = Ok p /\
      shows p (sz (d_ds d) "subcolumn") levels INR y (fun s k => if hides (K s k) then XNaN else f s i k) /\ p_hatch p = None /\ coloured_as o p.
Proof.
  intros AX F T. destruct (draws_profile d name f c times levels pressure zname t AX F T) as (i & I & J & H). exists i. split; [exact I|]. split; [exact J|].
  intros y P o L. split.
  - exact (d_plain _ _ _ _ _ _ _ (H y P) (fun _ _ _ q => q) o Logic.I L).
  - intro K. exact (d_masked _ _ _ _ _ _ _ (H y P) (fun _ _ _ q => q) o K Logic.I L).
Qed.

(** Concrete cases: the display with two subcolumns of Disp_Wit. *)
Lemma w_axes : axes_of w_d INR 2 2.
Proof.
  constructor; try reflexivity.
  - apply w_clock. simpl. auto.
  - split; [apply has_dim_in; reflexivity|]. intros v V. discriminate V.
Qed.
Lemma w_curtain : curtain_of w_d "Ze" (-1) (fun t k => w_ze 1 t k).
Proof.
  eexists. split; [reflexivity|]. split; [repeat constructor; simpl; intuition discriminate|]. right. split; [reflexivity|]. exists 1.
  split; [|reflexivity]. split; [cbn; lia|]. cbn. right. lia.
Qed.
Lemma w_placed : placed w_d false "z" 2 2 (fun k => INR (100 * k) + 1 / 2)%R.
Proof.
  unfold placed. cbn [d_ds w_d]. eexists. split; [reflexivity|]. right. split; [reflexivity|]. split; [lia|]. exists w_y. split; [reflexivity|].
  intro k. unfold w_y, average, total. cbn [map seq fold_right length]. rewrite !plus_INR. cbn [INR]. lra.
Qed.
Lemma w_field : subcolumn_field w_d "Ze" w_ze.
Proof. eexists. split; [reflexivity|]. split; [repeat constructor; simpl; intuition discriminate|]. split; reflexivity. Qed.
Lemma w_placed_at i : placed_at w_d false "z" i 2 (w_y i).
Proof. eexists. split; [reflexivity|]. right. split; [reflexivity|]. reflexivity. Qed.
Lemma w_timed : timed w_d INR 2.
Proof. split; [apply w_clock; simpl; auto|split; reflexivity]. Qed.
Theorem curtain_given d name z f c y times levels pressure zname :
  axes_of d c times levels -> curtain_of d name z f -> placed d pressure zname times levels y ->
  forall lo hi dated, exists p, subcolumn_timeseries d name z pressure zname
    {| o_mask := None; o_hatch := HBool false; o_log := true; o_lo := Some lo; o_hi := Some hi; o_titled := true; o_dated := dated |} = Ok p /\
    shows p times levels c y f /\ p_log p = true /\ p_lo p = Some lo /\ p_hi p = Some hi.
Proof.
  intros A C P lo hi dated. destruct (curtain d name z f c y times levels pressure zname A C P
    {| o_mask := None; o_hatch := HBool false; o_log := true; o_lo := Some lo; o_hi := Some hi; o_titled := true; o_dated := dated |}) as (p & E & S & _ & CO).
  - left. reflexivity. - intros _. split; discriminate. - exists p. split; [exact E|]. split; [exact S|exact CO].
Qed.
Theorem q_pressure d name z f c labels times levels zname :
  axes_of d c times levels -> curtain_of d name z f -> placed d true zname times levels labels ->
  forall o, titled_for times o -> limits o ->
  exists p, q_timeseries d name z true zname (with_mask o None (HBool false)) = Ok p /\ forall k, k < levels -> p_y p k = XF (labels k / 1000).
Proof.
  intros A C P o T L. destruct (q_curtain d name z f c labels times levels true zname A C P o T L) as (p & E & (_ & _ & _ & _ & Y & _) & _).
  exists p. split; [exact E|exact Y].
Qed.
(** The same with labelled levels. *)
Definition lev_ds : xds := {| sz := sz w_ds; coords := ("lev", axis "lev") :: coords w_ds; vars := vars w_ds |}.
Definition lev_d : disp := {| d_model := with_ds w_m lev_ds; d_ds := lev_ds |}.
Lemma lev_axes : axes_of lev_d INR 2 2.
Proof.
  constructor; try reflexivity.
  - exists (axis "time"). split; [reflexivity|]. split; [reflexivity|]. split; [reflexivity|]. intros i j H. apply lt_INR. lia.
  - split; [apply has_dim_in; reflexivity|]. intros v V. injection V as <-. reflexivity.
Qed.
Lemma lev_curtain : curtain_of lev_d "T" 0 (fun t k => XF (INR k)).
Proof. eexists. split; [reflexivity|]. split; [repeat constructor; simpl; intuition discriminate|]. left. split; reflexivity. Qed.
Lemma lev_placed : placed lev_d true "z" 2 2 INR.
Proof. eexists. split; [reflexivity|]. reflexivity. Qed.
