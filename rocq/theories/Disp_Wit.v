(** Concrete displays. *)
From Coq Require Import Reals Lra.
From Verif Require Import Xr_Facts Disp_Spec Disp_Stat Disp_Level Disp_Prof Disp_Crop Disp_More Disp_Inst Xds_Proofs Xds_Fields.
Local Open Scope string_scope.
Local Open Scope list_scope.

Definition w_ze (s t k : nat) : xr := match s, k with 0, 0 => XM | _, _ => XF 0 end.
Definition w_y (t k : nat) : R := INR (100 * k + t).
Definition axis (d : string) : var := {| vdims := [d]; vat := fun ix => XF (INR (nth 0 ix 0)) |}.
(** Two subcolumns, times and levels; the first subcolumn has no echo at the lowest level. *)
Definition w_ds : xds := {| sz := fun _ => 2;
  coords := [("time", axis "time"); ("lat", axis "lat"); ("lon", axis "lon")];
  vars := [("Ze", {| vdims := ["subcolumn"; "time"; "lev"]; vat := fun ix => w_ze (nth 0 ix 0) (nth 1 ix 0) (nth 2 ix 0) |});
           ("z", {| vdims := ["time"; "lev"]; vat := fun ix => XF (w_y (nth 0 ix 0) (nth 1 ix 0)) |});
           ("T", {| vdims := ["time"; "lev"]; vat := fun ix => XF (INR (nth 1 ix 0)) |});
           ("precip", {| vdims := ["lat"; "time"; "lon"]; vat := fun ix => XF (INR (nth 0 ix 0 + 10 * nth 1 ix 0 + 100 * nth 2 ix 0)) |});
           ("range", {| vdims := ["lev"]; vat := fun ix => XF (INR (nth 0 ix 0)) |});
           ("Ze_one", {| vdims := ["one"; "time"; "lev"]; vat := fun ix => XF 0 |})] |}.
Definition w_m : mobj := {| mds := w_ds; time_dim := "time"; height_dim := "lev"; lat_dim := "lat"; lon_dim := "lon"; stacked_time_dim := None |}.
Definition w_d : disp := {| d_model := w_m; d_ds := w_ds |}.

Lemma w_clock d : In d ["time"; "lat"; "lon"] -> clock w_ds d INR.
Proof.
  intro I. exists (axis d). assert (S : forall i j, i < j < 2 -> (INR i < INR j)%R) by (intros i j H; apply lt_INR; lia).
  destruct I as [<-|[<-|[<-|[]]]]; (split; [reflexivity|]); (split; [reflexivity|]); split; auto.
Qed.
Lemma w_profile : profile_of w_d "Ze" "z" INR 2 2 w_ze w_y.
Proof.
  constructor.
  - apply w_clock. simpl. auto.
  - eexists. split; [reflexivity|]. split; reflexivity.
  - eexists. split; [reflexivity|]. split; reflexivity.
  - cbn. repeat constructor; simpl; intuition discriminate.
  - split; reflexivity.
Qed.
Lemma w_grid : grid_profile_of w_d "T" "z" INR 2 (fun _ k => XF (INR k)) w_y.
Proof.
  constructor.
  - apply w_clock. simpl. auto.
  - eexists. split; [reflexivity|]. split; reflexivity.
  - eexists. split; [reflexivity|]. split; reflexivity.
  - discriminate.
  - reflexivity.
Qed.
Lemma w_dBZ : is_dBZ "Ze" true. Proof. split; [intros _; apply contains_spec; reflexivity|reflexivity]. Qed.
Lemma w_not_dBZ : is_dBZ "T" false.
Proof. split; [discriminate|]. intro H. apply contains_spec in H. discriminate H. Qed.
Lemma w_instrument : instrument_of w_ds "T" "lev" INR (fun _ k => XF (INR k)) INR.
Proof.
  constructor.
  - apply w_clock. simpl. auto.
  - exists [], "range", ["altitude"; "height"]. eexists. split; [reflexivity|]. split; [intros p []|]. split; [reflexivity|]. split; reflexivity.
  - eexists. split; [reflexivity|]. split; reflexivity.
  - discriminate.
Qed.
(** One subcolumn. *)
Definition one_ds : xds := {| sz := fun d => if String.eqb d "subcolumn" then 1 else 2; coords := coords w_ds; vars := vars w_ds |}.
Definition one_d : disp := {| d_model := with_ds w_m one_ds; d_ds := one_ds |}.
Lemma w_one : profile_of one_d "Ze" "z" INR 1 2 w_ze w_y.
Proof.
  constructor.
  - destruct (w_clock "time") as (v & H); [simpl; auto|]. exists v. exact H.
  - eexists. split; [reflexivity|]. split; reflexivity.
  - eexists. split; [reflexivity|]. split; reflexivity.
  - cbn. repeat constructor; simpl; intuition discriminate.
  - split; reflexivity.
Qed.

(** A mask that hides nothing changes the profile. *)
Definition open_mask : option (nat -> nat -> nat -> xr) := Some (fun _ _ _ => XF 0).
Definition first_line (r : res (list (xr * (xr * xr * xr)))) : option xr :=
  match r with Ok (p :: _) => Some (fst (fst (snd p))) | _ => None end.
Lemma masked_line : first_line (mean_profile w_d "Ze" "z" WAll (mask3 2 2 2 open_mask) (GBool false)) = Some (XF (dB (1 / 2))).
Proof.
  transitivity (Some (fst (fst (level true false (map (fun a => if xleb (XF 0) (XF 0) then a else XNaN) [XM; XM; XF 0; XF 0]))))); [reflexivity|].
  assert (Z : xleb (XF 0) (XF 0) = true) by (cbn; unfold Rleb; destruct (Rle_dec 0 0); [reflexivity|lra]). rewrite Z. cbn [map].
  rewrite level_ze. cbn [map]. rewrite lin_fin.
  assert (L : lin XM = XF 0).
  { unfold lin. cbn. repeat (match goal with |- context [Rlt_dec ?a ?b] => destruct (Rlt_dec a b); try lra | |- context [Req_EM_T ?a ?b] => destruct (Req_EM_T a b); try lra end; cbn); reflexivity. }
  rewrite L, mean_arith by (split; intros [|[|[|[|[]]]]]; discriminate). cbn [numbers flat_map app].
  replace (0 / 10)%R with 0%R by field. rewrite Rpower_O by lra.
  assert (A : average [0; 0; 1; 1]%R = (1 / 2)%R) by (unfold average, total; cbn; field). rewrite A. cbn [fst].
  rewrite db_fin by lra. reflexivity.
Qed.
Lemma plain_line : first_line (mean_profile w_d "Ze" "z" WAll None (GBool false)) = Some (XF (dB 1)).
Proof.
  transitivity (Some (fst (fst (level true false [XNaN; XNaN; XF 0; XF 0])))); [reflexivity|].
  rewrite level_ze. cbn [map]. rewrite lin_fin, lin_nan, mean_arith by (split; intros [|[|[|[|[]]]]]; discriminate). cbn [numbers flat_map app].
  replace (0 / 10)%R with 0%R by field. rewrite Rpower_O by lra.
  assert (A : average [1; 1]%R = 1%R) by (unfold average, total; cbn; field). rewrite A. cbn [fst]. rewrite db_fin by lra. reflexivity.
Qed.
Lemma dB_half : dB (1 / 2) <> dB 1.
Proof.
  unfold dB, log10. rewrite ln_1. assert (ln (1 / 2) < 0)%R by (rewrite <- ln_1; apply ln_increasing; lra).
  pose proof ln10_pos. intro E. assert (Q : (ln (1 / 2) / ln 10 = 0)%R) by lra.
  apply Rmult_integral in Q as [Q|Q]; [lra|]. pose proof (Rinv_0_lt_compat _ H0). lra.
Qed.
Theorem open_mask_refuted : exists d name yname c subs levels f y, profile_of d name yname c subs levels f y /\
  (forall s j k, visible open_mask f (seq 0 (sz (d_ds d) (time_dim (d_model d)))) s j k =
                 visible None f (seq 0 (sz (d_ds d) (time_dim (d_model d)))) s j k) /\
  exists r r', mean_profile d name yname WAll None (GBool false) = Ok r /\
    mean_profile d name yname WAll (mask3 subs (sz (d_ds d) (time_dim (d_model d))) levels open_mask) (GBool false) = Ok r' /\
    map (fun p => fst (fst (snd p))) r <> map (fun p => fst (fst (snd p))) r'.
Proof.
  exists w_d, "Ze", "z", INR, 2, 2, w_ze, w_y. split; [exact w_profile|]. split.
  - intros s j k. unfold visible, open_mask. destruct (Rle_dec 0 0); [reflexivity|lra].
  - eexists. eexists. split; [reflexivity|]. split; [reflexivity|].
    intro E. apply dB_half.
    pose proof plain_line as H1. pose proof masked_line as H2. cbn in H1, H2.
    injection E as E _. injection H1 as H1. injection H2 as H2. rewrite H1, H2 in E. injection E. auto.
Qed.
