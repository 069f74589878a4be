(** The P3 ice parameters of a loaded E3SMv3 dataset. *)
From Verif Require Import P3_Spec P3_Grid Load_Facts Load_Final Xr_Facts Xds_Fields Xds_Spec Psd_Int.
From Coq Require Import Sorted Lra Lia.
Local Open Scope R_scope.

Lemma in_at_node rs i : (S i < length rs)%nat -> StronglySorted Rlt rs ->
  in_interval rs i (nth i rs 0) (nth i rs 0) (nth (S i) rs 0).
Proof.
  intros L S. split; [apply nth_err; lia|]. split; [apply nth_err; exact L|]. split; [lra|].
  apply Rlt_le. apply sorted_nth; [exact S|lia|exact L].
Qed.

Section Clamp.
Variables (l : list xr) (rs : list R).
Hypothesis A : table_axis l rs.
Lemma ax_order : first_of rs <= last_of rs.
Proof. unfold first_of, last_of. pose proof (ax_len _ _ A). apply sorted_nth_le; [apply (ax_sorted _ _ A)|lia|lia]. Qed.
Lemma ax_range : axis_range l (first_of rs) (last_of rs).
Proof.
  pose proof (ax_len _ _ A) as N. rewrite (ax_eq _ _ A). split; [|split].
  - apply in_map. apply nth_In. lia.
  - apply in_map. apply nth_In. lia.
  - intros g I. apply in_map_iff in I as (r & <- & I). right. exists r. split; [reflexivity|].
    apply In_nth with (d := 0) in I as (n & Ln & <-). unfold first_of, last_of. pose proof (ax_sorted _ _ A) as SO.
    split; apply sorted_nth_le; try exact SO; lia.
Qed.
Lemma clamp_into v : clamp_to l v = into_range_x rs v.
Proof.
  destruct v as [r| | |]; simpl into_range_x.
  - exact (clamp_real _ _ _ _ ax_range).
  - apply clamp_nan.
  - unfold clamp_to. destruct (axis_nanmin _ _ _ ax_range) as [-> ->]. reflexivity.
  - unfold clamp_to. destruct (axis_nanmin _ _ _ ax_range) as [-> ->]. reflexivity.
Qed.
Lemma into_bounds r : first_of rs <= into_range rs r <= last_of rs.
Proof. pose proof ax_order. unfold into_range, Rmax, Rmin. repeat (destruct (Rle_dec _ _)); lra. Qed.
Lemma into_inside r : first_of rs <= r <= last_of rs -> into_range rs r = r.
Proof. unfold into_range, Rmax, Rmin. repeat (destruct (Rle_dec _ _)); lra. Qed.
Lemma into_x v : into_range_x rs v = XNaN /\ v = XNaN \/ exists r, into_range_x rs v = XF r /\ first_of rs <= r <= last_of rs.
Proof.
  pose proof ax_order. destruct v as [r| | |]; simpl; [right|left; auto|right|right].
  - eexists. split; [reflexivity|apply into_bounds].
  - eexists. split; [reflexivity|lra].
  - eexists. split; [reflexivity|lra].
Qed.
Lemma clamp_twice v : clamp_to l (clamp_to l v) = into_range_x rs v.
Proof.
  rewrite !clamp_into. destruct (into_x v) as [[-> _]|(r & -> & B)]; [reflexivity|]. simpl. rewrite into_inside by exact B. reflexivity.
Qed.
Lemma some_interval x : first_of rs <= x <= last_of rs -> exists i a b, in_interval rs i x a b.
Proof.
  intro B. destruct (ax_slot _ _ A x B) as (L & R0 & _ & _). exists (slot l (XF x)). do 2 eexists.
  split; [apply nth_err; lia|]. split; [apply nth_err; exact L|]. exact R0.
Qed.
Lemma clamp_var_ok v : clamp_var l v = Ok (vmap (clamp_to l) v).
Proof. unfold clamp_var. pose proof (ax_len _ _ A) as N. rewrite (ax_eq _ _ A). destruct rs; [simpl in N; lia|reflexivity]. Qed.
End Clamp.

(** ** Shape and intercept *)
Lemma mu_real lam : 0 < lam -> mu_of (XF lam) = XF (p3_shape lam).
Proof.
  intro P. unfold mu_of. rewrite xdiv_fin by lra. rewrite xpow_fin by lra. unfold xsub. cbn [xmul xopp xadd].
  unfold xmax, xmin. cbn [isnan orb xltb]. unfold p3_shape, Rltb. set (m := 76 / 1000 * Rpower (lam / 100) (8 / 10) + - (2)).
  replace (76 / 1000 * Rpower (lam / 100) (8 / 10) - 2) with m by (unfold m; ring).
  destruct (Rlt_dec m 0); cbn [isnan orb xltb]; unfold Rltb;
    match goal with |- context [Rlt_dec 6 ?a] => destruct (Rlt_dec 6 a) end; apply (f_equal XF);
    unfold Rmax, Rmin; repeat (destruct (Rle_dec _ _)); lra.
Qed.
Lemma mu_missing : mu_of XNaN = XNaN.
Proof.
  unfold mu_of. cbn. destruct (Req_EM_T (8 / 10) 0); [lra|]. reflexivity.
Qed.
Lemma n0_real Gam lam : 0 < lam -> Gam (p3_shape lam + 1) <> 0 -> n0_of Gam (XF lam) = XF (unit_intercept Gam lam).
Proof.
  intros P N. unfold n0_of. rewrite mu_real by exact P. cbn [xadd xgam]. rewrite xpow_fin by exact P.
  rewrite xdiv_fin by exact N. reflexivity.
Qed.
Lemma n0_missing Gam : n0_of Gam XNaN = XNaN.
Proof. unfold n0_of. rewrite mu_missing. reflexivity. Qed.
Lemma shape_bounds lam : 0 <= p3_shape lam <= 6.
Proof. unfold p3_shape, Rmax, Rmin. repeat (destruct (Rle_dec _ _)); lra. Qed.

Lemma one_particle Gam lam : 0 < lam -> gamma_value (p3_shape lam + 1) (Gam (p3_shape lam + 1)) ->
  integral_to_infinity (gamma_psd (unit_intercept Gam lam) lam (p3_shape lam)) 1.
Proof.
  intros P G. pose proof (gamma_value_pos _ _ G) as GP.
  assert (NZ : Rpower lam (p3_shape lam + 1) <> 0) by (unfold Rpower; apply Rgt_not_eq, exp_pos).
  pose proof (gamma_moment (unit_intercept Gam lam) lam (p3_shape lam) 0 (Gam (p3_shape lam + 1)) P) as H.
  rewrite Rplus_0_r in H. specialize (H G).
  replace 1 with (unit_intercept Gam lam * Gam (p3_shape lam + 1) / Rpower lam (p3_shape lam + 1)).
  - eapply integral_ext; [|exact H]. intros D PD. cbv beta. rewrite Rpower_O by exact PD. ring.
  - unfold unit_intercept. field. split; [lra|exact NZ].
Qed.

(** ** Reading *)
Lemma shape_ok x f r q : vdims f = vdims r -> vdims f = vdims q -> forall A (k : res A),
  (do _ <- vpos x (fun a _ => a) f r; do _ <- vpos x (fun a _ => a) f q; k) = k.
Proof. intros E1 E2 A k. rewrite (vpos_ok _ _ _ _ E1). cbn [bind]. rewrite (vpos_ok _ _ _ _ E2). reflexivity. Qed.

Section Read.
Variables (Gam : R -> R) (o : e3sm_opts) (m : mobj) (T : var).
Let f := e3sm_fields (o_single_ice o).
Let hs := e3sm_types (o_single_ice o) (o_rain o).
Hypothesis RN : o_range o = None.
Hypothesis DM : domain m.
Hypothesis FF : e3sm_file m f hs T.
Hypothesis P3 : o_scheme o = "P3"%string.
Hypothesis PF : p3_file m T.
Variables (tb : p3_table) (fr rr qn : list R) (L : nat -> nat -> nat -> R).
Hypothesis RT : real_table tb fr rr qn L.
Let P3F : o_scheme o = "P3"%string -> p3_file m T := fun _ => PF.

Definition p3_all : list string := ["Fr"; "rho_r"; "qi_norm"; "lambda_ice"; "mu_ice"; "N0_norm_ice"]%string.

Lemma slope_spec x y z : table_slope fr rr qn L x y z
  (rgi (ax_fr tb) (ax_rr tb) (ax_qn tb) (t_lam tb) (into_range_x fr x) (into_range_x rr y) (into_range_x qn z)).
Proof.
  destruct RT as [A1 A2 A3 A4]. unfold table_slope.
  destruct (into_x _ _ A1 x) as [[-> _]|(x' & -> & Bx)]; [apply rgi_missing; auto|].
  destruct (into_x _ _ A2 y) as [[-> _]|(y' & -> & By)]; [apply rgi_missing; auto|].
  destruct (into_x _ _ A3 z) as [[-> _]|(z' & -> & Bz)]; [apply rgi_missing; auto|].
  destruct (some_interval _ _ A1 x' Bx) as (i & a & a' & Hx). destruct (some_interval _ _ A2 y' By) as (j & b & b' & Hy).
  destruct (some_interval _ _ A3 z' Bz) as (k & c & c' & Hz).
  exists i, j, k, a, a', b, b', c, c'. split; [exact Hx|]. split; [exact Hy|]. split; [exact Hz|].
  apply (rgi_trilinear _ _ _ _ _ RT); assumption.
Qed.

Lemma read_p3 : exists m1 m', e3sm_load o m = Ok m1 /\ e3smv3_load Gam o (Some tb) m = Ok m' /\
  coords (mds m') = coords (mds m1) /\
  (forall k, ~ In k p3_all -> assoc (vars (mds m')) k = assoc (vars (mds m1)) k) /\
  loaded m m' "Fr" (fun ix => into_range_x fr (rime_fraction m ix)) /\
  loaded m m' "rho_r" (fun ix => into_range_x rr (rime_density m ix)) /\
  loaded m m' "qi_norm" (fun ix => into_range_x qn (mass_per_number m ix)) /\
  exists vl vm vn, field (mds m') "lambda_ice" vl /\ field (mds m') "mu_ice" vm /\ field (mds m') "N0_norm_ice" vn /\
  forall ix, inside (mds m) ix ->
    table_slope fr rr qn L (rime_fraction m ix) (rime_density m ix) (mass_per_number m ix) (at_ vl (place m ix)) /\
    at_ vm (place m ix) = mu_of (at_ vl (place m ix)) /\
    at_ vn (place m ix) = n0_of Gam (at_ vl (place m ix)).
Proof.
  destruct (final_ok o m T RN DM FF P3F) as (m1 & E). pose proof RT as [A1 A2 A3 _].
  destruct (final_p3 o m m1 T RN DM FF P3F E P3) as (_ & (vF & F1 & V1) & (vR & F2 & V2) & (vQ & F3 & V3)).
  destruct (final_p3_dims o m m1 T RN DM FF P3F E P3) as (D & wF & wR & wQ & G1 & G2 & G3 & D1 & D2 & D3).
  unfold field in F1, F2, F3, G1, G2, G3.
  rewrite F1 in G1. injection G1 as <-. rewrite F2 in G2. injection G2 as <-. rewrite F3 in G3. injection G3 as <-.
  pose proof (final_names o m m1 T RN DM FF P3F E) as NM.
  assert (N1 := NM "Fr"%string ltac:(simpl; tauto)). assert (N2 := NM "rho_r"%string ltac:(simpl; tauto)).
  assert (N3 := NM "qi_norm"%string ltac:(simpl; tauto)). clear NM.
  set (cF := vmap (clamp_to (ax_fr tb)) vF). set (cR := vmap (clamp_to (ax_rr tb)) vR). set (cQ := vmap (clamp_to (ax_qn tb)) vQ).
  assert (L1 : limit_to_lut tb (mds m1) = Ok (cF, cR, cQ)).
  { unfold limit_to_lut. rewrite (getv_var _ _ _ F1 N1). cbn [bind]. rewrite (clamp_var_ok _ _ A1). cbn [bind].
    rewrite (getv_var _ _ _ F2 N2). cbn [bind]. rewrite (clamp_var_ok _ _ A2). cbn [bind].
    rewrite (getv_var _ _ _ F3 N3). cbn [bind]. rewrite (clamp_var_ok _ _ A3). reflexivity. }
  set (x1 := setv (setv (setv (mds m1) "Fr" cF) "rho_r" cR) "qi_norm" cQ).
  assert (K1 : field x1 "Fr" cF).
  { unfold field, x1. rewrite !set_other by discriminate. apply set_same. }
  assert (K2 : field x1 "rho_r" cR).
  { unfold field, x1. rewrite !set_other by discriminate. apply set_same. }
  assert (K3 : field x1 "qi_norm" cQ) by apply set_same.
  assert (L2 : limit_to_lut tb x1 = Ok (vmap (clamp_to (ax_fr tb)) cF, vmap (clamp_to (ax_rr tb)) cR, vmap (clamp_to (ax_qn tb)) cQ)).
  { unfold limit_to_lut. rewrite (getv_var _ _ _ K1 N1). cbn [bind]. rewrite (clamp_var_ok _ _ A1). cbn [bind].
    rewrite (getv_var _ _ _ K2 N2). cbn [bind]. rewrite (clamp_var_ok _ _ A2). cbn [bind].
    rewrite (getv_var _ _ _ K3 N3). cbn [bind]. rewrite (clamp_var_ok _ _ A3). reflexivity. }
  set (lam := {| vdims := vdims cF; vat := fun ix => rgi (ax_fr tb) (ax_rr tb) (ax_qn tb) (t_lam tb)
     (vat (vmap (clamp_to (ax_fr tb)) cF) ix) (vat (vmap (clamp_to (ax_rr tb)) cR) ix) (vat (vmap (clamp_to (ax_qn tb)) cQ) ix) |}).
  set (x2 := setv (setv (setv x1 "lambda_ice" lam) "mu_ice" (vmap mu_of lam)) "N0_norm_ice" (vmap (n0_of Gam) lam)).
  assert (I2 : interp_p3 Gam tb true x1 = Ok x2).
  { unfold interp_p3. rewrite L2. cbn [bind].
    rewrite (ax_valid _ _ A1), (ax_valid _ _ A2), (ax_valid _ _ A3). cbn [andb negb].
    rewrite shape_ok.
    - rewrite (getv_var _ _ _ K1 N1). reflexivity.
    - cbn. congruence.
    - cbn. congruence. }
  exists m1, (with_ds m1 x2). split; [exact E|]. split.
  { unfold e3smv3_load. rewrite E. cbn [bind]. rewrite P3. cbn [String.eqb Ascii.eqb Bool.eqb].
    rewrite L1. cbn [bind]. fold x1. rewrite I2. reflexivity. }
  split; [reflexivity|]. split.
  { intros k N. cbn [with_ds mds]. unfold x2, x1.
    rewrite !set_other; [reflexivity|..]; intro Q; apply N; rewrite Q; simpl; tauto. }
  split; [|split; [|split]].
  - exists cF. split.
    + unfold field, x2. cbn [with_ds mds]. rewrite !set_other by discriminate. exact K1.
    + intros ix I. unfold cF. rewrite at_vmap, (V1 ix I). apply clamp_into. exact A1.
  - exists cR. split.
    + unfold field, x2. cbn [with_ds mds]. rewrite !set_other by discriminate. exact K2.
    + intros ix I. unfold cR. rewrite at_vmap, (V2 ix I). apply clamp_into. exact A2.
  - exists cQ. split.
    + unfold field, x2. cbn [with_ds mds]. rewrite !set_other by discriminate. exact K3.
    + intros ix I. unfold cQ. rewrite at_vmap, (V3 ix I). apply clamp_into. exact A3.
  - exists lam, (vmap mu_of lam), (vmap (n0_of Gam) lam). split; [|split; [|split]].
    + unfold field, x2. cbn [with_ds mds]. rewrite !set_other by discriminate. apply set_same.
    + unfold field, x2. cbn [with_ds mds]. rewrite !set_other by discriminate. apply set_same.
    + apply set_same.
    + intros ix I. rewrite !at_vmap. split; [|split; reflexivity].
      assert (VL : at_ lam (place m ix) = rgi (ax_fr tb) (ax_rr tb) (ax_qn tb) (t_lam tb)
        (clamp_to (ax_fr tb) (clamp_to (ax_fr tb) (at_ vF (place m ix)))) (clamp_to (ax_rr tb) (clamp_to (ax_rr tb) (at_ vR (place m ix))))
        (clamp_to (ax_qn tb) (clamp_to (ax_qn tb) (at_ vQ (place m ix))))).
      { unfold at_, lam, cF, cR, cQ. cbn [vdims vat vmap]. rewrite D1, D2, D3. reflexivity. }
      rewrite VL, (clamp_twice _ _ A1), (clamp_twice _ _ A2), (clamp_twice _ _ A3), (V1 ix I), (V2 ix I), (V3 ix I).
      apply slope_spec.
Qed.
End Read.

(** With positive slopes in the table. *)
Lemma slope_between fr rr qn L x y z l lo hi : (exists l1, table_axis l1 fr) -> (exists l2, table_axis l2 rr) -> (exists l3, table_axis l3 qn) ->
  (forall i j k, (i < length fr)%nat -> (j < length rr)%nat -> (k < length qn)%nat -> lo <= L i j k <= hi) ->
  table_slope fr rr qn L x y z l ->
  (x = XNaN \/ y = XNaN \/ z = XNaN) /\ l = XNaN \/
  x <> XNaN /\ y <> XNaN /\ z <> XNaN /\ exists v, l = XF v /\ lo <= v <= hi.
Proof.
  intros (l1 & A1) (l2 & A2) (l3 & A3) B. unfold table_slope.
  destruct (into_x _ _ A1 x) as [[-> Qx]|(x' & Ex & Bx)]; [left; auto|]. rewrite Ex.
  destruct (into_x _ _ A2 y) as [[-> Qy]|(y' & Ey & By)]; [left; auto|]. rewrite Ey.
  destruct (into_x _ _ A3 z) as [[-> Qz]|(z' & Ez & Bz)]; [left; auto|]. rewrite Ez.
  intros (i & j & k & a & a' & b & b' & c & c' & Hx & Hy & Hz & ->). right.
  split; [intros ->; discriminate|]. split; [intros ->; discriminate|]. split; [intros ->; discriminate|].
  eexists. split; [reflexivity|].
  assert (U : forall rs n r p q l0, table_axis l0 rs -> in_interval rs n r p q -> (S n < length rs)%nat /\ 0 <= (r - p) / (q - p) <= 1).
  { intros rs n r p q l0 A (Ha & Hb & [Q1 Q2]). apply err_nth in Ha as [La Ha]. apply err_nth in Hb as [Lb Hb].
    split; [exact Lb|]. assert (P : p < q) by (rewrite <- Ha, <- Hb; apply sorted_nth; [apply (ax_sorted _ _ A)|lia|exact Lb]).
    split.
    - apply Rmult_le_pos; [lra|]. apply Rlt_le, Rinv_0_lt_compat. lra.
    - apply Rmult_le_reg_r with (q - p); [lra|]. unfold Rdiv. rewrite Rmult_assoc, Rinv_l by lra. lra. }
  destruct (U _ _ _ _ _ _ A1 Hx) as [L1 U1]. destruct (U _ _ _ _ _ _ A2 Hy) as [L2 U2]. destruct (U _ _ _ _ _ _ A3 Hz) as [L3 U3].
  unfold trilinear. repeat apply lerp_between; try assumption; apply B; lia.
Qed.

Lemma read_ok Gam o m T tb fr rr qn L : o_range o = None -> domain m ->
  e3sm_file m (e3sm_fields (o_single_ice o)) (e3sm_types (o_single_ice o) (o_rain o)) T ->
  o_scheme o = "P3"%string -> p3_file m T -> real_table tb fr rr qn L ->
  exists m', e3smv3_load Gam o (Some tb) m = Ok m'.
Proof. intros A B C D E F. destruct (read_p3 Gam o m T A B C D E tb fr rr qn L F) as (? & m' & _ & H & _). eauto. Qed.
Lemma read_inputs Gam o m m' T tb fr rr qn L : o_range o = None -> domain m ->
  e3sm_file m (e3sm_fields (o_single_ice o)) (e3sm_types (o_single_ice o) (o_rain o)) T ->
  o_scheme o = "P3"%string -> p3_file m T -> real_table tb fr rr qn L -> e3smv3_load Gam o (Some tb) m = Ok m' ->
  loaded m m' "Fr" (fun ix => into_range_x fr (rime_fraction m ix)) /\
  loaded m m' "rho_r" (fun ix => into_range_x rr (rime_density m ix)) /\
  loaded m m' "qi_norm" (fun ix => into_range_x qn (mass_per_number m ix)).
Proof.
  intros A B C D E F G. destruct (read_p3 Gam o m T A B C D E tb fr rr qn L F) as (? & m2 & _ & H & _ & _ & I).
  rewrite G in H. injection H as <-. tauto.
Qed.
Lemma read_others Gam o m m' T tb fr rr qn L : o_range o = None -> domain m ->
  e3sm_file m (e3sm_fields (o_single_ice o)) (e3sm_types (o_single_ice o) (o_rain o)) T ->
  o_scheme o = "P3"%string -> p3_file m T -> real_table tb fr rr qn L -> e3smv3_load Gam o (Some tb) m = Ok m' ->
  exists m1, e3sm_load o m = Ok m1 /\ coords (mds m') = coords (mds m1) /\
  forall k, ~ In k ["Fr"; "rho_r"; "qi_norm"; "lambda_ice"; "mu_ice"; "N0_norm_ice"]%string ->
    assoc (vars (mds m')) k = assoc (vars (mds m1)) k.
Proof.
  intros A B C D E F G. destruct (read_p3 Gam o m T A B C D E tb fr rr qn L F) as (m1 & m2 & K & H & I & J & _).
  rewrite G in H. injection H as <-. exists m1. auto.
Qed.
Lemma read_slope Gam o m m' T tb fr rr qn L : o_range o = None -> domain m ->
  e3sm_file m (e3sm_fields (o_single_ice o)) (e3sm_types (o_single_ice o) (o_rain o)) T ->
  o_scheme o = "P3"%string -> p3_file m T -> real_table tb fr rr qn L -> e3smv3_load Gam o (Some tb) m = Ok m' ->
  forall ix, inside (mds m) ix ->
  table_slope fr rr qn L (rime_fraction m ix) (rime_density m ix) (mass_per_number m ix) (box_value m m' "lambda_ice" ix).
Proof.
  intros A B C D E F G ix I.
  destruct (read_p3 Gam o m T A B C D E tb fr rr qn L F) as (m1 & m2 & _ & H & _ & _ & _ & _ & _ & vl & vm & vn & J & _ & _ & K).
  rewrite G in H. injection H as <-. unfold box_value. unfold field in J. rewrite J. apply K. exact I.
Qed.
Lemma read_psd Gam o m m' T tb fr rr qn L lo hi : o_range o = None -> domain m ->
  e3sm_file m (e3sm_fields (o_single_ice o)) (e3sm_types (o_single_ice o) (o_rain o)) T ->
  o_scheme o = "P3"%string -> p3_file m T -> real_table tb fr rr qn L -> e3smv3_load Gam o (Some tb) m = Ok m' ->
  (forall i j k, (i < length fr)%nat -> (j < length rr)%nat -> (k < length qn)%nat -> lo <= L i j k <= hi) -> 0 < lo ->
  forall ix, inside (mds m) ix ->
  ((rime_fraction m ix = XNaN \/ rime_density m ix = XNaN \/ mass_per_number m ix = XNaN) ->
     box_value m m' "lambda_ice" ix = XNaN /\ box_value m m' "mu_ice" ix = XNaN /\ box_value m m' "N0_norm_ice" ix = XNaN) /\
  (rime_fraction m ix <> XNaN -> rime_density m ix <> XNaN -> mass_per_number m ix <> XNaN -> exists lam,
     lo <= lam <= hi /\ 0 <= p3_shape lam <= 6 /\
     box_value m m' "lambda_ice" ix = XF lam /\ box_value m m' "mu_ice" ix = XF (p3_shape lam) /\
     (gamma_value (p3_shape lam + 1) (Gam (p3_shape lam + 1)) -> exists n0,
        box_value m m' "N0_norm_ice" ix = XF n0 /\ integral_to_infinity (gamma_psd n0 lam (p3_shape lam)) 1)).
Proof.
  intros A B C D E F G BD P ix I.
  destruct (read_p3 Gam o m T A B C D E tb fr rr qn L F) as (m1 & m2 & _ & H & _ & _ & _ & _ & _ & vl & vm & vn & J1 & J2 & J3 & K).
  rewrite G in H. injection H as <-. unfold box_value. unfold field in J1, J2, J3. rewrite J1, J2, J3.
  destruct (K ix I) as (K1 & K2 & K3). destruct F as [F1 F2 F3 F4].
  destruct (slope_between fr rr qn L _ _ _ _ lo hi (ex_intro (fun l => table_axis l fr) _ F1) (ex_intro (fun l => table_axis l rr) _ F2)
    (ex_intro (fun l => table_axis l qn) _ F3) BD K1)
    as [[N V]|(N1 & N2 & N3 & lam & V & W)].
  - split.
    + intros _. rewrite K2, K3, V. split; [reflexivity|]. split; [apply mu_missing|apply n0_missing].
    + intros. tauto.
  - split; [tauto|]. intros _ _ _. exists lam. split; [exact W|]. split; [apply shape_bounds|]. split; [exact V|].
    assert (PL : 0 < lam) by lra.
    rewrite K2, K3, V, mu_real by exact PL. split; [reflexivity|]. intro GV. exists (unit_intercept Gam lam). split.
    + apply n0_real; [exact PL|]. apply Rgt_not_eq. apply (gamma_value_pos _ _ GV).
    + apply one_particle; assumption.
Qed.
Lemma no_table Gam o m : e3smv3_load Gam o None m = e3sm_load o m.
Proof. unfold e3smv3_load. destruct (e3sm_load o m); [|reflexivity]. cbn [bind]. destruct (String.eqb _ _); reflexivity. Qed.

(** Nodes of the table. *)
Lemma at_nodes tb fr rr qn L i j k : real_table tb fr rr qn L ->
  (S i < length fr)%nat -> (S j < length rr)%nat -> (S k < length qn)%nat ->
  rgi (ax_fr tb) (ax_rr tb) (ax_qn tb) (t_lam tb) (XF (nth i fr 0)) (XF (nth j rr 0)) (XF (nth k qn 0)) = XF (L i j k).
Proof.
  intros RT Li Lj Lk. pose proof RT as [A1 A2 A3 _].
  pose proof (in_at_node fr i Li (ax_sorted _ _ A1)) as H1. pose proof (in_at_node rr j Lj (ax_sorted _ _ A2)) as H2.
  pose proof (in_at_node qn k Lk (ax_sorted _ _ A3)) as H3.
  rewrite (rgi_trilinear _ _ _ _ _ RT _ _ _ _ _ _ _ _ _ _ _ _ H1 H2 H3). apply (f_equal XF).
  unfold trilinear, lerp, Rdiv. rewrite !Rminus_diag_eq by reflexivity. ring.
Qed.
