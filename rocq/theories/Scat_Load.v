(** Tables read from files. *)
From Coq Require Import Reals Lra Lia.
From Verif Require Import Scat_Spec Xr_Facts Load_Facts Xds_Fields Xds_Stack Xds_Proofs Xds_Spec.
Local Open Scope string_scope.
Local Open Scope list_scope.
Local Open Scope R_scope.

Lemma entry_map t n f k rows i row : assoc t n = Some (map f (map (fun r => nth k r XNaN) rows)) ->
  nth_error rows i = Some row -> entry t n i = f (nth k row XNaN).
Proof.
  intros A E. unfold entry. rewrite A, map_map.
  apply nth_error_nth. rewrite nth_error_map, E. reflexivity.
Qed.
Lemma entry_raw t n k rows i row : assoc t n = Some (map (fun r => nth k r XNaN) rows) ->
  nth_error rows i = Some row -> entry t n i = nth k row XNaN.
Proof.
  intros A E. unfold entry. rewrite A. apply nth_error_nth. rewrite nth_error_map, E. reflexivity.
Qed.

Lemma mie_values rows : exists t, load_mie rows = Ok t /\
  forall i w r x mr mi sc al be qs qe qb,
  nth_error rows i = Some (map XF [w; r; x; mr; mi; sc; al; be; qs; qe; qb]) ->
  entry t "wavelength" i = XF w /\ entry t "p_diam" i = XF (2 * r / 10 ^ 6) /\ entry t "size_parameter" i = XF x /\
  entry t "compre_real" i = XF mr /\ entry t "compre_im" i = XF mi /\
  entry t "scat_p" i = XF (sc / 10 ^ 12) /\ entry t "alpha_p" i = XF (al / 10 ^ 12) /\
  entry t "beta_p" i = XF (be / 10 ^ 12 / (4 * PI)) /\
  entry t "scat_eff" i = XF qs /\ entry t "ext_eff" i = XF qe /\ entry t "backscat_eff" i = XF (qb / (4 * PI)).
Proof.
  eexists. split; [reflexivity|]. intros i w r x mr mi sc al be qs qe qb E.
  pose proof PI_RGT_0 as HP.
  repeat match goal with |- _ /\ _ => split end;
  (first [erewrite entry_map; [|reflexivity|exact E] | erewrite entry_raw; [|reflexivity|exact E]]);
  cbn [map nth]; unfold times, micro2; cbn [xmul]; rewrite ?xdiv_fin by lra; apply (f_equal XF); field; lra.
Qed.

Lemma scat_c6_values rows radar : exists t, load_scat rows radar "C6" = Ok t /\
  forall i f d da dv v a be sc al bc,
  nth_error rows i = Some (map XF [f; d; da; dv; v; a; be; sc; al; bc]) ->
  entry t (if radar then "frequency" else "wavelength") i = XF f /\
  entry t "p_diam" i = XF (d / 10 ^ 6) /\ entry t "p_diam_eq_A" i = XF (da / 10 ^ 6) /\ entry t "p_diam_eq_V" i = XF (dv / 10 ^ 6) /\
  entry t "V" i = XF (v / 10 ^ 18) /\ entry t "A" i = XF (a / 10 ^ 12) /\ entry t "beta_p" i = XF (be / 10 ^ 12) /\
  entry t "scat_p" i = XF (sc / 10 ^ 12) /\ entry t "alpha_p" i = XF (al / 10 ^ 12) /\ entry t "beta_p_cross" i = XF (bc / 10 ^ 12).
Proof.
  destruct radar; (eexists; split; [reflexivity|]); intros i f d da dv v a be sc al bc E;
  repeat match goal with |- _ /\ _ => split end;
  (first [erewrite entry_map; [|reflexivity|exact E] | erewrite entry_raw; [|reflexivity|exact E]]);
  cbn [map nth]; unfold times, micro2; cbn [xmul]; apply (f_equal XF); field.
Qed.
Lemma scat_mdad_values rows radar : exists t, load_scat rows radar "mDAD" = Ok t /\
  forall i f d da dv dva v a be sc al,
  nth_error rows i = Some (map XF [f; d; da; dv; dva; v; a; be; sc; al]) ->
  entry t (if radar then "frequency" else "wavelength") i = XF f /\
  entry t "p_diam" i = XF (d / 10 ^ 6) /\ entry t "p_diam_eq_A" i = XF (da / 10 ^ 6) /\ entry t "p_diam_eq_V" i = XF (dv / 10 ^ 6) /\
  entry t "p_diam_eq_VdivA" i = XF (dva / 10 ^ 6) /\
  entry t "V" i = XF (v / 10 ^ 18) /\ entry t "A" i = XF (a / 10 ^ 12) /\ entry t "beta_p" i = XF (be / 10 ^ 12) /\
  entry t "scat_p" i = XF (sc / 10 ^ 12) /\ entry t "alpha_p" i = XF (al / 10 ^ 12).
Proof.
  destruct radar; (eexists; split; [reflexivity|]); intros i f d da dv dva v a be sc al E;
  repeat match goal with |- _ /\ _ => split end;
  (first [erewrite entry_map; [|reflexivity|exact E] | erewrite entry_raw; [|reflexivity|exact E]]);
  cbn [map nth]; unfold times, micro2; cbn [xmul]; apply (f_equal XF); field.
Qed.
Lemma bulk_c6_values rows : exists t, load_bulk rows "C6" = Ok t /\
  forall i r qs qe qb qc ldr lr, nth_error rows i = Some [r; qs; qe; qb; qc; ldr; lr] ->
  entry t "r_e" i = r /\ entry t "Q_scat" i = qs /\ entry t "Q_ext" i = qe /\ entry t "Q_back" i = qb /\
  entry t "Q_back_cross" i = qc /\ entry t "LDR" i = ldr /\ entry t "lidar_ratio" i = lr.
Proof.
  eexists. split; [reflexivity|]. intros i r qs qe qb qc ldr lr E.
  repeat match goal with |- _ /\ _ => split end; (erewrite entry_raw; [|reflexivity|exact E]); reflexivity.
Qed.
Lemma bulk_mdad_values rows : exists t, load_bulk rows "mDAD" = Ok t /\
  forall i d qs qe qb lr, nth_error rows i = Some (map XF [d; qs; qe; qb; lr]) ->
  entry t "r_e" i = XF (d / 2) /\ entry t "D_e" i = XF d /\ entry t "Q_scat" i = XF qs /\ entry t "Q_ext" i = XF qe /\
  entry t "Q_back" i = XF qb /\ entry t "lidar_ratio" i = XF lr.
Proof.
  eexists. split; [reflexivity|]. intros i d qs qe qb lr E.
  repeat match goal with |- _ /\ _ => split end;
  (first [erewrite entry_map; [|reflexivity|exact E] | erewrite entry_raw; [|reflexivity|exact E]]);
  cbn [map nth]; rewrite ?xdiv_fin by lra; reflexivity.
Qed.
Lemma unknown_format rows radar p : p <> "C6" -> p <> "mDAD" ->
  load_scat rows radar p = Raise UnboundLocalError /\ load_bulk rows p = Raise UnboundLocalError.
Proof.
  intros N1 N2. apply String.eqb_neq in N1, N2. unfold load_scat, scat_names, load_bulk. rewrite N1, N2. auto.
Qed.

(** ** P3 tables *)
Definition mapped (t t' : table) (ns : list string) (f : xr -> xr) : Prop :=
  (forall n c, In n ns -> assoc t n = Some c -> assoc t' n = Some (map f c)) /\
  forall n, ~ In n ns -> assoc t' n = assoc t n.
Lemma on_col_ok t n f : assoc t n <> None -> exists t', on_col t n f = Ok t' /\ mapped t t' [n] f.
Proof.
  intro H. unfold on_col. destruct (assoc t n) as [c|] eqn:E; [|tauto]. eexists. split; [reflexivity|]. split.
  - intros m d [<-|[]] D. rewrite put_same. congruence.
  - intros m N. apply put_other. intros ->. apply N. left. reflexivity.
Qed.
Lemma scale_ok c ns : NoDup ns -> forall t, (forall n, In n ns -> assoc t n <> None) ->
  exists t', scale_cols c ns t = Ok t' /\ mapped t t' ns (times c).
Proof.
  induction 1 as [|n ns N ND IH]; intros t H.
  - exists t. split; [reflexivity|]. split; [intros ? ? []|auto].
  - destruct (on_col_ok t n (times c)) as (t1 & E1 & M1 & M2); [apply H; left; reflexivity|].
    assert (KO : forall m, In m ns -> assoc t1 m = assoc t m).
    { intros m I. apply M2. intros [<-|[]]. tauto. }
    destruct (IH t1) as (t2 & E2 & K1 & K2).
    { intros m I. rewrite KO by exact I. apply H. right. exact I. }
    exists t2. split; [cbn [scale_cols]; rewrite E1; exact E2|]. split.
    + intros m d [<-|I] D.
      * rewrite K2 by exact N. apply M1; [left; reflexivity|exact D].
      * apply K1; [exact I|]. rewrite KO; assumption.
    + intros m Nm. rewrite K2 by (intro I; apply Nm; right; exact I). apply M2. intros [<-|[]]. apply Nm. left. reflexivity.
Qed.
Definition p3_columns : list string := "vt" :: "V" :: "d" :: p3_areas ++ p3_lengths.
Lemma p3_values t : (forall n, In n p3_columns -> assoc t n <> None) ->
  exists t', load_p3 t = Ok t' /\
  (forall n c, In n p3_areas -> assoc t n = Some c -> assoc t' n = Some (map (times (/ 10 ^ 12)) c)) /\
  (forall n c, In n p3_lengths -> assoc t n = Some c -> assoc t' n = Some (map (times (/ 10 ^ 6)) c)) /\
  (forall c, assoc t "V" = Some c -> assoc t' "V" = Some (map (times (/ 10 ^ 18)) c)) /\
  (forall c, assoc t "d" = Some c -> assoc t' "p_diam" = Some (map (times (/ 10 ^ 6)) c)) /\
  (forall c, assoc t "vt" = Some c -> assoc t' "vt" = Some (fill_vt c)) /\
  (forall n, ~ In n ("vt" :: "V" :: "p_diam" :: p3_areas ++ p3_lengths) -> assoc t' n = assoc t n).
Proof.
  intro H. unfold load_p3. destruct (assoc t "vt") as [vt|] eqn:EV; [|exfalso; apply (H "vt"); [simpl; tauto|exact EV]].
  set (t0 := put t "vt" (fill_vt vt)).
  assert (P0 : forall n, n <> "vt" -> assoc t0 n = assoc t n) by (intros n N; apply put_other; exact N).
  assert (B : forall l l' : list string, forallb (fun k => negb (memb k l')) l = true -> forall k, In k l -> ~ In k l').
  { intros l l' F k I. rewrite forallb_forall in F. specialize (F k I). destruct (memb k l') eqn:Q; [discriminate|].
    apply memb_out. exact Q. }
  assert (D1 := B p3_areas ("vt" :: "V" :: "d" :: "p_diam" :: p3_lengths) eq_refl).
  assert (D2 := B p3_lengths ("vt" :: "V" :: "d" :: "p_diam" :: p3_areas) eq_refl).
  destruct (scale_ok micro2 p3_areas) with (t := t0) as (t1 & E1 & A1 & A2).
  { repeat constructor; simpl; intuition discriminate. }
  { intros n I. rewrite P0; [apply H; do 3 right; apply in_or_app; left; exact I|].
    intros ->. apply (D1 _ I). simpl. tauto. }
  destruct (on_col_ok t1 "V" (times (/ 10 ^ 18))) as (t2 & E2 & V1 & V2).
  { rewrite A2, P0; [apply H; simpl; tauto|discriminate|]. simpl. intuition discriminate. }
  destruct (scale_ok (/ 10 ^ 6) p3_lengths) with (t := t2) as (t3 & E3 & L1 & L2).
  { repeat constructor; simpl; intuition discriminate. }
  { intros n I. rewrite V2, A2, P0.
    - apply H. do 3 right. apply in_or_app. right. exact I.
    - intros ->. apply (D2 _ I). simpl. tauto.
    - intro J. apply (D2 _ I). do 4 right. exact J.
    - intros [Q|[]]. apply (D2 _ I). right. left. exact Q. }
  rewrite E1. cbn [bind]. rewrite E2. cbn [bind]. rewrite E3. cbn [bind].
  assert (O : forall n, ~ In n ("vt" :: "V" :: p3_areas ++ p3_lengths) -> assoc t3 n = assoc t n).
  { intros n N. rewrite L2, V2, A2, P0; [reflexivity|..].
    - intros ->. apply N. left. reflexivity.
    - intro J. apply N. do 2 right. apply in_app_iff. auto.
    - intros [Q|[]]. apply N. right. left. exact Q.
    - intro J. apply N. do 2 right. apply in_app_iff. auto. }
  assert (Od : assoc t3 "d" = assoc t "d") by (apply O; simpl; intuition discriminate).
  destruct (assoc t3 "d") as [d|] eqn:ED.
  2:{ exfalso. apply (H "d"); [simpl; tauto|]. congruence. }
  eexists. split; [reflexivity|]. split; [|split; [|split; [|split; [|split]]]].
  - intros n c I Q. rewrite put_other by (intros ->; apply (D1 _ I); simpl; tauto).
    rewrite L2, V2.
    + apply A1; [exact I|]. rewrite P0; [exact Q|]. intros ->. apply (D1 _ I). simpl. tauto.
    + intros [K|[]]. apply (D1 _ I). right. left. exact K.
    + intro J. apply (D1 _ I). do 4 right. exact J.
  - intros n c I Q. rewrite put_other by (intros ->; apply (D2 _ I); simpl; tauto).
    apply L1; [exact I|]. rewrite V2, A2, P0; [exact Q|..].
    + intros ->. apply (D2 _ I). simpl. tauto.
    + intro J. apply (D2 _ I). do 4 right. exact J.
    + intros [K|[]]. apply (D2 _ I). right. left. exact K.
  - intros c Q. rewrite put_other by discriminate. rewrite L2 by (simpl; intuition discriminate).
    apply V1; [left; reflexivity|]. rewrite A2 by (simpl; intuition discriminate). rewrite P0 by discriminate. exact Q.
  - intros c Q. rewrite put_same. congruence.
  - intros c [= <-]. rewrite put_other by discriminate. rewrite L2 by (simpl; intuition discriminate).
    rewrite V2 by (simpl; intuition discriminate). rewrite A2 by (simpl; intuition discriminate). apply put_same.
  - intros n N. rewrite put_other by (intros ->; apply N; simpl; tauto). apply O.
    intro J. apply N. simpl in J |- *. tauto.
Qed.

(** Velocities that were missing are the smallest known one. *)
Lemma fill_spec c lo hi : axis_range c lo hi -> length (fill_vt c) = length c /\
  (forall i r, nth_error c i = Some (XF r) -> nth_error (fill_vt c) i = Some (XF r)) /\
  (forall i, nth_error c i = Some XNaN -> nth_error (fill_vt c) i = Some (XF lo)).
Proof.
  intro A. destruct (axis_nanmin _ _ _ A) as [E _]. unfold fill_vt. split; [apply map_length|]. split.
  - intros i r H. rewrite nth_error_map, H. reflexivity.
  - intros i H. rewrite nth_error_map, H. simpl. rewrite E. reflexivity.
Qed.
