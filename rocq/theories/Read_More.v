(** Failures, ranges without a step, and examples for reading files. *)
From Coq Require Import Lra.
From Verif Require Import Read_Spec Xds_Round Load_Facts Load_Stack Load_Crop Load_Loop Xds_Proofs Xds_Stack Xds_Fields Xr_Facts Np_Facts Read_Cut Read_Final Read_Dharma Read_Box Read_Wrf.
Local Open Scope string_scope.
Local Open Scope list_scope.

Lemma modele_datetime r x : r_datetime r = false -> modele_load (Some r) x = Raise RuntimeError.
Proof. intro H. unfold modele_load, checked_range. rewrite H. reflexivity. Qed.
Lemma dharma_datetime td r x T p : field x "t" T -> assoc (all_vars x) "p" = Some p -> r_datetime r = false ->
  dharma_load td None (Some r) x = Raise RuntimeError.
Proof.
  intros F P H. unfold dharma_load. rewrite (air_density_ok "t" "p" x T p F P). cbn [bind]. unfold checked_range. rewrite H. reflexivity.
Qed.
Lemma modele_no_step r x T : field x "t" T -> gridded (modele_obj x) T ->
  ~ (exists i, i < sz x "time" /\ in_range r x "time" i) -> modele_load (as_datetime r) x = modele_load None x.
Proof.
  intros F G N. unfold modele_load. rewrite checked_crop.
  rewrite (range_none (modele_obj x) r); [reflexivity|exact (gr_axis _ _ G)| |exact N].
  eapply field_dims; [exact F|]. apply (gr_dims _ _ G).
Qed.
Lemma modele_height x : height_dim (modele_obj x) =
  if in_dec string_dec "level" (map fst (coords x)) then
    if in_dec string_dec "p" (map fst (coords x)) then "p" else "level"
  else "p".
Proof.
  change (height_dim (modele_obj x)) with (if has_axis x "level" && negb (has_axis x "p") then "level" else "p").
  assert (H : forall n, has_axis x n = if in_dec string_dec n (map fst (coords x)) then true else false).
  { intro n. unfold has_axis. destruct (in_dec string_dec n (map fst (coords x))); [apply memb_in|apply memb_out]; assumption. }
  rewrite !H. destruct (in_dec string_dec "level" (map fst (coords x))); [|reflexivity].
  destruct (in_dec string_dec "p" (map fst (coords x))); reflexivity.
Qed.
Lemma wrf_unknown o x z tk p pb : field x "P" p -> field x "PB" pb -> ~ In "P" (map fst (coords x)) -> ~ In "PB" (map fst (coords x)) ->
  (forall f, ~ family_of (w_scheme o) f) -> wrf_load o x z tk = Raise KeyError.
Proof.
  intros F1 F2 N1 N2 U. unfold wrf_load, wrf_fields. rewrite (getv_var _ _ _ F1 N1). cbn [bind]. rewrite (getv_var _ _ _ F2 N2). cbn [bind].
  assert (A : is_mg (w_scheme o) = false) by (apply memb_out; exact (U MG)).
  assert (B : is_nssl (w_scheme o) = false) by (apply String.eqb_neq; exact (U NSSL)).
  rewrite A, B. reflexivity.
Qed.

(** *** Examples *)
Definition count (D : list string) (c : R) : var :=
  {| vdims := D; vat := fun ix => XF (c + INR (fold_right Nat.add 0 ix)) |}.

Definition me_file : xds :=
  {| sz := fun d => if String.eqb d "level" then 3 else 2;
     coords := [("time", count ["time"] 10); ("level", count ["level"] 500); ("lat", count ["lat"] 70); ("lon", count ["lon"] 20)];
     vars := [("t", count ["time"; "level"; "lat"; "lon"] 250); ("p_3d", count ["time"; "level"; "lat"; "lon"] 800);
              ("qcl", count ["time"; "level"; "lat"; "lon"] 0)] |}.
Lemma me_dims d : In d (all_dims me_file) <-> In d ["time"; "level"; "lat"; "lon"].
Proof.
  change (all_dims me_file) with (nodup string_dec (flat_map (fun p => vdims (snd p)) (all_vars me_file))).
  rewrite nodup_In. cbn. tauto.
Qed.
Lemma me_domain : domain (modele_obj me_file).
Proof.
  apply domain_of_stackable. constructor; cbn [modele_obj time_dim lat_dim lon_dim height_dim stacked_time_dim mds].
  - intros k v I. simpl in I. repeat (destruct I as [I|I]; [injection I as <- <-; repeat constructor; simpl; intuition discriminate|]). destruct I.
  - apply me_dims. simpl. auto.
  - apply me_dims. simpl. auto.
  - exists "t", (count ["time"; "level"; "lat"; "lon"] 250). simpl. auto 10.
  - cbn. repeat constructor; simpl; intuition discriminate.
  - intros n I. split; [rewrite me_dims; simpl in *; intuition congruence|]. simpl in *. intuition congruence.
  - intros d v I _. simpl in I. repeat (destruct I as [I|I]; [injection I as <- <-; reflexivity|]). destruct I.
  - reflexivity.
Qed.
Lemma me_gridded : gridded (modele_obj me_file) (count ["time"; "level"; "lat"; "lon"] 250).
Proof.
  constructor; cbn [modele_obj mds time_dim height_dim lat_dim lon_dim].
  - rewrite me_dims. simpl. intuition discriminate.
  - simpl. intuition discriminate.
  - simpl. auto.
  - intros c [= <-]. reflexivity.
Qed.
Lemma me_step : some_step (Some (11, 12)%R) me_file "time".
Proof. intros _. exists 1. split; [cbn; lia|]. exists 11%R. split; [cbn; f_equal; lra|lra]. Qed.

Definition dh_file : xds :=
  {| sz := fun d => if String.eqb d "x" then 3 else 2;
     coords := [("time", count ["time"] 10); ("hgt", count ["hgt"] 500); ("y", count ["y"] 70); ("x", count ["x"] 20)];
     vars := [("t", count ["time"; "hgt"; "y"; "x"] 250); ("p", count ["hgt"] 800); ("qcl", count ["time"; "hgt"; "y"; "x"] 0)] |}.
Lemma dh_dims d : In d (all_dims dh_file) <-> In d ["time"; "hgt"; "y"; "x"].
Proof.
  change (all_dims dh_file) with (nodup string_dec (flat_map (fun p => vdims (snd p)) (all_vars dh_file))).
  rewrite nodup_In. cbn. tauto.
Qed.
Lemma dh_wf : well_formed dh_file.
Proof.
  intros k v I. simpl in I. repeat (destruct I as [I|I]; [injection I as <- <-; repeat constructor; simpl; intuition discriminate|]). destruct I.
Qed.
Lemma dh_stackable : stackable (dharma_obj "time" dh_file) "time_lat_lon".
Proof.
  constructor; cbn [dharma_obj time_dim lat_dim lon_dim height_dim stacked_time_dim mds].
  - exact dh_wf.
  - apply dh_dims. simpl. auto.
  - apply dh_dims. simpl. auto.
  - exists "t", (count ["time"; "hgt"; "y"; "x"] 250). simpl. auto 10.
  - cbn. repeat constructor; simpl; intuition discriminate.
  - intros n I. split; [rewrite dh_dims; simpl in *; intuition congruence|]. simpl in *. intuition congruence.
  - intros d v I _. simpl in I. repeat (destruct I as [I|I]; [injection I as <- <-; reflexivity|]). destruct I.
  - reflexivity.
Qed.
Lemma dh_gridded : gridded (dharma_obj "time" dh_file) (count ["time"; "hgt"; "y"; "x"] 250).
Proof.
  constructor; cbn [dharma_obj mds time_dim height_dim lat_dim lon_dim].
  - rewrite dh_dims. simpl. intuition discriminate.
  - simpl. intuition discriminate.
  - simpl. auto.
  - intros c [= <-]. reflexivity.
Qed.
Lemma dh_axes : ascending dh_file "x" (fun i => 20 + INR i)%R /\ ascending dh_file "y" (fun i => 70 + INR i)%R.
Proof.
  split; eexists; (split; [reflexivity|]); (split; [intros i _; cbn; rewrite Nat.add_0_r; reflexivity|]); (split; [reflexivity|]);
    intros i j H; apply Rplus_lt_compat_l; apply lt_INR; lia.
Qed.
Lemma dh_step : some_step (Some (10, 11)%R) dh_file "time".
Proof. intros _. exists 0. split; [cbn; lia|]. exists 10%R. split; [cbn; f_equal; lra|lra]. Qed.

(** A WRF file of one step, two levels, three rows and two columns. *)
Definition wf_names_list : list string := ["P"; "PB"; "QVAPOR"; "QCLOUD"; "QICE"; "QRAIN"; "QSNOW"; "QNCLOUD"; "QNDROP"; "QNICE"; "QNRAIN"; "QNSNOW";
  "QGRAUP"; "QHAIL"; "QNGRAUPEL"; "QNHAIL"; "REFC"; "REFI"; "REFR"; "REFS"; "REFG"; "REFH"; "QVGRAUPEL"; "QVHAIL"].
Definition wf_x : xds :=
  {| sz := fun d => if String.eqb d "Time" then 1 else if String.eqb d "south_north" then 3 else 2;
     coords := [("XLAT", {| vdims := ["Time"; "south_north"; "west_east"]; vat := fun ix => XF (60 + INR (nth 1 ix 0%nat)) |});
                ("XLONG", {| vdims := ["Time"; "south_north"; "west_east"]; vat := fun ix => XF (20 + INR (nth 2 ix 0%nat)) |})];
     vars := map (fun k => (k, count grid4 1)) wf_names_list |}.
Definition wf_o (s : string) (b : option (R * R * R * R)) : wrf_opts :=
  {| w_scheme := s; w_nuwrf := false; w_graupel := false; w_cutoff := / 10 ^ 14; w_box := box_of b; w_range := Some (XF 0, XF 1) |}.
Lemma wf_ok s b f : (s = "nssl" \/ s = "NSSL") /\ f = NSSL \/ s = "Morrison" /\ f = MG ->
  family_of s f /\ wrf_file (wf_o s b) f wf_x (count grid4 100) (count grid4 250).
Proof.
  intro H. split.
  { destruct H as [[[->| ->] ->]|[-> ->]]; [reflexivity|reflexivity|simpl; auto]. }
  assert (ND : incl (wrf_needed (wf_o s b) f) wf_names_list).
  { assert (B : forallb (fun k => memb k wf_names_list) (wrf_needed (wf_o s b) f) = true).
    { destruct H as [[[->| ->] ->]|[-> ->]]; reflexivity. }
    intros k I. rewrite forallb_forall in B. apply memb_in. apply B. exact I. }
  constructor; try reflexivity.
  - intros k v I. cbn [wf_x coords] in I.
    assert (NN : ~ In k wf_names_list) by (destruct I as [I|[I|[]]]; injection I as <- _; simpl; intuition discriminate).
    split; [destruct I as [I|[I|[]]]; injection I as _ <-; repeat constructor; simpl; intuition discriminate|].
    split; [destruct I as [I|[I|[]]]; injection I as _ <-; intros d D; simpl in *; tauto|].
    split; [destruct I as [I|[I|[]]]; injection I as <- _; simpl; intuition discriminate|].
    split; [destruct I as [I|[I|[]]]; injection I as <- _; simpl; intuition discriminate|].
    intro J. apply NN. apply ND. exact J.
  - intros k I. exists (count grid4 1). split; [|reflexivity]. apply ND in I.
    unfold field. cbn [wf_x vars]. revert I. generalize wf_names_list. intro l. induction l as [|a l IH]; [intros []|].
    cbn [map assoc]. destruct (String.eqb_spec a k) as [->|N]; [reflexivity|]. intros [->|I]; [tauto|auto].
Qed.
Lemma wf_regular : regular wf_x (fun j => 60 + INR j)%R (fun i => 20 + INR i)%R.
Proof.
  split; [cbn; lia|]. split; [cbn; lia|]. split; [cbn; lia|]. do 2 eexists. split; [reflexivity|]. split; [reflexivity|].
  split; [reflexivity|]. split; [reflexivity|]. intros t j i _ _ _. split; reflexivity.
Qed.
Lemma wf_step t0 t1 : Some (0, 1)%R = Some (t0, t1) -> exists i, i < sz wf_x "Time" /\ (t0 <= INR i < t1)%R.
Proof. intros [= <- <-]. exists 0. split; [cbn; lia|]. simpl. lra. Qed.

(** A row inside the box that is not read. *)
Lemma box_loses_a_row : exists o z tk b g m' keep,
  w_box o = box_of (Some b) /\ wrf_load o wf_x z tk = Ok m' /\
  held g keep m' "pressure" (wrf_pressure wf_x) /\ In "south_north" (all_dims (mds g)) /\
  regular wf_x (fun j => 60 + INR j)%R (fun i => 20 + INR i)%R /\
  let '(b0, b1, b2, b3) := b in
  (b0 <= 60 + INR 2 <= b2)%R /\ 2 < sz wf_x "south_north" /\ ~ In 2 (keep "south_north").
Proof.
  destruct (wf_ok "Morrison" (Some (60, 20, 62, 21)%R) MG ltac:(auto)) as (FM & W).
  destruct (wrf_reads (wf_o "Morrison" (Some (60, 20, 62, 21)%R)) MG wf_x (count grid4 100) (count grid4 250) FM W (Some (60, 20, 62, 21)%R) (Some (0, 1)%R) (fun j => 60 + INR j)%R (fun i => 20 + INR i)%R
     eq_refl eq_refl (fun _ => wf_regular) wf_step) as (g & m' & keep & E & _ & _ & _ & _ & GD & SEL & HP & _).
  exists (wf_o "Morrison" (Some (60, 20, 62, 21)%R)), (count grid4 100), (count grid4 250), (60, 20, 62, 21)%R, g, m', keep.
  split; [reflexivity|]. split; [exact E|]. split; [exact HP|]. split; [apply GD; simpl; auto|]. split; [exact wf_regular|].
  split; [simpl; lra|]. split; [cbn; lia|]. intro I.
  destruct (SEL "south_north") as [_ K]; [apply GD; simpl; auto|]. apply K in I as (_ & (B & _) & _).
  destruct (B eq_refl) as (i0 & i2 & _ & (C1 & C2) & Q).
  assert (Z : i2 = 2); [|lia]. destruct (C2 2) as [C3 _]; [cbn; lia|].
  destruct (Nat.eq_dec i2 2) as [|N]; [assumption|exfalso]. assert (i2 <= 1) by (cbn in C1; lia).
  assert (INR i2 <= 1)%R by (replace 1%R with (INR 1) by reflexivity; apply le_INR; lia).
  rewrite (Rabs_pos_eq (62 - (60 + INR i2))) in C3 by lra. rewrite Rabs_pos_eq in C3 by (simpl; lra). simpl in C3. lra.
Qed.
(** "NSSL" is accepted, but the densities are missing. *)
Lemma nssl_in_capitals : exists o z tk m',
  family_of (w_scheme o) NSSL /\ wrf_file o NSSL wf_x z tk /\ wrf_load o wf_x z tk = Ok m' /\
  (exists v, field wf_x "QVGRAUPEL" v) /\ assoc (vars (mds m')) "RHO_GRAUPEL" = None /\ assoc (vars (mds m')) "RHO_HAIL" = None.
Proof.
  destruct (wf_ok "NSSL" None NSSL ltac:(auto)) as (FM & W).
  destruct (wrf_reads (wf_o "NSSL" None) NSSL wf_x (count grid4 100) (count grid4 250) FM W None (Some (0, 1)%R) (fun j => 60 + INR j)%R (fun i => 20 + INR i)%R
     eq_refl eq_refl ltac:(intro Q; tauto) wf_step) as (g & m' & keep & E & _ & _ & _ & _ & GD & SEL & _ & _ & _ & _ & _ & _ & _ & NO).
  exists (wf_o "NSSL" None), (count grid4 100), (count grid4 250), m'. split; [exact FM|]. split; [exact W|]. split; [exact E|].
  split; [exists (count grid4 1); reflexivity|]. apply NO. discriminate.
Qed.
(** Rows and columns inside the box. *)
Lemma box_rows o f x z tk b0 b1 b2 b3 r lat lon : family_of (w_scheme o) f -> wrf_file o f x z tk ->
  w_box o = box_of (Some (b0, b1, b2, b3)) -> w_range o = match r with None => None | Some (a, b) => Some (XF a, XF b) end ->
  regular x lat lon -> (forall t0 t1, r = Some (t0, t1) -> exists i, i < sz x "Time" /\ (t0 <= INR i < t1)%R) ->
  (b0 <= b2)%R -> (b1 <= b3)%R ->
  (forall i j, i < j < sz x "south_north" -> (lat i < lat j)%R) -> (forall i j, i < j < sz x "west_east" -> (lon i < lon j)%R) ->
  exists g m' keep, wrf_load o x z tk = Ok m' /\ sz (mds g) = sz x /\ held g keep m' "pressure" (wrf_pressure x) /\
    (forall j, j < sz x "south_north" -> (b0 <= lat j <= b2)%R -> ~ closest lat (sz x "south_north") b2 j -> In j (keep "south_north")) /\
    (forall i, i < sz x "west_east" -> (b1 <= lon i <= b3)%R -> ~ closest lon (sz x "west_east") b3 i -> In i (keep "west_east")) /\
    (forall j, In j (keep "south_north") -> closest lat (sz x "south_north") b0 j \/ (b0 < lat j < b2)%R) /\
    (forall i, In i (keep "west_east") -> closest lon (sz x "west_east") b1 i \/ (b1 < lon i < b3)%R).
Proof.
  intros FM W EB ER RG SS L1 L2 M1 M2.
  destruct (wrf_reads o f x z tk FM W (Some (b0, b1, b2, b3)) r lat lon EB ER (fun _ => RG) SS)
    as (g & m' & keep & E & _ & _ & _ & SZ & GD & SEL & HP & _).
  exists g, m', keep. split; [exact E|]. split; [exact SZ|]. split; [exact HP|].
  assert (EX : forall c n b, 0 < n -> exists i, closest c n b i).
  { intros c n b. induction n as [|n IH]; [lia|]. intros _. destruct n as [|n].
    - exists 0. split; [lia|]. intros j Hj. replace j with 0 by lia. split; [lra|lia].
    - destruct IH as (i & C1 & C2); [lia|]. destruct (Rlt_or_le (Rabs (b - c (S n))) (Rabs (b - c i))) as [Q|Q].
      + exists (S n). split; [lia|]. intros j Hj. destruct (Nat.eq_dec j (S n)) as [->|N]; [split; [lra|lia]|].
        destruct (C2 j) as [C3 _]; [lia|]. split; intros; lra.
      + exists i. split; [lia|]. intros j Hj. destruct (Nat.eq_dec j (S n)) as [->|N]; [split; [lra|lia]|]. apply C2. lia. }
  destruct RG as (P0 & P1 & P2 & RG').
  destruct (EX lat _ b0 P1) as (i0 & I0). destruct (EX lat _ b2 P1) as (i2 & I2).
  destruct (EX lon _ b1 P2) as (i1 & I1). destruct (EX lon _ b3 P2) as (i3 & I3).
  destruct (box_inside lat _ b0 b2 i0 i2 M1 L1 I0 I2) as [A1 A2]. destruct (box_inside lon _ b1 b3 i1 i3 M2 L2 I1 I3) as [A3 A4].
  assert (U : forall c n b i j, closest c n b i -> closest c n b j -> i = j) by (intros; eapply closest_unique; eassumption).
  destruct (SEL "south_north") as [_ S1]; [apply GD; simpl; auto|]. destruct (SEL "west_east") as [_ S2]; [apply GD; simpl; auto|].
  split; [|split; [|split]].
  - intros j Hj B N. apply S1. rewrite SZ. split; [exact Hj|]. split; [|intro Q; discriminate Q]. split; [|intro Q; discriminate Q].
    intros _. exists i0, i2. split; [exact I0|]. split; [exact I2|]. apply A1; [exact Hj|exact B|]. intros ->. tauto.
  - intros i Hi B N. apply S2. rewrite SZ. split; [exact Hi|]. split; [|intro Q; discriminate Q]. split; [intro Q; discriminate Q|].
    intros _. exists i1, i3. split; [exact I1|]. split; [exact I3|]. apply A3; [exact Hi|exact B|]. intros ->. tauto.
  - intros j J. apply S1 in J as (_ & (B & _) & _). destruct (B eq_refl) as (j0 & j2 & C1 & C2 & C3).
    rewrite (U _ _ _ _ _ C1 I0), (U _ _ _ _ _ C2 I2) in C3. destruct (A2 j C3) as [->|Q]; [left; exact I0|right; exact Q].
  - intros j J. apply S2 in J as (_ & (_ & B) & _). destruct (B eq_refl) as (j0 & j2 & C1 & C2 & C3).
    rewrite (U _ _ _ _ _ C1 I1), (U _ _ _ _ _ C2 I3) in C3. destruct (A4 j C3) as [->|Q]; [left; exact I1|right; exact Q].
Qed.
Lemma nssl_densities o x z tk r : w_scheme o = "nssl" -> wrf_file o NSSL x z tk -> w_box o = None ->
  w_range o = match r with None => None | Some (a, b) => Some (XF a, XF b) end ->
  (forall t0 t1, r = Some (t0, t1) -> exists i, i < sz x "Time" /\ (t0 <= INR i < t1)%R) ->
  exists g m' keep, wrf_load o x z tk = Ok m' /\ sz (mds g) = sz x /\ (forall d, In d (all_dims (mds g)) <-> In d grid4) /\
    selects (mds g) (fun d j => d = "Time" -> match r with None => True | Some (t0, t1) => (t0 <= INR j < t1)%R end) keep /\
    held g keep m' "RHO_GRAUPEL" (fun ix => particle_density (val x "QGRAUP" ix) (val x "QVGRAUPEL" ix)) /\
    held g keep m' "RHO_HAIL" (fun ix => particle_density (val x "QHAIL" ix) (val x "QVHAIL" ix)).
Proof.
  intros ES W EB ER SS. assert (FM : family_of (w_scheme o) NSSL) by (rewrite ES; reflexivity).
  destruct (wrf_reads o NSSL x z tk FM W None r (fun _ => 0%R) (fun _ => 0%R) EB ER ltac:(intro Q; tauto) SS)
    as (g & m' & keep & E & _ & _ & _ & SZ & GD & SEL & _ & _ & _ & _ & _ & _ & RHO & _).
  exists g, m', keep. split; [exact E|]. split; [exact SZ|]. split; [exact GD|]. split; [|exact (RHO ES)].
  intros d I. destruct (SEL d I) as [Q1 Q2]. split; [exact Q1|]. intro i. rewrite Q2. cbn [box_keeps]. tauto.
Qed.
Lemma dharma_radii single h : In h (dharma_types single) -> h <> "pir" -> assoc (dharma_re single) h = Some ("re_strat_" ++ h)%string.
Proof. destruct single; simpl; intuition subst; reflexivity || congruence. Qed.
Lemma dharma_fractions (single : bool) h : In h (["cl"; "ci"; "pl"; "pi"] ++ (if single then @nil string else ["pir"]))%list ->
  In h (dharma_types single) /\ assoc (dharma_frac single) h = Some ("strat_" ++ h ++ "_frac")%string.
Proof. intro I. split; [exact I|]. destruct single; cbn [app In] in I; repeat (destruct I as [<-|I]; [reflexivity|]); destruct I. Qed.
