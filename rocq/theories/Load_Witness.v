(** The file of Load_Final with a time coordinate; a small P3 table. *)
From Verif Require Import P3_Spec Load_Spec Load_Facts Load_Final Load_Compose Load_Crop Xds_Proofs Xds_Stack Psd_Int.
From Coq Require Import Sorted Lra.
Local Open Scope string_scope.
Local Open Scope list_scope.

Definition timed_file : mobj :=
  with_ds demo_file {| sz := sz (mds demo_file); coords := ("time", demo_var ["time"] 10) :: coords (mds demo_file);
                       vars := vars (mds demo_file) |}.
Definition timed_opts : e3sm_opts :=
  {| o_single_ice := true; o_rain := false; o_scheme := "P3"; o_range := Some (XF (21 / 2), XF 20) |}.

Lemma timed_wf : well_formed (mds timed_file).
Proof.
  intros k v I. simpl in I. repeat (destruct I as [I|I]; [injection I as <- <-; repeat constructor; simpl; intuition discriminate|]).
  destruct I.
Qed.
Lemma timed_dims d : In d (all_dims (mds timed_file)) <-> In d full.
Proof.
  change (all_dims (mds timed_file)) with (nodup string_dec (flat_map (fun p => vdims (snd p)) (all_vars (mds timed_file)))).
  rewrite nodup_In. cbn. tauto.
Qed.
Lemma timed_domain : domain timed_file.
Proof.
  apply several.
  - constructor; cbn [timed_file with_ds demo_file time_dim lat_dim lon_dim height_dim stacked_time_dim].
    + exact timed_wf.
    + apply timed_dims. simpl. auto.
    + apply timed_dims. simpl. auto.
    + exists "T", demo_T. simpl. auto.
    + cbn. repeat constructor; simpl; intuition discriminate.
    + intros n I. split; [rewrite timed_dims; unfold full; simpl in *; intuition congruence|].
      simpl in *. intuition congruence.
    + intros d v I _. simpl in I. destruct I as [I|[I|[]]]; injection I as <- <-; reflexivity.
    + reflexivity.
  - left. cbn. discriminate.
Qed.
Lemma timed_is_file : e3sm_file timed_file (e3sm_fields true) (e3sm_types true false) demo_T.
Proof.
  constructor; cbn [timed_file with_ds demo_file time_dim lat_dim lon_dim height_dim].
  - exact timed_wf.
  - intros v I. simpl in I. destruct I as [I|[I|[]]]; [discriminate|]. injection I as <-. reflexivity.
  - rewrite timed_dims. unfold full. simpl. intuition discriminate.
  - simpl. intuition discriminate.
  - discriminate.
  - reflexivity.
  - simpl. auto.
  - eexists. split; [reflexivity|]. reflexivity.
  - eexists. split; [reflexivity|]. reflexivity.
  - eexists. split; [reflexivity|]. reflexivity.
  - eexists. split; [reflexivity|]. intro d. cbn. intuition congruence.
  - intros h I. simpl in I. destruct I as [<-|[<-|[]]]; do 4 eexists; repeat split; reflexivity.
  - intros k I. simpl in I |- *. repeat (destruct I as [<-|I]; [intuition discriminate|]). destruct I.
Qed.
Lemma timed_p3 : o_scheme timed_opts = "P3" -> p3_file timed_file demo_T.
Proof.
  intros _ k I. simpl in I. repeat (destruct I as [<-|I]; [eexists; split; reflexivity|]). destruct I.
Qed.
Lemma timed_coord : assoc (all_vars (mds timed_file)) (time_dim timed_file) = Some (demo_var ["time"] 10) /\
  exists i t, i < sz (mds timed_file) (time_dim timed_file) /\ at_ (demo_var ["time"] 10) (fun _ => i) = XF t /\ (21 / 2 <= t < 20)%R.
Proof. split; [reflexivity|]. exists 1, 11%R. split; [cbn; lia|]. split; [cbn; f_equal; simpl; lra|lra]. Qed.

(** A table with two points on each axis. *)
Definition demo_table : p3_table :=
  {| ax_fr := map XF [0; 1]%R; ax_rr := map XF [0; 900]%R; ax_qn := map XF [0; / 1000]%R;
     t_lam := fun i j k => XF (1 + INR (i + j + k)) |}.
Lemma two_axis a b : (a < b)%R -> table_axis (map XF [a; b]) [a; b].
Proof. intro H. split; [reflexivity|]. split; [repeat constructor; assumption|simpl; lia]. Qed.
Lemma demo_table_ok : real_table demo_table [0; 1]%R [0; 900]%R [0; / 1000]%R (fun i j k => 1 + INR (i + j + k))%R.
Proof.
  constructor; try (apply two_axis; lra). intros. reflexivity.
Qed.
Lemma demo_table_pos i j k : i < length [0; 1]%R -> j < length [0; 900]%R -> k < length [0; / 1000]%R ->
  (1 <= 1 + INR (i + j + k) <= 4)%R.
Proof.
  simpl length. intros. split; [pose proof (pos_INR (i + j + k)); lra|].
  assert (INR (i + j + k) <= 3)%R; [|lra]. replace 3%R with (INR 3) by (simpl; lra). apply le_INR. lia.
Qed.
(** A slope of 1 has shape 0. *)
Lemma shape_one : p3_shape 1 = 0%R.
Proof.
  unfold p3_shape. assert (Rpower (1 / 100) (8 / 10) <= 1)%R.
  { replace 1%R with (Rpower 1 (8 / 10)) at 2. 2:{ unfold Rpower. rewrite ln_1, Rmult_0_r. apply exp_0. }
    apply Rle_Rpower_l; lra. }
  unfold Rmax, Rmin. repeat (destruct (Rle_dec _ _)); lra.
Qed.
Lemma gamma_of_one : gamma_value (p3_shape 1 + 1) 1.
Proof. rewrite shape_one, Rplus_0_l. exact gamma_one. Qed.
