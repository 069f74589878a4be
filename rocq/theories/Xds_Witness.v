(** A concrete regional model object: 2 times, 3 latitudes, 2 longitudes,
    2 levels, one field over all of them. *)
From Verif Require Import Xds_Model Xds_Spec Xds_Proofs Xds_Stack Xds_Round Xr_Facts.
Local Open Scope string_scope.
Local Open Scope list_scope.

Definition wd_coord (d : string) : string * var := (d, {| vdims := [d]; vat := fun ix => XF (INR (nth 0 ix 0)) |}).
Definition wd_q : var := {| vdims := ["time"; "lev"; "lat"; "lon"];
  vat := fun ix => match ix with [t; z; y; x] => XF (INR (t + 10 * z + 100 * y + 1000 * x)) | _ => XNaN end |}.
Definition wd_ds (nlat : nat) : xds := {|
  sz := fun d => if String.eqb d "lat" then nlat else if String.eqb d "subcolumn" then 4
                 else if String.eqb d "lon" then (if Nat.eqb nlat 1 then 1 else 2) else 2;
  coords := map wd_coord ["time"; "lat"; "lon"; "subcolumn"];
  vars := [("q", wd_q);
           ("sub_col_Ze_tot_strat", {| vdims := ["subcolumn"; "time"]; vat := fun ix => XF (INR (nth 0 ix 0)) |});
           ("conv_frac_subcolumns_cl", {| vdims := ["subcolumn"; "time"]; vat := fun ix => XF 1 |})] |}.
Definition wd (nlat : nat) : mobj := {|
  mds := wd_ds nlat; time_dim := "time"; height_dim := "lev"; lat_dim := "lat"; lon_dim := "lon";
  stacked_time_dim := None |}.

Ltac inl H := simpl in H; repeat (destruct H as [H|H]; [try (injection H as <- <-)|]); try contradiction.
Ltac nodups := repeat constructor; simpl; intuition discriminate.
Lemma wd_wf n : well_formed (wd_ds n).
Proof. intros k v H. inl H; nodups. Qed.
Lemma wd_dims n d : In d (all_dims (wd_ds n)) <-> In d ["subcolumn"; "time"; "lat"; "lon"; "lev"].
Proof.
  rewrite in_dims. split.
  - intros (k & v & H & D). inl H; simpl in *; intuition.
  - intro H. inl H; subst d.
    + exists "subcolumn", (snd (wd_coord "subcolumn")). split; [simpl; auto 10|simpl; auto].
    + exists "time", (snd (wd_coord "time")). split; [simpl; auto 10|simpl; auto].
    + exists "lat", (snd (wd_coord "lat")). split; [simpl; auto 10|simpl; auto].
    + exists "lon", (snd (wd_coord "lon")). split; [simpl; auto 10|simpl; auto].
    + exists "q", wd_q. split; simpl; auto 10.
Qed.
Lemma wd_stackable : stackable (wd 3) "time_lat_lon" /\ regional (wd 3).
Proof.
  split; [|left; discriminate]. constructor; cbn [wd time_dim height_dim lat_dim lon_dim mds stacked_time_dim].
  - apply wd_wf.
  - apply wd_dims. simpl. auto.
  - apply wd_dims. simpl. auto.
  - exists "q", wd_q. split; simpl; auto.
  - nodups.
  - intros n H. split; [rewrite wd_dims|]; inl H; subst n; simpl; intuition discriminate.
  - intros d v H _. inl H; reflexivity.
  - reflexivity.
Qed.
Lemma wd_single : well_formed (mds (wd 1)) /\ NoDup ["time"; "lev"; "lat"; "lon"; "subcolumn"] /\ ~ regional (wd 1).
Proof.
  split; [apply wd_wf|]. split; [nodups|]. intros [H|[_ H]]; apply H; reflexivity.
Qed.
(** The stacked dataset with one generated field. *)
Definition wd_new : string * var :=
  ("strat_q_subcolumns_cl", {| vdims := ["subcolumn"; "time_lat_lon"; "lev"];
     vat := fun ix => XF (INR (nth 1 ix 0)) |}).
Lemma wd_processed : exists m1 x', check_and_stack (wd 3) "time_lat_lon" true = Ok m1 /\ processed m1 x' /\
  field x' (fst wd_new) (snd wd_new) /\ sz x' "subcolumn" = 4.
Proof.
  destruct wd_stackable as [S R]. destruct (check_and_stack_eq _ _ S true R) as (x1 & E & _ & Sz & F).
  set (m1 := with_ds (stacked_of (wd 3) "time_lat_lon" (has_dim (mds (wd 3)) (lon_dim (wd 3)))) x1) in *.
  exists m1, {| sz := sz x1; coords := coords x1; vars := vars x1 ++ [wd_new] |}.
  assert (K : exists l, coords x1 = l /\ ~ In (fst wd_new) (map fst l) /\ assoc (vars x1) (fst wd_new) = None).
  { vm_compute in E. injection E as E. eexists. split; [reflexivity|]. rewrite <- E. split.
    - simpl. intuition discriminate.
    - reflexivity. }
  destruct K as (l & Kc & Kn & Kv).
  split; [exact E|]. split; [|split].
  - constructor; cbn [sz coords vars with_ds mds m1].
    + reflexivity.
    + exists []. rewrite app_nil_r. split; [reflexivity|intros ? ? []].
    + intros p H. apply in_or_app. auto.
    + intros k v H. apply in_app_or in H as [H|[H|[]]]; [auto|]. right. unfold wd_new in H. injection H as <- <-.
      split; [|rewrite Kc; exact Kn]. intros d H. simpl in *. intuition.
  - unfold field. cbn [vars]. rewrite assoc_app, Kv. reflexivity.
  - cbn [sz]. rewrite Sz. reflexivity.
Qed.

Lemma wd_axis : axis_range [XF 3; XNaN; XF 1] 1 3.
Proof.
  split; [simpl; auto|]. split; [simpl; auto|]. intros g H. inl H; subst g; auto; right; eexists; (split; [reflexivity|lra]).
Qed.
Lemma wd_time : assoc (all_vars (mds (wd 3))) "time" = Some (snd (wd_coord "time")) /\
  vdims (snd (wd_coord "time")) = ["time"] /\
  (1 <= INR 1 < 5)%R /\ ~ (1 <= INR 0 < 5)%R.
Proof. repeat split; simpl; lra. Qed.
Lemma wd_saved : NoDup (map fst (coords (mds (wd 3)))) /\ NoDup (map fst (vars (mds (wd 3)))) /\
  (exists v, field (subcolumns_file (wd 3)) "conv_frac_subcolumns_cl" v) /\
  assoc (vars (remove_subcol_fields (mds (wd 3)) "conv")) "conv_frac_subcolumns_cl" = None /\
  (exists v, field (remove_subcol_fields (mds (wd 3)) "conv") "sub_col_Ze_tot_strat" v).
Proof.
  split; [nodups|]. split; [nodups|]. split; [eexists; reflexivity|]. split; [reflexivity|eexists; reflexivity].
Qed.
