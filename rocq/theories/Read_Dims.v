(** Dimension names of the models read. *)
From Verif Require Import Read_Spec.
Local Open Scope string_scope.
Local Open Scope list_scope.

Definition names_kept (m m' : mobj) : Prop :=
  lat_dim m' = lat_dim m /\ lon_dim m' = lon_dim m /\ height_dim m' = height_dim m /\
  ((time_dim m' = time_dim m /\ stacked_time_dim m' = stacked_time_dim m) \/
   (time_dim m' = "time_lat_lon" /\ stacked_time_dim m' = Some (time_dim m))).
Lemma same_names m x : names_kept m (with_ds m x). Proof. repeat split; auto. Qed.
Lemma crop_names m a b m' : crop_time_range m a b None = Ok m' -> exists x, m' = with_ds m x.
Proof.
  unfold crop_time_range. destruct (axis_of _ _) as [v|]; [|discriminate]. destruct (vdims v) as [|d [|? ?]]; try discriminate.
  destruct (negb _); [discriminate|]. destruct (filter _ _); intro H; injection H as <-; [|eauto]. exists (mds m). destruct m; reflexivity.
Qed.
Lemma checked_names m r m' : checked_range m r = Ok m' -> exists x, m' = with_ds m x.
Proof.
  destruct r as [r|]; cbn; [destruct (r_datetime r); [apply crop_names|discriminate]|]. intro H. injection H as <-. exists (mds m). destruct m; reflexivity.
Qed.
Lemma stack_names m m' : check_and_stack m "time_lat_lon" true = Ok m' -> names_kept m m'.
Proof.
  unfold check_and_stack, permute_dims. intro H.
  destruct (has_dim _ (lat_dim m)); [destruct (_ || _)|]; cbn [mds time_dim height_dim with_ds] in H;
    destruct (transpose _ _) as [y|]; cbn [bind] in H; try discriminate; injection H as <-; repeat split; auto.
Qed.
Lemma names_after m x m' : names_kept (with_ds m x) m' -> names_kept m m'.
Proof. exact (fun H => H). Qed.

Theorem modele_names r x m' : modele_load r x = Ok m' -> names_kept (modele_obj x) m'.
Proof.
  unfold modele_load. intro H. destruct (checked_range _ r) as [m1|] eqn:E1; [|discriminate]. cbn [bind] in H.
  destruct (check_and_stack m1 _ _) as [m2|] eqn:E2; [|discriminate]. cbn [bind] in H.
  destruct (getv _ _); [|discriminate]. cbn [bind] in H. destruct (air_density _ _ _); [|discriminate]. injection H as <-.
  apply checked_names in E1 as (y & ->). apply stack_names in E2. exact E2.
Qed.
Theorem dharma_names td b r x m' : dharma_load td b r x = Ok m' -> names_kept (dharma_obj td x) m'.
Proof.
  unfold dharma_load. intro H. destruct (air_density _ _ _) as [x1|]; [|discriminate]. cbn [bind] in H.
  destruct (match b with None => _ | Some b => _ end) as [m1|] eqn:E1; [|discriminate]. cbn [bind] in H.
  destruct (checked_range m1 r) as [m2|] eqn:E2; [|discriminate]. cbn [bind] in H. apply stack_names in H. apply checked_names in E2 as (y & ->).
  assert (E : exists z, m1 = with_ds (dharma_obj td x) z).
  { destruct b as [[[[a c] e] f]|]; [|injection E1 as <-; eexists; reflexivity]. unfold crop_xy in E1.
    destruct (label_slice _ "x" _ _); [|discriminate]. cbn [bind] in E1. destruct (label_slice _ "y" _ _); [|discriminate]. injection E1 as <-. eexists. reflexivity. }
  destruct E as (z & ->). exact H.
Qed.
Theorem wrf_names o x z tk m' : wrf_load o x z tk = Ok m' -> forall d, names_kept (wrf_obj x d) m'.
Proof.
  unfold wrf_load. intros H d. destruct (wrf_fields o x z tk) as [d'|]; [|discriminate]. cbn [bind] in H.
  destruct (match w_box o with None => _ | Some b => _ end) as [m1|] eqn:E1; [|discriminate]. cbn [bind] in H.
  destruct (match w_range o with None => _ | Some b => _ end) as [m2|] eqn:E2; [|discriminate]. cbn [bind] in H. apply stack_names in H.
  assert (F2 : exists y, m2 = with_ds m1 y).
  { destruct (w_range o) as [[t0 t1]|]; [eapply crop_names, E2|]. injection E2 as <-. exists (mds m1). destruct m1; reflexivity. }
  assert (F1 : exists y, m1 = with_ds (wrf_obj x d') y).
  { destruct (w_box o) as [[[[a b] c] e]|]; [|injection E1 as <-; eexists; reflexivity]. unfold crop_box in E1.
    destruct (getv _ "XLAT") as [la|]; [|discriminate]. cbn [bind] in E1. destruct (getv _ "XLONG") as [lo|]; [|discriminate]. cbn [bind] in E1.
    destruct (shape _ la) as [|? [|? [|? [|? ?]]]]; try discriminate. destruct (shape _ lo) as [|? [|? [|? [|? ?]]]]; try discriminate.
    repeat (match type of E1 with context [bind (nearest ?p ?q) _] => destruct (nearest p q); [|discriminate]; cbn [bind] in E1 end).
    injection E1 as <-. eexists. reflexivity. }
  destruct F2 as (y & ->). destruct F1 as (y' & ->). exact H.
Qed.

(** Spelled out. *)
Theorem modele_dims r x m' : modele_load r x = Ok m' ->
  lat_dim m' = "lat" /\ lon_dim m' = "lon" /\ height_dim m' = height_dim (modele_obj x) /\
  ((time_dim m' = "time" /\ stacked_time_dim m' = None) \/ (time_dim m' = "time_lat_lon" /\ stacked_time_dim m' = Some "time")).
Proof. exact (modele_names r x m'). Qed.
Theorem dharma_dims td b r x m' : dharma_load td b r x = Ok m' ->
  lat_dim m' = "y" /\ lon_dim m' = "x" /\ height_dim m' = "hgt" /\
  ((time_dim m' = td /\ stacked_time_dim m' = None) \/ (time_dim m' = "time_lat_lon" /\ stacked_time_dim m' = Some td)).
Proof. exact (dharma_names td b r x m'). Qed.
Theorem wrf_dims o x z tk m' : wrf_load o x z tk = Ok m' ->
  lat_dim m' = "south_north" /\ lon_dim m' = "west_east" /\ height_dim m' = "bottom_top" /\
  ((time_dim m' = "Time" /\ stacked_time_dim m' = None) \/ (time_dim m' = "time_lat_lon" /\ stacked_time_dim m' = Some "Time")).
Proof. intro H. exact (wrf_names o x z tk m' H []). Qed.
