(** Reading an E3SM file with a time range is reading the cropped file. *)
From Verif Require Import Xds_Round Load_Spec Load_Facts Load_Compose Load_Final Xds_Proofs Xds_Stack Xds_Fields.
From Coq Require Import Sorted.
Local Open Scope string_scope.
Local Open Scope list_scope.

Definition no_range (o : e3sm_opts) : e3sm_opts :=
  {| o_single_ice := o_single_ice o; o_rain := o_rain o; o_scheme := o_scheme o; o_range := None |}.

Lemma isel_dims d keep v : vdims (isel d keep v) = vdims v.
Proof. unfold isel. destruct (memb _ _); reflexivity. Qed.

Section Keep.
Variables (m : mobj) (keep : list nat).
Let td := time_dim m.
Definition cropped : mobj :=
  with_ds m {| sz := fun d => if String.eqb d (time_dim m) then length keep else sz (mds m) d;
               coords := on_vals (isel (time_dim m) keep) (coords (mds m));
               vars := on_vals (isel (time_dim m) keep) (vars (mds m)) |}.

Lemma cr_in_vars k v : In (k, v) (all_vars (mds m)) -> In (k, isel td keep v) (all_vars (mds cropped)).
Proof.
  intro I. unfold all_vars in *. apply in_app_iff in I as [I|I]; apply in_app_iff; [left|right];
  apply in_on_vals; eauto.
Qed.
Lemma cr_of_vars k v : In (k, v) (all_vars (mds cropped)) -> exists w, In (k, w) (all_vars (mds m)) /\ v = isel td keep w.
Proof.
  intro I. unfold all_vars in *. apply in_app_iff in I as [I|I]; apply in_on_vals in I as (w & I & ->); exists w;
  (split; [apply in_app_iff; auto|reflexivity]).
Qed.
Lemma cr_dims d : In d (all_dims (mds cropped)) <-> In d (all_dims (mds m)).
Proof.
  rewrite !in_dims. split.
  - intros (k & v & I & D). apply cr_of_vars in I as (w & I & ->). rewrite isel_dims in D. eauto.
  - intros (k & v & I & D). exists k, (isel td keep v). split; [apply cr_in_vars; exact I|]. rewrite isel_dims. exact D.
Qed.
Lemma on_vals_keys f l : map fst (on_vals f l) = map fst l.
Proof. unfold on_vals. rewrite map_map. reflexivity. Qed.
Lemma cr_keys : map fst (all_vars (mds cropped)) = map fst (all_vars (mds m)).
Proof. unfold all_vars. rewrite !map_app. cbn [cropped with_ds mds coords vars]. rewrite !on_vals_keys. reflexivity. Qed.
Lemma cr_wf : well_formed (mds m) -> well_formed (mds cropped).
Proof. intros W k v I. apply cr_of_vars in I as (w & I & ->). rewrite isel_dims. exact (W k w I). Qed.
Lemma cr_sz d : d <> td -> sz (mds cropped) d = sz (mds m) d.
Proof. intro N. cbn [cropped with_ds mds sz]. rewrite eqb_f by exact N. reflexivity. Qed.
Lemma cr_field k v : field (mds m) k v -> field (mds cropped) k (isel td keep v).
Proof. unfold field. intro F. cbn [cropped with_ds mds vars]. rewrite assoc_on_vals, F. reflexivity. Qed.
Lemma cr_unused n : unused (mds m) n -> unused (mds cropped) n.
Proof. intros [A B]. split; [rewrite cr_dims; exact A|rewrite cr_keys; exact B]. Qed.
Lemma cr_regional : lat_dim m <> td -> lon_dim m <> td -> regional m <-> regional cropped.
Proof.
  intros A B. unfold regional. change (lat_dim cropped) with (lat_dim m). change (lon_dim cropped) with (lon_dim m).
  rewrite !cr_sz by assumption. rewrite cr_dims. tauto.
Qed.

Lemma cr_stackable out : stackable m out -> stackable cropped out.
Proof.
  intros [A1 A2 A3 A4 A5 A6 A7 A8]. constructor; cbn [cropped with_ds time_dim lat_dim lon_dim height_dim stacked_time_dim]; fold cropped.
  - apply cr_wf. exact A1.
  - apply cr_dims. exact A2.
  - apply cr_dims. exact A3.
  - destruct A4 as (k & v & I & D). exists k, (isel td keep v). split; [apply in_on_vals; eauto|rewrite isel_dims; exact D].
  - exact A5.
  - intros n I. apply cr_unused. exact (A6 n I).
  - intros d v I D. apply in_on_vals in I as (w & I & ->). rewrite isel_dims. apply (A7 d w I). apply cr_dims. exact D.
  - exact A8.
Qed.
Lemma cr_domain : domain m -> domain cropped.
Proof.
  intros [S R|L H|L H R N].
  - pose proof (st_names _ _ S) as NN. apply several; [apply cr_stackable; exact S|].
    apply cr_regional; [| |exact R]; intro Q; unfold td in Q; rewrite Q in NN;
      inversion NN as [|? ? X _]; apply X; simpl; auto.
  - apply no_lat; change (lat_dim cropped) with (lat_dim m); change (time_dim cropped) with (time_dim m); rewrite cr_dims; assumption.
  - apply one.
    + change (lat_dim cropped) with (lat_dim m). rewrite cr_dims. exact L.
    + change (time_dim cropped) with (time_dim m). rewrite cr_dims. exact H.
    + rewrite <- cr_regional; [exact R| |]; intro Q; unfold td in Q; rewrite Q in N;
        inversion N as [|? ? X _]; apply X; simpl; auto.
    + exact N.
Qed.
Lemma cr_has k (P : list string -> Prop) : (exists v, field (mds m) k v /\ P (vdims v)) ->
  exists v, field (mds cropped) k v /\ P (vdims v).
Proof. intros (v & F & H). exists (isel td keep v). split; [apply cr_field; exact F|rewrite isel_dims; exact H]. Qed.
Lemma cr_file f hs T : e3sm_file m f hs T -> e3sm_file cropped f hs (isel td keep T).
Proof.
  intros [A1 A2 A3 A4 A5 A6 A7 A8 A9 B1 B2 B3 B4].
  constructor; cbn [cropped with_ds time_dim lat_dim lon_dim height_dim stacked_time_dim]; fold cropped;
    rewrite ?isel_dims.
  - apply cr_wf. exact A1.
  - intros v I. apply in_on_vals in I as (w & I & ->). rewrite isel_dims. exact (A2 w I).
  - rewrite cr_dims. exact A3.
  - exact A4.
  - exact A5.
  - apply cr_field. exact A6.
  - exact A7.
  - apply (cr_has "P0" (fun l => l = [])). exact A8.
  - apply (cr_has "hyam" (fun l => l = [height_dim m])). exact A9.
  - apply (cr_has "hybm" (fun l => l = [height_dim m])). exact B1.
  - apply (cr_has "PS" (fun l => forall d, In d (vdims T) <-> In d l \/ d = height_dim m)). exact B2.
  - intros h I. destruct (B3 h I) as (nn & rn & n & re & E1 & E2 & F1 & F2 & D1 & D2).
    exists nn, rn, (isel td keep n), (isel td keep re).
    split; [exact E1|]. split; [exact E2|]. split; [apply cr_field; exact F1|]. split; [apply cr_field; exact F2|].
    rewrite !isel_dims. auto.
  - intros k I. pose proof (B4 k) as B.
    rewrite <- (on_vals_keys (isel td keep) (vars (mds m))), <- (on_vals_keys (isel td keep) (coords (mds m))) in B.
    exact (B I).
Qed.
Lemma cr_p3 T : p3_file m T -> p3_file cropped (isel td keep T).
Proof.
  intros H k I. destruct (H k I) as (v & F & E). exists (isel td keep v). rewrite !isel_dims.
  split; [apply cr_field; exact F|exact E].
Qed.
End Keep.

Lemma crop_cases m t0 t1 m0 : crop_time_range m t0 t1 None = Ok m0 -> m0 = m \/ exists keep, m0 = cropped m keep.
Proof.
  unfold crop_time_range. destruct (axis_of _ _) as [tc|]; [|discriminate].
  destruct (vdims tc) as [|d [|? ?]]; try discriminate.
  destruct (negb _); [discriminate|].
  destruct (filter _ _) as [|a l]; intros [= <-]; [left; reflexivity|]. right. exists (a :: l). reflexivity.
Qed.

Lemma load_of_cropped o m T t0 t1 m0 : o_range o = Some (t0, t1) -> domain m ->
  e3sm_file m (e3sm_fields (o_single_ice o)) (e3sm_types (o_single_ice o) (o_rain o)) T ->
  (o_scheme o = "P3" -> p3_file m T) -> crop_time_range m t0 t1 None = Ok m0 ->
  e3sm_load o m = e3sm_load (no_range o) m0 /\ domain m0 /\
  exists T0, e3sm_file m0 (e3sm_fields (o_single_ice o)) (e3sm_types (o_single_ice o) (o_rain o)) T0 /\
  (o_scheme o = "P3" -> p3_file m0 T0).
Proof.
  intros R D F P C. split.
  { unfold e3sm_load. rewrite R, C. reflexivity. }
  destruct (crop_cases _ _ _ _ C) as [->|(keep & ->)].
  - split; [exact D|]. exists T. auto.
  - split; [apply cr_domain; exact D|]. eexists. split; [apply cr_file; exact F|].
    intro Q. apply cr_p3. exact (P Q).
Qed.

Lemma load_range_values o m m' T t0 t1 tc : o_range o = Some (XF t0, XF t1) -> domain m ->
  e3sm_file m (e3sm_fields (o_single_ice o)) (e3sm_types (o_single_ice o) (o_rain o)) T ->
  (o_scheme o = "P3" -> p3_file m T) ->
  assoc (all_vars (mds m)) (time_dim m) = Some tc -> vdims tc = [time_dim m] ->
  (exists i t, i < sz (mds m) (time_dim m) /\ at_ tc (fun _ => i) = XF t /\ (t0 <= t < t1)%R) ->
  e3sm_load o m = Ok m' ->
  exists keep m0, StronglySorted lt keep /\
    (forall i, In i keep <-> i < sz (mds m) (time_dim m) /\ exists t, at_ tc (fun _ => i) = XF t /\ (t0 <= t < t1)%R) /\
    crop_time_range m (XF t0) (XF t1) None = Ok m0 /\
    (forall d, sz (mds m0) d = if string_dec d (time_dim m) then length keep else sz (mds m) d) /\
    forall k v, field (mds m) k v ->
    ~ In k (loaded_names ++ map snd (f_N (e3sm_fields (o_single_ice o))) ++ map snd (f_re (e3sm_fields (o_single_ice o)))) ->
    exists v', field (mds m') k v' /\ forall ix, inside (mds m0) ix ->
      at_ v' (place m0 ix) = at_ v (fun d => if string_dec d (time_dim m) then nth (ix d) keep 0 else ix d).
Proof.
  intros R D F P AC DT (i & t & Hi & Ht & B) E.
  destruct (crop_spec m t0 t1 None tc AC DT) as (keep & S & K & _ & K2).
  assert (NE : keep <> []).
  { intro Q. assert (I : In i keep) by (apply K; eauto). rewrite Q in I. destruct I. }
  destruct (K2 NE) as (m0 & C & Z & TD & KS & V).
  exists keep, m0. split; [exact S|]. split; [exact K|]. split; [exact C|].
  split.
  { exact Z. }
  intros k v Fk N.
  destruct (load_of_cropped o m T _ _ m0 R D F P C) as (EQ & D0 & T0 & F0 & P0).
  rewrite EQ in E.
  assert (Fk' : exists v0, field (mds m0) k v0 /\
     forall ix, at_ v0 ix = at_ v (fun d => if string_dec d (time_dim m) then nth (ix d) keep 0 else ix d)).
  { assert (NC : ~ In k (map fst (coords (mds m)))).
    { apply F. apply in_app_iff. right. apply in_map_iff. exists (k, v). split; [reflexivity|].
      apply assoc_mem. exact Fk. }
    destruct (V k v) as (v0 & A0 & _ & AT).
    { unfold all_vars. rewrite assoc_app, (assoc_none _ _ NC). exact Fk. }
    exists v0. split; [|exact AT].
    destruct (crop_cases _ _ _ _ C) as [->|(kp & ->)].
    - unfold all_vars in A0. rewrite assoc_app, (assoc_none _ _ NC) in A0. exact A0.
    - unfold all_vars in A0. rewrite assoc_app, assoc_none in A0; [exact A0|].
      change (coords (mds (cropped m kp))) with (on_vals (isel (time_dim m) kp) (coords (mds m))).
      rewrite on_vals_keys. exact NC. }
  destruct Fk' as (v0 & Fv0 & AT).
  destruct (final_kept (no_range o) m0 m' T0 eq_refl D0 F0 P0 E k v0 Fv0 N) as (v' & F' & A').
  exists v'. split; [exact F'|]. intros ix I. rewrite (A' ix I). apply AT.
Qed.

(** The fields by name. *)
Lemma named_fields o m m' T : o_range o = None -> domain m ->
  e3sm_file m (e3sm_fields (o_single_ice o)) (e3sm_types (o_single_ice o) (o_rain o)) T ->
  (o_scheme o = "P3" -> p3_file m T) -> e3sm_load o m = Ok m' ->
  forall h nn rn, In (h, (nn, rn)) class_fields ->
  In h (["cl"; "ci"] ++ (if o_rain o then ["pl"] else []) ++ (if o_single_ice o then [] else ["pi"])) ->
  loaded m m' nn (number m nn) /\ loaded m m' rn (fun ix => radius h (raw m rn ix)).
Proof.
  intros H1 H2 H3 H4 H5 h nn rn I J.
  apply (final_class o m m' T H1 H2 H3 H4 H5 h nn rn).
  - unfold e3sm_types. destruct (o_rain o), (o_single_ice o); simpl in *; intuition.
  - unfold class_fields in I. simpl in I. destruct I as [I|[I|[I|[I|[]]]]]; injection I as <- <- <-; try reflexivity.
    destruct (o_single_ice o), (o_rain o); simpl in J; try reflexivity; intuition discriminate.
  - unfold class_fields in I. simpl in I. destruct I as [I|[I|[I|[I|[]]]]]; injection I as <- <- <-; try reflexivity.
    destruct (o_single_ice o), (o_rain o); simpl in J; try reflexivity; intuition discriminate.
Qed.
