(** Final forms, and a file that meets the hypotheses. *)
From Verif Require Import Load_Spec Load_Facts Load_Compose Load_Loop Xds_Proofs Xds_Stack Xr_Facts.
From Coq Require Import Lra.
Local Open Scope string_scope.
Local Open Scope list_scope.

Section Final.
Variables (o : e3sm_opts) (m m' : mobj) (T : var).
Let f := e3sm_fields (o_single_ice o).
Let hs := e3sm_types (o_single_ice o) (o_rain o).
Hypothesis RN : o_range o = None.
Hypothesis DM : domain m.
Hypothesis FF : e3sm_file m f hs T.
Hypothesis P3F : o_scheme o = "P3" -> p3_file m T.

Lemma final_ok : exists m1, e3sm_load o m = Ok m1.
Proof. destruct (load_composed o m T RN DM FF P3F) as (m1 & E & _). eauto. Qed.

Hypothesis E : e3sm_load o m = Ok m'.
Ltac go := destruct (load_composed o m T RN DM FF P3F) as (m1 & E1 & A1 & A2 & A3 & A4 & A5 & A6 & A7 & A8 & A9);
  rewrite E in E1; injection E1 as <-.

Lemma final_kept k v : field (mds m) k v ->
  ~ In k (loaded_names ++ map snd (f_N f) ++ map snd (f_re f)) -> loaded m m' k (at_ v).
Proof.
  go. intros F N. apply A1; [exact F|]. intro J. apply N. apply in_app_iff in J as [J|J]; apply in_app_iff; [auto|]. right.
  unfold names in J. apply in_flat_map in J as (c & Ic & [<-|[<-|[]]]); apply in_app_iff.
  - left. destruct (names_facts (o_single_ice o) (o_rain o)) as (K & _). destruct (K c Ic) as [K1 _].
    unfold nmN. fold f in K1 |- *. destruct (assoc (f_N f) c) as [n|] eqn:Q; [|tauto]. apply assoc_mem in Q.
    apply in_map_iff. exists (c, n). auto.
  - right. destruct (names_facts (o_single_ice o) (o_rain o)) as (K & _). destruct (K c Ic) as [_ K1].
    unfold nmR. fold f in K1 |- *. destruct (assoc (f_re f) c) as [n|] eqn:Q; [|tauto]. apply assoc_mem in Q.
    apply in_map_iff. exists (c, n). auto.
Qed.
Lemma final_level v : assoc (coords (mds m)) (height_dim m) = Some v -> exists v',
  assoc (coords (mds m')) (height_dim m) = Some v' /\
  forall ix, inside (mds m) ix -> at_ v' (place m ix) = at_ v ix.
Proof. go. apply A7. Qed.
Lemma final_air : loaded m m' "p_3d" (pressure m) /\ loaded m m' "rho_a" (density m) /\
  loaded m m' "zeros_cf" (fun _ => XF 0).
Proof. go. auto. Qed.
Lemma final_class h nn rn : In h hs -> assoc (f_N f) h = Some nn -> assoc (f_re f) h = Some rn ->
  loaded m m' nn (number m nn) /\ loaded m m' rn (fun ix => radius h (raw m rn ix)).
Proof.
  go. intros I N R. pose proof (A5 h I) as P. unfold nmN, nmR in P. fold f in P. rewrite N, R in P. exact P.
Qed.
Lemma final_p3 : o_scheme o = "P3" ->
  loaded m m' "in_cld_Ni" (in_cloud_number m) /\ loaded m m' "Fr" (rime_fraction m) /\
  loaded m m' "rho_r" (fun ix => if xeqb (rime_fraction m ix) (XF 0) then XF 0
                                 else xdiv (raw m "CLDRIM" ix) (raw m "BVRIM" ix)) /\
  loaded m m' "qi_norm" (fun ix => xdiv (xdiv (raw m "CLDICE" ix) (raw m "FREQI" ix)) (in_cloud_number m ix)).
Proof. go. exact A6. Qed.
Lemma final_names k : In k loaded_names -> ~ In k (map fst (coords (mds m'))).
Proof. go. apply A8. Qed.
Lemma final_p3_dims : o_scheme o = "P3" -> exists D vF vR vQ,
  field (mds m') "Fr" vF /\ field (mds m') "rho_r" vR /\ field (mds m') "qi_norm" vQ /\
  vdims vF = D /\ vdims vR = D /\ vdims vQ = D.
Proof. go. exact A9. Qed.
Lemma final_untouched k v : o_scheme o = "P3" -> In k ["CLDICE"; "CLDRIM"] -> field (mds m) k v -> loaded m m' k (at_ v).
Proof.
  intros _ I F. apply final_kept; [exact F|].
  unfold f. destruct (o_single_ice o); simpl in I |- *; intro J; intuition congruence.
Qed.
End Final.

(** In finite numbers. *)
Lemma real_air m ix p0 a ps b t : raw m "P0" ix = XF p0 -> raw m "hyam" ix = XF a -> raw m "PS" ix = XF ps ->
  raw m "hybm" ix = XF b -> raw m "T" ix = XF t -> t <> 0%R ->
  pressure m ix = XF ((p0 * a + ps * b) / 100) /\
  density m ix = XF ((p0 * a + ps * b) / (287058 / 1000 * t)) /\
  forall k n, raw m k ix = XF n -> number m k ix = XF (n * ((p0 * a + ps * b) / (287058 / 1000 * t)) / 10 ^ 6).
Proof.
  intros E1 E2 E3 E4 HT H.
  assert (P : pressure m ix = XF ((p0 * a + ps * b) / 100)).
  { unfold pressure. rewrite E1, E2, E3, E4. cbn [xmul xadd]. apply xdiv_fin. lra. }
  assert (D : density m ix = XF ((p0 * a + ps * b) / (287058 / 1000 * t))).
  { unfold density. rewrite P, HT. cbn [xmul]. rewrite xdiv_fin by lra. apply (f_equal XF). field. exact H. }
  split; [exact P|]. split; [exact D|]. intros k n Hn. unfold number. rewrite D, Hn, xdiv_fin by lra.
  cbn [xmul]. apply (f_equal XF). field. exact H.
Qed.

(** A file of 2 x 3 x 2 x 2 boxes with P3 ice. *)
Definition full : list string := ["time"; "lev"; "lat"; "lon"].
Definition demo_var (d : list string) (v : R) : var := {| vdims := d; vat := fun ix => XF (v + INR (nth 0 ix 0)) |}.
Definition demo_file : mobj :=
  {| mds := {| sz := fun d => if String.eqb d "lev" then 3 else 2;
               coords := [("lev", demo_var ["lev"] 1)];
               vars := [("T", demo_var full 250); ("P0", demo_var [] 100000); ("hyam", demo_var ["lev"] 0);
                        ("hybm", demo_var ["lev"] 1); ("PS", demo_var ["time"; "lat"; "lon"] 90000);
                        ("NUMLIQ", demo_var full 1000); ("AREL", demo_var full 0);
                        ("NUMICE", demo_var full 10); ("AREI", demo_var full 5);
                        ("CLDICE", {| vdims := full; vat := fun _ => XF (/ 10 ^ 19) |});
                        ("CLDRIM", demo_var full 0); ("FREQI", demo_var full 1); ("BVRIM", demo_var full 1);
                        ("TS", demo_var ["time"; "lat"; "lon"] 280)] |};
     time_dim := "time"; height_dim := "lev"; lat_dim := "lat"; lon_dim := "lon"; stacked_time_dim := None |}.
Definition demo_opts : e3sm_opts := {| o_single_ice := true; o_rain := false; o_scheme := "P3"; o_range := None |}.
Definition demo_T := demo_var full 250.

Lemma demo_wf : well_formed (mds demo_file).
Proof.
  intros k v I. simpl in I. repeat (destruct I as [I|I]; [injection I as <- <-; repeat constructor; simpl; intuition discriminate|]).
  destruct I.
Qed.
Lemma demo_dims d : In d (all_dims (mds demo_file)) <-> In d full.
Proof.
  change (all_dims (mds demo_file)) with (nodup string_dec (flat_map (fun p => vdims (snd p)) (all_vars (mds demo_file)))).
  rewrite nodup_In. cbn. tauto.
Qed.
Lemma demo_domain : domain demo_file.
Proof.
  apply several.
  - constructor; cbn [demo_file time_dim lat_dim lon_dim height_dim stacked_time_dim].
    + exact demo_wf.
    + apply demo_dims. simpl. auto.
    + apply demo_dims. simpl. auto.
    + exists "T", demo_T. simpl. auto.
    + cbn. repeat constructor; simpl; intuition discriminate.
    + intros n I. split; [rewrite demo_dims; unfold full; simpl in *; intuition congruence|].
      simpl in *. intuition congruence.
    + intros d v I _. simpl in I. destruct I as [I|[]]. injection I as <- <-. reflexivity.
    + reflexivity.
  - left. cbn. discriminate.
Qed.
Lemma demo_is_file : e3sm_file demo_file (e3sm_fields true) (e3sm_types true false) demo_T.
Proof.
  constructor; cbn [demo_file time_dim lat_dim lon_dim height_dim].
  - exact demo_wf.
  - intros v I. simpl in I. destruct I as [I|[]]. injection I as <-. reflexivity.
  - rewrite demo_dims. unfold full. simpl. intuition discriminate.
  - simpl. intuition discriminate.
  - discriminate.
  - reflexivity.
  - simpl. auto.
  - eexists. split; [reflexivity|]. reflexivity.
  - eexists. split; [reflexivity|]. reflexivity.
  - eexists. split; [reflexivity|]. reflexivity.
  - eexists. split; [reflexivity|]. intro d. cbn. intuition congruence.
  - intros h I. simpl in I. destruct I as [<-|[<-|[]]]; do 4 eexists; repeat split; reflexivity.
  - intros k I. simpl in I |- *. repeat (destruct I as [<-|I]; [intuition discriminate|]). destruct I.
Qed.
Lemma demo_p3 : o_scheme demo_opts = "P3" -> p3_file demo_file demo_T.
Proof.
  intros _ k I. simpl in I. repeat (destruct I as [<-|I]; [eexists; split; reflexivity|]). destruct I.
Qed.
Lemma demo_inside : inside (mds demo_file) (fun _ => 1).
Proof. intros d _. cbn. destruct (String.eqb d "lev"); lia. Qed.

(** Truncated ice stays in the data. *)
Lemma truncation : exists o m T m' v ix,
  o_scheme o = "P3" /\ domain m /\ e3sm_file m (e3sm_fields (o_single_ice o)) (e3sm_types (o_single_ice o) (o_rain o)) T /\
  p3_file m T /\ e3sm_load o m = Ok m' /\ inside (mds m) ix /\
  (exists q, raw m "CLDICE" ix = XF q /\ q < / 10 ^ 18)%R /\
  field (mds m') "CLDICE" v /\ at_ v (place m ix) = raw m "CLDICE" ix.
Proof.
  destruct (final_ok demo_opts demo_file demo_T eq_refl demo_domain demo_is_file demo_p3) as (m' & E).
  destruct (final_untouched demo_opts demo_file m' demo_T eq_refl demo_domain demo_is_file demo_p3 E "CLDICE" _ eq_refl
     (or_introl eq_refl) eq_refl) as (v & F & A).
  exists demo_opts, demo_file, demo_T, m', v, (fun _ => 1).
  split; [reflexivity|]. split; [exact demo_domain|]. split; [exact demo_is_file|]. split; [exact (demo_p3 eq_refl)|].
  split; [exact E|]. split; [exact demo_inside|]. split.
  - exists (/ 10 ^ 19)%R. split; [reflexivity|]. apply Rinv_lt_contravar; [|simpl; lra]. apply Rmult_lt_0_compat; apply pow_lt; lra.
  - split; [exact F|]. rewrite (A _ demo_inside). reflexivity.
Qed.
