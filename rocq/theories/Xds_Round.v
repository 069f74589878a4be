(** Stacking a dataset, and the round trip. *)
From Verif Require Import Xds_Model Xds_Spec Xds_Proofs Xds_Stack.
From Verif Require Mom_Facts Gen_Facts.
Local Open Scope string_scope.
Local Open Scope list_scope.

Lemma vtrans_single o v d : NoDup o -> In d o -> vdims v = [d] -> vdims (vtrans o v) = [d].
Proof.
  intros NO IO D. unfold vtrans. cbn [vdims]. rewrite D.
  induction o as [|y l IH]; [destruct IO|]. inversion NO as [|? ? N1 N2]; subst. simpl.
  destruct (String.eqb y d) eqn:E.
  - apply String.eqb_eq in E. subst. simpl. f_equal.
    clear - N1. induction l as [|z l IH]; [reflexivity|]. simpl.
    destruct (String.eqb z d) eqn:E; [apply String.eqb_eq in E; subst; exfalso; apply N1; left; reflexivity|].
    simpl. apply IH. intro. apply N1. right. assumption.
  - simpl. destruct IO as [->|IO]; [rewrite String.eqb_refl in E; discriminate|]. apply IH; assumption.
Qed.

Lemma assoc_none {A} (l : list (string * A)) k : ~ In k (map fst l) -> assoc l k = None.
Proof.
  induction l as [|[x w] l IH]; simpl; [reflexivity|]. intro H.
  destruct (String.eqb_spec x k) as [->|]; [tauto|]. apply IH. tauto.
Qed.
Lemma assoc_app {A} (l l' : list (string * A)) k :
  assoc (l ++ l') k = match assoc l k with Some v => Some v | None => assoc l' k end.
Proof. induction l as [|[x w] l IH]; simpl; [reflexivity|]. destruct (String.eqb x k); auto. Qed.
Lemma assoc_filter_keys {A} (f : string -> bool) (l : list (string * A)) k :
  assoc (filter (fun p => f (fst p)) l) k = if f k then assoc l k else None.
Proof.
  induction l as [|[x w] l IH]; simpl; [destruct (f k); reflexivity|].
  destruct (String.eqb_spec x k) as [->|N].
  - destruct (f k) eqn:E; simpl; [rewrite String.eqb_refl; reflexivity|exact IH].
  - destruct (f x); simpl; [|exact IH]. apply String.eqb_neq in N. rewrite N. exact IH.
Qed.
Lemma in_put {A} (l : list (string * A)) k v k' v' : In (k', v') (put l k v) -> (k' = k /\ v' = v) \/ In (k', v') l.
Proof.
  induction l as [|[x w] l IH]; simpl.
  - intros [H|[]]. injection H as <- <-. auto.
  - destruct (String.eqb x k); simpl; intros [H|H]; auto; [injection H as <- <-; auto|].
    destruct (IH H); auto.
Qed.

(** The stacked dataset. *)
Definition sdims (m : mobj) (lon : bool) : list string :=
  if lon then [lat_dim m; lon_dim m; time_dim m] else [lat_dim m; time_dim m].
Definition with_tmps (m : mobj) (lon : bool) : xds :=
  let x1 := tmp_coord (lat_dim m) (mds m) in
  tmp_coord (time_dim m) (if lon then tmp_coord (lon_dim m) x1 else x1).
Definition stacked_of (m : mobj) (out : string) (lon : bool) : mobj :=
  {| mds := stack out (sdims m lon) (with_tmps m lon); time_dim := out; height_dim := height_dim m;
     lat_dim := lat_dim m; lon_dim := lon_dim m; stacked_time_dim := Some (time_dim m) |}.

Ltac neq := simpl in *; intuition congruence.
Lemma eqb_f a b : a <> b -> String.eqb a b = false.
Proof. intro. apply String.eqb_neq. assumption. Qed.

Section Stack.
Variables (m : mobj) (out : string).
Hypothesis S : stackable m out.
Let lon := has_dim (mds m) (lon_dim m).
Let szf := sz (with_tmps m lon).

Lemma szf_tmp d : In d (sdims m lon) -> szf (d ++ "_tmp")%string = szf d.
Proof.
  unfold szf, with_tmps, sdims. pose proof (st_names _ _ S) as N. intro H.
  destruct lon; unfold tmp_coord; cbn [sz]; dist N; simpl in H.
  - destruct H as [<-|[<-|[<-|[]]]]; repeat first [rewrite String.eqb_refl | rewrite eqb_f by neq]; reflexivity.
  - destruct H as [<-|[<-|[]]]; repeat first [rewrite String.eqb_refl | rewrite eqb_f by neq]; reflexivity.
Qed.
Lemma szf_old d : d <> (time_dim m ++ "_tmp")%string -> d <> (lat_dim m ++ "_tmp")%string ->
  d <> (lon_dim m ++ "_tmp")%string -> szf d = sz (mds m) d.
Proof.
  intros. unfold szf, with_tmps. destruct lon; unfold tmp_coord; cbn [sz];
    rewrite !eqb_f by assumption; reflexivity.
Qed.
Lemma szf_dim d : In d (all_dims (mds m)) -> szf d = sz (mds m) d.
Proof.
  intro H. apply szf_old; intros ->; revert H; apply (st_free _ _ S); simpl; auto.
Qed.
Lemma sdims_in d : In d (sdims m lon) -> In d (all_dims (mds m)).
Proof.
  unfold sdims. intro H. destruct lon eqn:E; simpl in H.
  - apply has_dim_in in E. destruct H as [<-|[<-|[<-|[]]]]; auto; apply S.
  - destruct H as [<-|[<-|[]]]; apply S.
Qed.
Lemma sdims_nodup : NoDup (sdims m lon).
Proof.
  pose proof (st_names _ _ S) as N. dist N. unfold sdims. destruct lon; repeat constructor; neq.
Qed.
Lemma out_unused : ~ In out (all_dims (mds m)).
Proof. apply (st_free _ _ S). simpl. auto. Qed.
Lemma height_not_stacked : ~ In (height_dim m) (sdims m lon).
Proof. pose proof (st_names _ _ S) as N. dist N. unfold sdims. destruct lon; neq. Qed.

Lemma with_tmps_vars : vars (with_tmps m lon) = vars (mds m).
Proof. unfold with_tmps. destruct lon; reflexivity. Qed.
Lemma with_tmps_coord d : In d (sdims m lon) ->
  exists v, assoc (coords (with_tmps m lon)) (d ++ "_tmp")%string = Some v /\ vdims v = [(d ++ "_tmp")%string].
Proof.
  pose proof (st_names _ _ S) as N. dist N. unfold with_tmps, sdims. intro H.
  assert (P : forall (l : list (string * var)) k v, assoc (put l k v) k = Some v) by (intros; apply Gen_Facts.assoc_put_same).
  assert (O : forall (l : list (string * var)) k v k', k' <> k -> assoc (put l k v) k' = assoc l k')
    by (intros; apply Gen_Facts.assoc_put_other; assumption).
  destruct lon; unfold tmp_coord; cbn [coords]; simpl in H.
  - destruct H as [<-|[<-|[<-|[]]]]; repeat (rewrite O by neq); rewrite P; eexists; split; reflexivity.
  - destruct H as [<-|[<-|[]]]; repeat (rewrite O by neq); rewrite P; eexists; split; reflexivity.
Qed.
Lemma with_tmps_nolon : lon = false -> assoc (coords (with_tmps m lon)) (lon_dim m ++ "_tmp")%string = None.
Proof.
  intro E. unfold with_tmps. rewrite E. unfold tmp_coord. cbn [coords].
  pose proof (st_names _ _ S) as N. dist N.
  rewrite !Gen_Facts.assoc_put_other by neq. apply assoc_none. intro H.
  destruct (st_free _ _ S (lon_dim m ++ "_tmp")%string) as (_ & F); [simpl; auto|]. apply F.
  unfold all_vars. rewrite map_app. apply in_or_app. left. exact H.
Qed.

Lemma stacked_field k v : field (mds m) k v ->
  field (mds (stacked_of m out lon)) k (vstack szf out (sdims m lon) v).
Proof.
  intro F. unfold field, stacked_of, stack. cbn [mds vars]. rewrite with_tmps_vars, assoc_on_vals.
  unfold field in F. rewrite F. reflexivity.
Qed.
Lemma stacked_coord d : In d (sdims m lon) ->
  exists v, assoc (coords (mds (stacked_of m out lon))) (d ++ "_tmp")%string = Some v /\ vdims v = [(d ++ "_tmp")%string].
Proof.
  intro H. destruct (with_tmps_coord d H) as (v & A & D).
  exists (vstack szf out (sdims m lon) v). unfold stacked_of, stack. cbn [mds coords].
  rewrite assoc_app, assoc_on_vals, (assoc_filter_keys (fun k => negb (memb k (sdims m lon)))).
  assert (M : memb (d ++ "_tmp")%string (sdims m lon) = false).
  { apply memb_out. intro I. apply sdims_in in I. revert I. apply (st_free _ _ S).
    unfold sdims in H. destruct lon; simpl in H; destruct H as [<-|H]; simpl; auto;
      destruct H as [<-|H]; simpl; auto; try tauto. destruct H as [<-|[]]; auto. }
  rewrite M. cbn [negb]. rewrite A. cbn [option_map]. split; [reflexivity|].
  unfold vstack. replace (existsb _ _) with false; [exact D|]. symmetry.
  apply Bool.not_true_is_false. intro E. apply existsb_exists in E as (c & Hc & Mc).
  apply memb_in in Mc. rewrite D in Mc. destruct Mc as [<-|[]]. apply memb_in in Hc. congruence.
Qed.

Lemma stacked_ok : stacked (stacked_of m out lon) (time_dim m) lon.
Proof.
  pose proof (st_names _ _ S) as N. dist N.
  assert (TE : tmps (stacked_of m out lon) (time_dim m) lon = map (fun d => d ++ "_tmp")%string (sdims m lon))
    by (unfold tmps, sdims; destruct lon; reflexivity).
  constructor.
  - reflexivity.
  - cbn [stacked_of time_dim height_dim lat_dim lon_dim]. repeat constructor; neq.
  - apply in_dims. exists out, {| vdims := [out]; vat := fun ix => XF (INR (nth 0 ix 0)) |}.
    split; [|left; reflexivity]. apply in_all_vars. left. unfold stacked_of, stack. cbn [mds coords]. apply in_or_app. right. left. reflexivity.
  - destruct (st_height _ _ S) as (k & v & H & D). exists k, (vstack szf out (sdims m lon) v). split.
    + unfold stacked_of, stack. cbn [mds vars]. rewrite with_tmps_vars. apply in_on_vals. eauto.
    + apply stack_dims_in; [exact D|]. apply height_not_stacked.
  - rewrite TE. intros d H. apply in_map_iff in H as (c & <- & Hc). split; [apply stacked_coord; exact Hc|].
    assert (U : unused (mds m) (c ++ "_tmp")%string).
    { apply (st_free _ _ S). unfold sdims in Hc. destruct lon; simpl in Hc; destruct Hc as [<-|Hc]; simpl; auto;
      destruct Hc as [<-|Hc]; simpl; auto; try tauto. destruct Hc as [<-|[]]; auto. }
    destruct U as [U1 U2]. split.
    + unfold stacked_of, stack, on_vals. cbn [mds vars]. rewrite with_tmps_vars, map_map. cbn [fst].
      intro H. apply U2. unfold all_vars. rewrite map_app. apply in_or_app. right. exact H.
    + intros k v H. unfold stacked_of, stack in H. cbn [mds vars] in H. rewrite with_tmps_vars in H.
      apply in_on_vals in H as (w & H & ->). intro D. apply stack_dims in D as [[D _]|[D _]].
      * apply U1. apply in_dims. exists k, w. split; [apply in_all_vars; auto|exact D].
      * assert (I : In (c ++ "_tmp")%string (map (fun d => d ++ "_tmp")%string (sdims m lon))) by (exact (in_map (fun d => d ++ "_tmp")%string _ _ Hc)).
        clear - I D NI0 NI1 NI2 NI3 NI4 NI5. rewrite D in I. unfold sdims in I. destruct lon; neq.
  - intros k v d H Hd D. unfold stacked_of, stack in H. cbn [mds vars] in H. rewrite with_tmps_vars in H.
    apply in_on_vals in H as (w & H & ->). cbn [stacked_of lat_dim lon_dim] in Hd.
    apply stack_dims in D as [[D Nd]|[-> _]].
    + assert (A : In d (all_dims (mds m))) by (apply in_dims; exists k, w; split; [apply in_all_vars; auto|exact D]).
      apply Nd. unfold sdims. destruct lon eqn:E; simpl in Hd |- *; [tauto|].
      destruct Hd as [?|[?|[Hd|[]]]]; auto. subst d. apply has_dim_in in A. unfold lon in E. congruence.
    + neq.
  - intro E. unfold stacked_of, stack. cbn [mds coords lon_dim]. rewrite assoc_app, assoc_on_vals.
    rewrite (assoc_filter_keys (fun k => negb (memb k (sdims m lon)))). rewrite (with_tmps_nolon E).
    replace (option_map _ _) with (@None var) by (destruct (negb _); reflexivity).
    simpl. rewrite eqb_f by neq. reflexivity.
  - rewrite TE. cbn [stacked_of mds time_dim stack sz]. rewrite String.eqb_refl. f_equal.
    rewrite map_map. apply map_ext_in. intros d Hd. fold szf. rewrite eqb_f; [symmetry; apply szf_tmp; exact Hd|].
    unfold sdims in Hd. intro E. destruct lon; simpl in Hd.
    + destruct Hd as [<-|[<-|[<-|[]]]]; neq.
    + destruct Hd as [<-|[<-|[]]]; neq.
Qed.

(** The same after the dimensions are reordered. *)
Lemma stacked_permuted b first : let m1 := stacked_of m out lon in
  incl b (all_dims (mds m1)) -> NoDup b -> ~ In "subcolumn" b ->
  stacked (with_ds m1 (on_ds (vtrans (order_of m1 b first)) (mds m1))) (time_dim m) lon.
Proof.
  intros m1 Ib Nb Sb. destruct stacked_ok as [A1 A2 A3 (hk & hv & A4 & A4') A5 A6 A7 A8]. fold m1 in A1, A2, A3, A4, A5, A6, A7, A8.
  set (o := order_of m1 b first).
  assert (Inc : incl (all_dims (mds m1)) o) by (intros d H; apply order_in; assumption).
  constructor; try assumption.
  - cbn [with_ds mds time_dim]. apply trans_all_dims; assumption.
  - exists hk, (vtrans o hv). split.
    + cbn [with_ds mds on_ds vars]. apply in_on_vals. eauto.
    + apply trans_dims. split; [|exact A4']. apply Inc. apply in_dims. exists hk, hv.
      split; [apply in_all_vars; auto|exact A4'].
  - intros d Hd. destruct (A5 d Hd) as ((v & B1 & B2) & B3 & B4). split; [|split].
    + exists (vtrans o v). split.
      * cbn [with_ds mds on_ds coords]. rewrite assoc_on_vals, B1. reflexivity.
      * apply vtrans_single; [apply order_nodup; assumption| |exact B2]. apply Inc. apply in_dims.
        exists d, v. split; [apply in_all_vars; left; apply assoc_mem; exact B1|rewrite B2; left; reflexivity].
    + cbn [with_ds mds on_ds vars]. unfold on_vals. rewrite map_map. exact B3.
    + intros k u H. cbn [with_ds mds on_ds vars] in H. apply in_on_vals in H as (w & H & ->).
      intro D. apply trans_dims in D as [_ D]. exact (B4 k w H D).
  - intros k v d H Hd D. cbn [with_ds mds on_ds vars] in H. apply in_on_vals in H as (w & H & ->).
    apply trans_dims in D as [_ D]. exact (A6 k w d H Hd D).
  - intro E. cbn [with_ds mds on_ds coords]. cbn [lon_dim]. rewrite assoc_on_vals. change (lon_dim m) with (lon_dim m1). pose proof (A7 E) as A; cbv zeta in A; unfold m1 in A; cbn [stacked_of lon_dim] in A; unfold m1; cbn [stacked_of lon_dim]; match goal with |- option_map ?f ?x = None => change x with (assoc (coords (mds (stacked_of m out lon))) (lon_dim m ++ "_tmp")%string) end; change (option_map (vtrans o) (assoc (coords (mds (stacked_of m out lon))) (lon_dim m ++ "_tmp")%string) = None); rewrite A; reflexivity.
Qed.

Lemma check_and_stack_eq order_dim : regional m ->
  exists x1, check_and_stack m out order_dim = Ok (with_ds (stacked_of m out lon) x1) /\
    stacked (with_ds (stacked_of m out lon) x1) (time_dim m) lon /\ sz x1 = sz (mds (stacked_of m out lon)) /\
    forall k v, field (mds m) k v -> exists v1, field x1 k v1 /\
      (forall d, In d (vdims v1) <-> In d (vdims (vstack szf out (sdims m lon) v))) /\
      forall ix, at_ v1 ix = at_ (vstack szf out (sdims m lon) v) ix.
Proof.
  intro Rg.
  assert (E : check_and_stack m out order_dim
     = if order_dim then permute_dims (stacked_of m out lon) None true else Ok (stacked_of m out lon)).
  { unfold check_and_stack. assert (T : has_dim (mds m) (time_dim m) = true) by (apply has_dim_in; apply S).
    rewrite T. assert (L : has_dim (mds m) (lat_dim m) = true) by (apply has_dim_in; apply S).
    rewrite L. fold lon.
    assert (M : negb (Nat.eqb (sz (mds m) (lat_dim m)) 1) || (lon && negb (Nat.eqb (sz (mds m) (lon_dim m)) 1)) = true).
    { destruct Rg as [R|[R1 R2]].
      - apply Nat.eqb_neq in R. rewrite R. reflexivity.
      - apply has_dim_in in R1. unfold lon. rewrite R1. apply Nat.eqb_neq in R2. rewrite R2. apply Bool.orb_true_r. }
    rewrite M. reflexivity. }
  rewrite E.
  assert (N : NoDup [out; height_dim m] /\ ~ In "subcolumn" [out; height_dim m]).
  { pose proof (st_names _ _ S) as N. dist N. split; [repeat constructor|]; neq. }
  destruct N as [N1 N2].
  pose proof stacked_ok as SK.
  assert (I : incl [out; height_dim m] (all_dims (mds (stacked_of m out lon)))).
  { intros d [<-|[<-|[]]].
    - apply (sk_time _ _ _ SK).
    - destruct (sk_height _ _ _ SK) as (k & v & H & D). apply in_dims. exists k, v.
      split; [apply in_all_vars; auto|exact D]. }
  destruct order_dim.
  - set (o := order_of (stacked_of m out lon) [out; height_dim m] true).
    exists (on_ds (vtrans o) (mds (stacked_of m out lon))). split; [exact (permute_ok (stacked_of m out lon) None true I)|].
    split; [apply stacked_permuted; assumption|]. split; [reflexivity|].
    intros k v F. eexists. exact (permute_field (stacked_of m out lon) [out; height_dim m] true k _ I (stacked_field k v F)).
  - exists (mds (stacked_of m out lon)). split; [reflexivity|]. split; [exact stacked_ok|]. split; [reflexivity|].
    intros k v F. exists (vstack szf out (sdims m lon) v). split; [apply stacked_field; exact F|]. split; [tauto|auto].
Qed.

Lemma column_ravel ix x1 : sz x1 = sz (mds (stacked_of m out lon)) ->
  column_of (with_ds (stacked_of m out lon) x1) (time_dim m) lon ix
  = ravel (map szf (sdims m lon)) (map ix (sdims m lon)).
Proof.
  intro E. unfold column_of. cbn [with_ds mds lat_dim lon_dim]. rewrite E. cbn [stacked_of mds stack sz lat_dim lon_dim].
  pose proof (st_names _ _ S) as N. dist N. fold szf.
  pose proof (szf_tmp (lon_dim m)) as T1. pose proof (szf_tmp (time_dim m)) as T2.
  unfold sdims in *. destruct lon; rewrite !eqb_f by neq.
  - rewrite T1, T2 by (simpl; auto). cbn [map ravel]. unfold size_of. cbn [map fold_right]. lia.
  - rewrite T2 by (simpl; auto). cbn [map ravel]. unfold size_of. cbn [map fold_right]. lia.
Qed.

Lemma round_trip order1 order2 squeeze : regional m ->
  exists m1 m2, check_and_stack m out order1 = Ok m1 /\ unstack m1 order2 squeeze = Ok m2 /\
    time_dim m1 = out /\ stacked_time_dim m1 = Some (time_dim m) /\
    time_dim m2 = time_dim m /\ stacked_time_dim m2 = None /\
    forall k v, field (mds m) k v ->
      (exists v1, field (mds m1) k v1 /\ forall ix, inside (mds m) ix ->
         at_ v1 (fun d => if String.eqb d out then ravel (map (sz (mds m)) (sdims m lon)) (map ix (sdims m lon)) else ix d)
         = at_ v ix) /\
      (exists v2, field (mds m2) k v2 /\ forall ix, inside (mds m) ix -> at_ v2 ix = at_ v ix).
Proof.
  intro Rg. destruct (check_and_stack_eq order1 Rg) as (x1 & E1 & SK & Sz & F1).
  set (m1 := with_ds (stacked_of m out lon) x1) in *.
  destruct (unstack_spec m1 (time_dim m) lon order2 squeeze SK) as (m2 & E2 & T2 & U2 & _ & _ & _ & F2).
  exists m1, m2. split; [exact E1|]. split; [exact E2|]. split; [reflexivity|]. split; [reflexivity|].
  split; [exact T2|]. split; [exact U2|]. intros k v F.
  destruct (F1 k v F) as (v1 & Fv1 & D1 & A1).
  assert (SzE : map szf (sdims m lon) = map (sz (mds m)) (sdims m lon)).
  { apply map_ext_in. intros d Hd. apply szf_dim. apply sdims_in. exact Hd. }
  assert (W : forall ix, inside (mds m) ix -> within (map szf (sdims m lon)) (map ix (sdims m lon))).
  { intros ix Hi. apply within_map. intros d Hd. rewrite szf_dim by (apply sdims_in; exact Hd). apply Hi, sdims_in; exact Hd. }
  assert (Nout : ~ In out (vdims v)) by (intro H; apply out_unused; eapply field_dims; eauto).
  assert (Nsd : ~ In out (sdims m lon)) by (intro H; apply out_unused; apply sdims_in; exact H).
  assert (P : forall ix, inside (mds m) ix ->
    at_ v1 (fun d => if String.eqb d out then ravel (map szf (sdims m lon)) (map ix (sdims m lon)) else ix d) = at_ v ix).
  { intros ix Hi. rewrite A1. rewrite at_stack; auto.
    - rewrite String.eqb_refl || idtac.
      destruct (existsb (fun d => memb d (vdims v)) (sdims m lon)) eqn:Ex.
      + apply at_ext. intros d Hd. unfold unstacked_at. rewrite String.eqb_refl.
        destruct (memb d (sdims m lon)) eqn:M.
        * rewrite unravel_ravel by (apply W; exact Hi). apply index_of_map. apply memb_in. exact M.
        * rewrite eqb_f; [reflexivity|]. intros ->. tauto.
      + apply at_ext. intros d Hd. rewrite eqb_f; [reflexivity|]. intros ->. tauto.
    - apply sdims_nodup.
    - intros d Hd Hn. rewrite eqb_f by (intros ->; tauto). rewrite szf_dim by (eapply field_dims; eauto).
      apply Hi. eapply field_dims; eauto.
    - rewrite String.eqb_refl. apply ravel_lt. apply W. exact Hi. }
  split.
  - exists v1. split; [exact Fv1|]. rewrite <- SzE. exact P.
  - destruct (F2 k v1 Fv1) as (v2 & Fv2 & _ & A2). exists v2. split; [exact Fv2|].
    intros ix Hi. rewrite A2.
    + rewrite <- (P ix Hi). apply at_ext. intros d Hd.
      change (time_dim m1) with out. unfold m1. rewrite (column_ravel ix x1 Sz). reflexivity.
    + intros d Hd Nd. change (time_dim m1) with out in Nd. change (mds m1) with x1. rewrite Sz.
      cbn [stacked_of mds stack sz]. rewrite eqb_f by exact Nd. fold szf.
      apply D1 in Hd. apply stack_dims in Hd as [[Hd _]|[Hd _]]; [|congruence].
      rewrite szf_dim by (eapply field_dims; eauto). apply Hi. eapply field_dims; eauto.
    + intros _. change (mds m1) with x1. rewrite Sz. cbn [stacked_of mds stack sz lat_dim lon_dim]. fold szf.
      pose proof (st_names _ _ S) as N. dist N.
      change (lat_dim m1) with (lat_dim m). change (lon_dim m1) with (lon_dim m).
      assert (G : forall d, In d (sdims m lon) -> (d ++ "_tmp")%string <> out ->
                ix d < (if String.eqb (d ++ "_tmp")%string out then size_of (map szf (sdims m lon)) else szf (d ++ "_tmp")%string)).
      { intros d Hd Hne. rewrite eqb_f by exact Hne. rewrite szf_tmp by exact Hd.
        rewrite szf_dim by (apply sdims_in; exact Hd). apply Hi, sdims_in; exact Hd. }
      split; [|split].
      * apply G; [unfold sdims; destruct lon; simpl; auto|neq].
      * intro L. apply G; [unfold sdims; rewrite L; simpl; auto|neq].
      * apply G; [unfold sdims; destruct lon; simpl; auto|neq].
Qed.
End Stack.
