(** Reading DHARMA files. *)
From Coq Require Import Lra.
From Verif Require Import Read_Spec Xds_Round Load_Facts Load_Stack Load_Crop Load_Loop Xds_Proofs Xds_Stack Xds_Fields Xr_Facts Np_Facts Read_Cut Read_Final.
Local Open Scope string_scope.
Local Open Scope list_scope.

Lemma put_fresh {A} (l : list (string * A)) k v : ~ In k (map fst l) -> put l k v = l ++ [(k, v)].
Proof.
  induction l as [|[a b] l IH]; intro N; [reflexivity|]. cbn [put app]. cbn [map fst In] in N.
  rewrite eqb_f by tauto. rewrite IH by tauto. reflexivity.
Qed.

Lemma assoc_some {A} (l : list (string * A)) k : In k (map fst l) -> exists v, assoc l k = Some v.
Proof.
  induction l as [|[a b] l IH]; simpl; [tauto|]. destruct (String.eqb a k) eqn:E; [eauto|].
  intros [->|I]; [rewrite String.eqb_refl in E; discriminate|auto].
Qed.

(** *** A new field does not change the domain *)
Section New.
Variables (m : mobj) (k : string) (v : var).
Hypothesis NEW : ~ In k (map fst (all_vars (mds m))).
Hypothesis DIMS : forall d, In d (vdims v) -> In d (all_dims (mds m)).
Let m1 := with_ds m (setv (mds m) k v).
Lemma new_all : all_vars (mds m1) = all_vars (mds m) ++ [(k, v)].
Proof.
  unfold m1, all_vars. cbn [with_ds mds setv coords vars]. rewrite put_fresh, app_assoc; [reflexivity|].
  intro I; apply NEW; unfold all_vars; rewrite map_app, in_app_iff; auto.
Qed.
Lemma new_vars n w : In (n, w) (all_vars (mds m1)) <-> In (n, w) (all_vars (mds m)) \/ (n = k /\ w = v).
Proof. rewrite new_all, in_app_iff. simpl. intuition congruence. Qed.
Lemma new_dims d : In d (all_dims (mds m1)) <-> In d (all_dims (mds m)).
Proof.
  rewrite !in_dims. split.
  - intros (n & w & I & D). apply new_vars in I as [I|[-> ->]]; [eauto|]. apply in_dims. apply DIMS. exact D.
  - intros (n & w & I & D). exists n, w. split; [apply new_vars; auto|exact D].
Qed.
Lemma new_regional : regional m1 <-> regional m.
Proof. unfold regional. rewrite new_dims. reflexivity. Qed.
Hypothesis WFV : NoDup (vdims v).
Lemma new_stackable out : stackable m out ->
  ~ In k [out; (time_dim m ++ "_tmp")%string; (lat_dim m ++ "_tmp")%string; (lon_dim m ++ "_tmp")%string] -> stackable m1 out.
Proof.
  intros [A1 A2 A3 A4 A5 A6 A7 A8] N. constructor; cbn [with_ds m1 time_dim lat_dim lon_dim height_dim stacked_time_dim].
  - intros n w I. apply new_vars in I as [I|[_ ->]]; [exact (A1 n w I)|exact WFV].
  - apply new_dims. exact A2.
  - apply new_dims. exact A3.
  - destruct A4 as (n & w & I & D). exists n, w. split; [|exact D]. unfold m1. cbn [with_ds mds setv vars].
    rewrite put_fresh; [apply in_app_iff; auto|]. intro J; apply NEW; unfold all_vars; rewrite map_app, in_app_iff; auto.
  - exact A5.
  - intros n I. destruct (A6 n I) as [B1 B2]. split; [rewrite new_dims; exact B1|].
    fold m1. rewrite new_all, map_app, in_app_iff. intros [J|[J|[]]]; [tauto|]. simpl in J. subst n. tauto.
  - intros d w I D. apply (A7 d w I). apply new_dims. exact D.
  - exact A8.
Qed.
Lemma new_domain : domain m ->
  ~ In k ["time_lat_lon"; (time_dim m ++ "_tmp")%string; (lat_dim m ++ "_tmp")%string; (lon_dim m ++ "_tmp")%string] -> domain m1.
Proof.
  intros [S R|L H|L H R N] NN.
  - apply several; [apply new_stackable; assumption|apply new_regional; exact R].
  - apply no_lat; rewrite new_dims; assumption.
  - apply one; try (rewrite new_dims; assumption); [rewrite new_regional; exact R|exact N].
Qed.
Lemma new_assoc n w : assoc (all_vars (mds m)) n = Some w -> assoc (all_vars (mds m1)) n = Some w.
Proof. intro A. rewrite new_all, assoc_app, A. reflexivity. Qed.
Lemma new_assoc_other n : n <> k -> assoc (all_vars (mds m1)) n = assoc (all_vars (mds m)) n.
Proof.
  intro N. rewrite new_all, assoc_app. destruct (assoc _ n); [reflexivity|]. cbn [assoc]. rewrite eqb_f by congruence. reflexivity.
Qed.
End New.

Lemma vbin_nodup f v w : NoDup (vdims v) -> NoDup (vdims w) -> NoDup (vdims (vbin f v w)).
Proof.
  intros A B. cbn [vbin vdims]. apply NoDup_app_intro; [exact A|apply NoDup_filter; exact B|].
  intros d H1 H2. apply filter_In in H2 as [_ H2]. apply memb_in in H1. rewrite H1 in H2. discriminate.
Qed.
Lemma no_tmp td : (td ++ "_tmp")%string <> "rho_a".
Proof.
  destruct td as [|a [|b [|c [|d [|e td]]]]]; try discriminate. destruct td; discriminate.
Qed.

(** *** The box *)
Lemma mono_true c n : (forall i j, i < j < n -> (c i < c j)%R) ->
  forall a k (f : nat -> xr), a + k <= n -> (forall i, i < n -> f i = XF (c i)) -> monotone xleb (map f (seq a k)) = true.
Proof.
  intros A a k f. revert a. induction k as [|k IH]; intros a L F; [reflexivity|]. cbn [seq map].
  destruct k as [|k]; cbn [seq map monotone].
  - rewrite F by lia. apply xleb_fin. lra.
  - cbn [seq map monotone] in IH. rewrite IH by (try lia; exact F). rewrite !F by lia.
    rewrite Bool.andb_true_r. apply xleb_fin. apply Rlt_le. apply A. lia.
Qed.
Lemma slice_ok x d c lo hi : ascending x d c -> exists keep, label_slice x d (XF lo) (XF hi) = Ok keep /\
  StronglySorted lt keep /\ forall i, In i keep <-> i < sz x d /\ (lo <= c i <= hi)%R.
Proof.
  intros (v & A & V & D & M). unfold label_slice. rewrite A.
  assert (V' : forall i, i < sz x d -> vat v [i] = XF (c i)).
  { intros i Hi. specialize (V i Hi). unfold at_ in V. rewrite D in V. exact V. }
  rewrite (mono_true c (sz x d) M 0 (sz x d) (fun i => vat v [i])) by (try lia; exact V').
  eexists. split; [reflexivity|]. split; [apply sorted_filter_seq|]. intro i. rewrite filter_In, in_seq.
  split.
  - intros ((_ & Hi) & B). split; [exact Hi|]. rewrite V' in B by exact Hi. apply andb_prop in B as [B1 B2].
    apply xleb_fin in B1, B2. lra.
  - intros (Hi & B1 & B2). split; [lia|]. rewrite V' by exact Hi. apply andb_true_intro. split; apply xleb_fin; assumption.
Qed.

(** *** The time coordinate is not changed by cutting other dimensions *)
Lemma cut_assoc m d k n : assoc (all_vars (mds (cut m d k))) n = option_map (isel d k) (assoc (all_vars (mds m)) n).
Proof.
  unfold all_vars. cbn [cut keep_along with_ds mds coords vars]. rewrite !assoc_app, !assoc_on_vals.
  destruct (assoc (coords (mds m)) n); reflexivity.
Qed.
Lemma cut_axis m d k td : d <> td -> good_axis (mds m) td ->
  assoc (all_vars (mds (cut m d k))) td = assoc (all_vars (mds m)) td.
Proof.
  intros N G. rewrite cut_assoc. destruct (assoc (all_vars (mds m)) td) as [c|] eqn:E; [|reflexivity].
  cbn [option_map]. unfold isel. rewrite (G c E).
  assert (M : memb d [td] = false) by (apply memb_out; simpl; intuition congruence).
  rewrite M. reflexivity.
Qed.
Lemma cuts_axis l : forall m td, ~ In td (map fst l) -> good_axis (mds m) td ->
  good_axis (mds (cuts m l)) td /\ (forall i, time_value (mds (cuts m l)) td i = time_value (mds m) td i).
Proof.
  induction l as [|[d k] l IH]; intros m td N G; [auto|]. cbn [cuts].
  assert (E : assoc (all_vars (mds (cut m d k))) td = assoc (all_vars (mds m)) td) by (apply cut_axis; [simpl in N; tauto|exact G]).
  destruct (IH (cut m d k) td) as [A B]; [simpl in N; tauto|unfold good_axis; rewrite E; exact G|].
  split; [exact A|]. intro i. rewrite B. unfold time_value. rewrite E. reflexivity.
Qed.

Lemma keeps_app l l' szf d : keeps (l ++ l') szf d = match assoc l d with Some k => k | None => keeps l' szf d end.
Proof. unfold keeps. rewrite assoc_app. destruct (assoc l d); reflexivity. Qed.

(** Box and range, then stacking. *)
Lemma two_cuts m l0 r (P : string -> nat -> Prop) T k0 :
  NoDup (map fst l0) -> ~ In (time_dim m) (map fst l0) ->
  (forall d, In d (map fst l0) -> StronglySorted lt (keeps l0 (sz (mds m)) d) /\
     forall i, In i (keeps l0 (sz (mds m)) d) <-> i < sz (mds m) d /\ P d i) ->
  (forall d i, ~ In d (map fst l0) -> P d i) ->
  (l0 = [] \/ stackable m "time_lat_lon") -> domain m -> gridded m T -> field (mds m) k0 T ->
  some_step r (mds m) (time_dim m) ->
  exists m' keep, (do m2 <- crop_opt (cuts m l0) r; check_and_stack m2 "time_lat_lon" true) = Ok m' /\
    selects (mds m) (fun d i => P d i /\ (d = time_dim m -> in_range r (mds m) (time_dim m) i)) keep /\
    map fst (vars (mds m')) = map fst (vars (mds m)) /\
    forall k v, field (mds m) k v -> held m keep m' k (at_ v).
Proof.
  intros ND NT B1 B2 ST DM G FT S.
  destruct (cuts_names l0 m) as (N1 & _ & _ & _ & _ & _ & _ & N7).
  destruct (cuts_axis l0 m (time_dim m) NT (gr_axis _ _ G)) as [AX TV].
  assert (IT : In (time_dim m) (all_dims (mds m))) by (eapply field_dims; [exact FT|apply (gr_dims _ _ G)]).
  assert (RG : forall i, in_range r (mds (cuts m l0)) (time_dim m) i <-> in_range r (mds m) (time_dim m) i).
  { intro i. unfold in_range. destruct r as [[a b]|]; [rewrite TV|]; reflexivity. }
  assert (SZ : sz (mds (cuts m l0)) (time_dim m) = sz (mds m) (time_dim m)).
  { rewrite cuts_sz by exact ND. rewrite keeps_fresh by exact NT. apply seq_length. }
  destruct (range_cut (cuts m l0) r) as (l & C & L & SS & K).
  { rewrite N1. exact AX. }
  { rewrite N1. apply N7. exact IT. }
  { rewrite N1. intro Q. destruct (S Q) as (i & Hi & R). exists i. split; [rewrite SZ; exact Hi|apply RG; exact R]. }
  cbn zeta in SS, K. rewrite N1 in L, SS, K.
  assert (KT : keeps l (sz (mds (cuts m l0))) (time_dim m) = keeps l (sz (mds m)) (time_dim m)).
  { unfold keeps. rewrite SZ. reflexivity. }
  rewrite KT in SS, K. rewrite cuts_app in C.
  assert (ONLY : forall d, In d (map fst l) -> d = time_dim m).
  { destruct L as [(RN & ->)|(k & ->)]; simpl; intros d; [tauto|]. intros [<-|[]]. reflexivity. }
  assert (ND2 : NoDup (map fst (l0 ++ l))).
  { rewrite map_app. apply NoDup_app_intro; [exact ND| |].
    - destruct L as [(RN & ->)|(k & ->)]; repeat constructor; simpl; tauto.
    - intros d I J. apply ONLY in J. subst d. tauto. }
  assert (GD : good m (l0 ++ l)).
  { destruct ST as [->|ST]; [right; split; [exact DM|exact ONLY]|left; exact ST]. }
  destruct (tail_ok m (l0 ++ l) T k0 ND2 GD G FT) as (m' & E & _ & KV & H).
  exists m', (keeps (l0 ++ l) (sz (mds m))). split; [rewrite C; exact E|]. split; [|split; [exact KV|exact H]].
  intros d D. rewrite keeps_app. destruct (assoc l0 d) as [k|] eqn:A.
  - assert (I : In d (map fst l0)) by (apply in_map_iff; exists (d, k); split; [reflexivity|apply assoc_mem; exact A]).
    destruct (B1 d I) as [Q1 Q2]. unfold keeps in Q1, Q2. rewrite A in Q1, Q2. split; [exact Q1|]. intro i. rewrite Q2.
    assert (d <> time_dim m) by (intros ->; tauto). intuition.
  - assert (N : ~ In d (map fst l0)).
    { intro I. apply assoc_some in I as (b & I). congruence. }
    destruct (string_dec d (time_dim m)) as [->|Q].
    + split; [exact SS|]. intro i. rewrite (K i), (RG i), SZ. specialize (B2 _ i N). intuition.
    + rewrite keeps_fresh by (intro J; apply Q; apply ONLY; exact J). split; [apply sorted_seq|]. intro i. rewrite in_seq.
      specialize (B2 _ i N). intuition lia.
Qed.

Theorem dharma_reads td b r x T p cx cy : field x "t" T -> assoc (all_vars x) "p" = Some p ->
  ~ In "rho_a" (map fst (all_vars x)) -> td <> "rho_a" -> well_formed x ->
  gridded (dharma_obj td x) T -> domain (dharma_obj td x) ->
  (b <> None -> stackable (dharma_obj td x) "time_lat_lon" /\ ascending x "x" cx /\ ascending x "y" cy) ->
  some_step r x td ->
  exists m' keep, dharma_load td (box_of b) (as_datetime r) x = Ok m' /\
    selects x (fun d i => in_box b cx cy d i /\ (d = td -> in_range r x td i)) keep /\
    (forall k v, field x k v -> held (dharma_obj td x) keep m' k (at_ v)) /\
    held (dharma_obj td x) keep m' "rho_a" (fun ix => dry_air (at_ p ix) (at_ T ix)).
Proof.
  intros FT FP NR TD WF G DM BX S.
  set (rho := vbin xdiv (vmap (fun a => xmul a (XF 100)) p) (vmap (xmul (XF R_d)) T)).
  set (m0 := dharma_obj td x) in *. set (m := with_ds m0 (setv (mds m0) "rho_a" rho)).
  assert (AT : In ("t", T) (all_vars x)) by (unfold all_vars; apply in_app_iff; right; apply assoc_mem; exact FT).
  assert (AP : In ("p", p) (all_vars x)) by (apply assoc_mem; exact FP).
  assert (RD : forall d, In d (vdims rho) -> In d (all_dims (mds m0))).
  { intros d I. apply vbin_dims in I. apply in_dims. destruct I as [I|I]; eauto. }
  assert (RN : NoDup (vdims rho)) by (apply vbin_nodup; [exact (WF _ _ AP)|exact (WF _ _ AT)]).
  assert (NN : ~ In "rho_a" ["time_lat_lon"; (time_dim m0 ++ "_tmp")%string; (lat_dim m0 ++ "_tmp")%string; (lon_dim m0 ++ "_tmp")%string]).
  { intros [Q|[Q|[Q|[Q|[]]]]]; try discriminate. exact (no_tmp _ Q). }
  pose proof (new_dims m0 "rho_a" rho NR RD) as DIMS. fold m in DIMS.
  assert (DM' : domain m) by (apply (new_domain m0 "rho_a" rho NR RD RN DM NN)).
  assert (FX : forall k v, field x k v -> field (mds m) k v).
  { intros k v F. unfold field, m. cbn [with_ds mds]. rewrite set_other; [exact F|]. intros ->. apply NR.
    unfold all_vars. rewrite map_app, in_app_iff. right. apply in_map_iff. exists ("rho_a", v). split; [reflexivity|apply assoc_mem; exact F]. }
  assert (AX : forall n, n <> "rho_a" -> assoc (all_vars (mds m)) n = assoc (all_vars x) n).
  { intros n N. apply (new_assoc_other m0 "rho_a" rho NR n N). }
  assert (G' : gridded m T).
  { destruct G as [G1 G2 G3 G4]. constructor; [rewrite DIMS; exact G1|exact G2|exact G3|].
    change (time_dim m) with td. rewrite (AX td TD). exact G4. }
  assert (TV : forall i, in_range r (mds m) td i <-> in_range r x td i).
  { intro i. unfold in_range, time_value. rewrite (AX td TD). reflexivity. }
  assert (S' : some_step r (mds m) (time_dim m)).
  { intro Q. destruct (S Q) as (i & Hi & R). exists i. split; [exact Hi|]. apply TV. exact R. }
  assert (HB : exists l0, (match box_of b with None => Ok m | Some b => crop_xy m b end) = Ok (cuts m l0) /\
     NoDup (map fst l0) /\ ~ In (time_dim m) (map fst l0) /\
     (forall d, In d (map fst l0) -> StronglySorted lt (keeps l0 (sz (mds m)) d) /\
        forall i, In i (keeps l0 (sz (mds m)) d) <-> i < sz (mds m) d /\ in_box b cx cy d i) /\
     (forall d i, ~ In d (map fst l0) -> in_box b cx cy d i) /\ (l0 = [] \/ stackable m "time_lat_lon")).
  { destruct b as [[[[x0 y0] x1] y1]|].
    - destruct BX as (ST & AX' & AY); [discriminate|].
      destruct (slice_ok (mds m) "x" cx x0 x1 AX') as (kx & EX & SX & KX).
      destruct (slice_ok (mds m) "y" cy y0 y1 AY) as (ky & EY & SY & KY).
      exists [("x", kx); ("y", ky)]. split.
      { cbn [box_of crop_xy]. unfold crop_xy. rewrite EX. cbn [bind]. rewrite EY. reflexivity. }
      assert (NQ : td <> "x" /\ td <> "y").
      { pose proof (st_names _ _ ST) as N. change (time_dim m0) with td in N. change (height_dim m0) with "hgt" in N.
        change (lat_dim m0) with "y" in N. change (lon_dim m0) with "x" in N.
        apply NoDup_cons_iff in N as [N _]. simpl in N. split; intro Q; apply N; rewrite Q; simpl; tauto. }
      split; [repeat constructor; simpl; intuition discriminate|].
      split; [change (time_dim m) with td; simpl; intuition congruence|]. split; [|split].
      + intros d [<-|[<-|[]]].
        * change (keeps [("x", kx); ("y", ky)] (sz (mds m)) "x") with kx. split; [exact SX|]. intro i. rewrite KX.
          unfold in_box. split; [intros (? & ?); split; [assumption|split; [auto|discriminate]]|intros (? & Q & _); auto].
        * change (keeps [("x", kx); ("y", ky)] (sz (mds m)) "y") with ky. split; [exact SY|]. intro i. rewrite KY.
          unfold in_box. split; [intros (? & ?); split; [assumption|split; [discriminate|auto]]|intros (? & _ & Q); auto].
      + intros d i N. split; intros ->; exfalso; apply N; simpl; auto.
      + right. apply (new_stackable m0 "rho_a" rho NR RD RN "time_lat_lon" ST NN).
    - exists []. split; [reflexivity|]. split; [constructor|]. split; [simpl; tauto|]. split; [simpl; tauto|].
      split; [intros; exact I|left; reflexivity]. }
  destruct HB as (l0 & EB & ND & NT & B1 & B2 & ST).
  destruct (two_cuts m l0 r (in_box b cx cy) T "t" ND NT B1 B2 ST DM' G' (FX _ _ FT) S') as (m' & keep & E & SEL & _ & H).
  assert (HM : forall k val, held m keep m' k val -> held m0 keep m' k val).
  { intros k val (v' & F & X & A). exists v'. split; [exact F|]. split.
    { intros d I. rewrite (X d I). unfold extent. destruct (string_dec d "time_lat_lon"); [|reflexivity].
      destruct (in_dec string_dec (lon_dim m0) (all_dims (mds m0))) as [Q|Q];
      destruct (in_dec string_dec (lon_dim m) (all_dims (mds m))) as [Q'|Q']; try reflexivity; rewrite DIMS in Q'; tauto. }
    intros ix I.
    transitivity (at_ v' (spot m keep ix)).
    - apply at_ext. intros d _. unfold spot, column. destruct (string_dec d "time_lat_lon"); [|reflexivity].
      destruct (in_dec string_dec (lon_dim m0) (all_dims (mds m0))) as [Q|Q];
      destruct (in_dec string_dec (lon_dim m) (all_dims (mds m))) as [Q'|Q']; try reflexivity; rewrite DIMS in Q'; tauto.
    - apply A. intros d D. apply I. apply DIMS. exact D. }
  exists m', keep. split; [|split; [|split]].
  - unfold dharma_load. rewrite (air_density_ok "t" "p" x T p FT FP). cbn [bind]. fold rho.
    change (dharma_obj td (setv x "rho_a" rho)) with m. rewrite EB. cbn [bind]. rewrite checked_crop. exact E.
  - intros d D. destruct (SEL d) as [Q1 Q2]; [apply DIMS; exact D|]. split; [exact Q1|]. intro i. rewrite Q2.
    change (time_dim m) with td. change (sz (mds m) d) with (sz x d). rewrite TV. reflexivity.
  - intros k v F. apply HM. apply H. apply FX. exact F.
  - apply HM. destruct (H "rho_a" rho) as (v' & F & X & A); [apply set_same|]. exists v'. split; [exact F|]. split; [exact X|].
    intros ix I. rewrite A by exact I. apply at_density.
Qed.
