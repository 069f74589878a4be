(** Finalising, removing, cropping, clamping, saving and loading. *)
From Verif Require Import Xds_Model Xds_Spec Xds_Proofs Xds_Stack Xds_Round Xr_Facts.
From Verif Require Mom_Facts Gen_Facts.
From Coq Require Import Sorted.
Local Open Scope string_scope.
Local Open Scope list_scope.

(** *** Substrings *)
Lemma prefix_spec a b : String.prefix a b = true <-> exists s, b = (a ++ s)%string.
Proof.
  revert b. induction a as [|c a IH]; intro b.
  - split; [intros _; exists b; reflexivity|]. intros _. destruct b; reflexivity.
  - destruct b as [|d b]; simpl.
    + split; [discriminate|]. intros (s & E). discriminate.
    + destruct (ascii_dec c d) as [->|N].
      * rewrite IH. split; intros (s & E); exists s; [rewrite E; reflexivity|injection E as ->; reflexivity].
      * split; [discriminate|]. intros (s & E). injection E as E _. congruence.
Qed.
Lemma contains_spec a b : contains b a = true <-> occurs_in a b.
Proof.
  unfold occurs_in. induction b as [|c b IH].
  - change (contains "" a) with (String.prefix a "" || false). rewrite Bool.orb_false_r, prefix_spec. split.
    + intros (s & E). exists "", s. exact E.
    + intros ([|? p] & s & E); [exists s; exact E|discriminate].
  - change (contains (String c b) a) with (String.prefix a (String c b) || contains b a).
    rewrite Bool.orb_true_iff, prefix_spec, IH. split.
    + intros [(s & E)|(p & s & E)]; [exists "", s; exact E|exists (String c p), s; rewrite E; reflexivity].
    + intros ([|d p] & s & E); [left; exists s; exact E|].
      injection E as -> E. right. exists p, s. exact E.
Qed.
Lemma any_spec l b : existsb (contains b) l = true <-> exists a, In a l /\ occurs_in a b.
Proof.
  rewrite existsb_exists. split; intros (a & H & E); exists a; split; auto; apply contains_spec; exact E.
Qed.
Lemma any_false l b : existsb (contains b) l = false <-> ~ exists a, In a l /\ occurs_in a b.
Proof. rewrite <- any_spec. destruct (existsb _ _); split; try congruence; intuition. Qed.

(** *** Finalising *)
Lemma zero_to_nan_spec v : (v = XF 0 -> zero_to_nan v = XNaN) /\ (v <> XF 0 -> zero_to_nan v = v).
Proof.
  unfold zero_to_nan. destruct v as [r| | |]; simpl; try (split; congruence).
  unfold Reqb. destruct (Req_EM_T r 0); split; intro H; try congruence.
Qed.
Lemma assoc_map_vals (f : string -> var -> var) l k :
  assoc (map (fun p => (fst p, f (fst p) (snd p))) l) k = option_map (f k) (assoc l k).
Proof.
  induction l as [|[x v] l IH]; simpl; [reflexivity|].
  destruct (String.eqb_spec x k) as [->|]; auto.
Qed.
Lemma finalize_fields x more :
  sz (finalize_subcol_fields x more) = sz x /\ coords (finalize_subcol_fields x more) = coords x /\
  map fst (vars (finalize_subcol_fields x more)) = map fst (vars x) /\
  forall k v, field x k v -> exists v', field (finalize_subcol_fields x more) k v' /\ vdims v' = vdims v /\
    ((exists a, In a ("sub_col" :: more) /\ occurs_in a k) ->
       forall ix, (at_ v ix = XF 0 -> at_ v' ix = XNaN) /\ (at_ v ix <> XF 0 -> at_ v' ix = at_ v ix)) /\
    (~ (exists a, In a ("sub_col" :: more) /\ occurs_in a k) -> v' = v).
Proof.
  split; [reflexivity|]. split; [reflexivity|]. split.
  { unfold finalize_subcol_fields. cbn [vars]. rewrite map_map. reflexivity. }
  intros k v F. unfold field, finalize_subcol_fields in *. cbn [vars].
  set (f := fun k v => if existsb (contains k) ("sub_col" :: more)
                       then {| vdims := vdims v; vat := fun ix => zero_to_nan (vat v ix) |} else v).
  pose proof (assoc_map_vals f (vars x) k) as A. rewrite F in A.
  exists (f k v). split; [exact A|]. unfold f.
  destruct (existsb (contains k) ("sub_col" :: more)) eqn:E; cbn [vdims].
  - split; [reflexivity|]. split; [|intro H; exfalso; apply H; apply any_spec; exact E].
    intros _ ix. unfold at_. cbn [vdims vat]. apply zero_to_nan_spec.
  - split; [reflexivity|]. split; [|reflexivity]. intro H. apply any_spec in H. congruence.
Qed.
Lemma zero_to_nan_idem v : zero_to_nan (zero_to_nan v) = zero_to_nan v.
Proof.
  unfold zero_to_nan at 2 3. destruct (xeqb v (XF 0)) eqn:E; [reflexivity|]. unfold zero_to_nan. rewrite E. reflexivity.
Qed.
Lemma finalize_twice x more k v1 v2 :
  field (finalize_subcol_fields x more) k v1 ->
  field (finalize_subcol_fields (finalize_subcol_fields x more) more) k v2 ->
  vdims v2 = vdims v1 /\ forall ix, vat v2 ix = vat v1 ix.
Proof.
  unfold field, finalize_subcol_fields. cbn [vars]. rewrite !(assoc_map_vals
    (fun k v => if existsb (contains k) ("sub_col" :: more)
                then {| vdims := vdims v; vat := fun ix => zero_to_nan (vat v ix) |} else v)).
  destruct (assoc (vars x) k) as [v|]; [|discriminate]. cbn [option_map]. intros E1 E2.
  injection E1 as <-. injection E2 as <-.
  destruct (contains k "sub_col" || existsb (contains k) more)%bool; cbn [vdims vat]; split; try reflexivity.
  intro ix. apply zero_to_nan_idem.
Qed.

(** *** Removing *)
Lemma remove_fields x cl k v :
  In (k, v) (vars (remove_subcol_fields x cl)) <->
  In (k, v) (vars x) /\
  ~ (occurs_in cl k /\ (occurs_in "sub_col" k \/ occurs_in "subcol" k \/ occurs_in "phase_mask" k)).
Proof.
  unfold remove_subcol_fields. cbn [vars]. rewrite filter_In. cbn [fst].
  assert (E : contains k cl && existsb (contains k) sub_markers = true <->
    occurs_in cl k /\ (occurs_in "sub_col" k \/ occurs_in "subcol" k \/ occurs_in "phase_mask" k)).
  { rewrite Bool.andb_true_iff, contains_spec, any_spec. unfold sub_markers. split.
    - intros (H1 & a & [<-|[<-|[<-|[]]]] & H2); auto.
    - intros (H1 & [H2|[H2|H2]]); split; auto; eexists; (split; [|exact H2]); simpl; auto. }
  rewrite <- E. destruct (_ && _); simpl; intuition.
Qed.
Lemma remove_twice x cl : remove_subcol_fields (remove_subcol_fields x cl) cl = remove_subcol_fields x cl.
Proof.
  unfold remove_subcol_fields. cbn [sz coords vars]. f_equal.
  generalize (fun p : string * var => negb (contains (fst p) cl && existsb (contains (fst p)) sub_markers)).
  intro f. induction (vars x) as [|p l IH]; [reflexivity|]. simpl. destruct (f p) eqn:E; [|exact IH].
  simpl. rewrite E, IH. reflexivity.
Qed.
Lemma remove_num x cl v : In ("subcolumn", v) (coords x) -> vdims v = ["subcolumn"] ->
  num_subcolumns (remove_subcol_fields x cl) = num_subcolumns x.
Proof.
  intros I D. unfold num_subcolumns.
  assert (H : forall y, coords y = coords x -> has_dim y "subcolumn" = true).
  { intros y E. apply has_dim_in, in_dims. exists "subcolumn", v. rewrite in_all_vars, E, D. simpl. auto. }
  rewrite (H x eq_refl), (H (remove_subcol_fields x cl) eq_refl). reflexivity.
Qed.

(** *** Cropping *)
Lemma at_isel d keep v ix : at_ (isel d keep v) ix = at_ v (fun c => if String.eqb c d then nth (ix c) keep 0 else ix c).
Proof.
  unfold isel. destruct (memb d (vdims v)) eqn:M.
  - unfold at_. cbn [vdims vat]. f_equal. apply map_ext_in. intros c Hc. rewrite index_of_map by exact Hc. reflexivity.
  - apply at_ext. intros c Hc. destruct (String.eqb_spec c d) as [->|]; [|reflexivity].
    apply memb_out in M. tauto.
Qed.
Lemma sorted_filter_seq (f : nat -> bool) a n : StronglySorted lt (filter f (seq a n)).
Proof.
  revert a. induction n as [|n IH]; intro a; simpl; [constructor|].
  destruct (f a); [|apply IH]. constructor; [apply IH|]. apply Forall_forall. intros y H.
  apply filter_In in H as [H _]. apply in_seq in H. lia.
Qed.
Definition shown_times (tc : var) (t0 t1 : R) (n : nat) : list nat :=
  filter (fun i => xleb (XF t0) (vat tc [i]) && xltb (vat tc [i]) (XF t1)) (seq 0 n).
Lemma shown_times_in tc t0 t1 n i : In i (shown_times tc t0 t1 n) <->
  i < n /\ exists t, vat tc [i] = XF t /\ (t0 <= t < t1)%R.
Proof.
  unfold shown_times. rewrite filter_In, in_seq, Bool.andb_true_iff.
  destruct (vat tc [i]) as [t| | |]; simpl.
  - unfold Rleb, Rltb. destruct (Rle_dec t0 t), (Rlt_dec t t1); split; intros H; try (destruct H as (? & ? & ?); discriminate).
    + split; [lia|]. exists t. auto.
    + split; [lia|auto].
    + destruct H as (_ & ? & E & ?). injection E as ->. exfalso. lra.
    + destruct H as (_ & ? & E & ?). injection E as ->. exfalso. lra.
    + destruct H as (_ & ? & E & ?). injection E as ->. exfalso. lra.
  - split; [intros (_ & ? & ?); discriminate|intros (_ & ? & ? & _); discriminate].
  - split; [intros (_ & ? & ?); discriminate|intros (_ & ? & ? & _); discriminate].
  - split; [intros (_ & ? & ?); discriminate|intros (_ & ? & ? & _); discriminate].
Qed.
Lemma crop_axis m t0 t1 alter tc :
  axis_of (mds m) (match alter with None => time_dim m | Some a => a end) = Some tc ->
  vdims tc = [time_dim m] ->
  exists keep, StronglySorted lt keep /\
    (forall i, In i keep <-> i < sz (mds m) (time_dim m) /\ exists t, at_ tc (fun _ => i) = XF t /\ (t0 <= t < t1)%R) /\
    (keep = [] -> crop_time_range m (XF t0) (XF t1) alter = Ok m) /\
    (keep <> [] -> exists m', crop_time_range m (XF t0) (XF t1) alter = Ok m' /\
       (forall d, sz (mds m') d = if string_dec d (time_dim m) then length keep else sz (mds m) d) /\
       time_dim m' = time_dim m /\
       map fst (all_vars (mds m')) = map fst (all_vars (mds m)) /\
       forall k v, assoc (all_vars (mds m)) k = Some v -> exists v', assoc (all_vars (mds m')) k = Some v' /\
         vdims v' = vdims v /\
         forall ix, at_ v' ix = at_ v (fun d => if string_dec d (time_dim m) then nth (ix d) keep 0 else ix d)).
Proof.
  intros Ht Hd. exists (shown_times tc t0 t1 (sz (mds m) (time_dim m))).
  split; [apply sorted_filter_seq|]. split.
  { intro i. rewrite shown_times_in. unfold at_. rewrite Hd. simpl. reflexivity. }
  unfold crop_time_range. rewrite Ht, Hd, String.eqb_refl. cbn [negb].
  fold (shown_times tc t0 t1 (sz (mds m) (time_dim m))).
  set (keep := shown_times tc t0 t1 (sz (mds m) (time_dim m))).
  destruct keep as [|k0 kr] eqn:K; [split; [reflexivity|congruence]|]. split; [congruence|]. intros _.
  eexists. split; [reflexivity|]. cbn [with_ds mds sz]. split.
  { intro d. destruct (string_dec d (time_dim m)) as [->|N]; [rewrite String.eqb_refl; reflexivity|].
    apply String.eqb_neq in N. rewrite N. reflexivity. }
  split; [reflexivity|]. unfold all_vars. cbn [coords vars].
  assert (A : forall f l l', on_vals f l ++ on_vals f l' = on_vals f (l ++ l')) by (intros; unfold on_vals; rewrite map_app; reflexivity).
  rewrite A. split; [unfold on_vals; rewrite map_map; reflexivity|].
  intros k v F. rewrite assoc_on_vals. rewrite F. eexists. split; [reflexivity|]. split.
  { unfold isel. destruct (memb _ _); reflexivity. }
  intro ix. rewrite at_isel. apply at_ext. intros d _.
  destruct (string_dec d (time_dim m)) as [->|N]; [rewrite String.eqb_refl; reflexivity|].
  apply String.eqb_neq in N. rewrite N. reflexivity.
Qed.
Lemma crop_spec m t0 t1 alter tc :
  assoc (all_vars (mds m)) (match alter with None => time_dim m | Some a => a end) = Some tc ->
  vdims tc = [time_dim m] ->
  exists keep, StronglySorted lt keep /\
    (forall i, In i keep <-> i < sz (mds m) (time_dim m) /\ exists t, at_ tc (fun _ => i) = XF t /\ (t0 <= t < t1)%R) /\
    (keep = [] -> crop_time_range m (XF t0) (XF t1) alter = Ok m) /\
    (keep <> [] -> exists m', crop_time_range m (XF t0) (XF t1) alter = Ok m' /\
       (forall d, sz (mds m') d = if string_dec d (time_dim m) then length keep else sz (mds m) d) /\
       time_dim m' = time_dim m /\
       map fst (all_vars (mds m')) = map fst (all_vars (mds m)) /\
       forall k v, assoc (all_vars (mds m)) k = Some v -> exists v', assoc (all_vars (mds m')) k = Some v' /\
         vdims v' = vdims v /\
         forall ix, at_ v' ix = at_ v (fun d => if string_dec d (time_dim m) then nth (ix d) keep 0 else ix d)).
Proof. intro H. apply crop_axis. unfold axis_of. rewrite H. reflexivity. Qed.

(** *** Clamping *)
Definition finite_grid (grid : list xr) := forall g, In g grid -> g = XNaN \/ exists r, g = XF r.
Lemma nanmin_fold l a : finite_grid l ->
  let f := fun a x => if isnan x then a else if isnan a then x else if xltb x a then x else a in
  match a with
  | XNaN => (forall g, In g l -> g = XNaN) /\ fold_left f l XNaN = XNaN \/
            exists r, fold_left f l XNaN = XF r /\ In (XF r) l /\ forall s, In (XF s) l -> (r <= s)%R
  | XF q => exists r, fold_left f l (XF q) = XF r /\ (r = q \/ In (XF r) l) /\ (r <= q)%R /\ forall s, In (XF s) l -> (r <= s)%R
  | _ => True
  end.
Proof.
  intros F f. revert a. induction l as [|x l IH]; intro a.
  - destruct a; simpl; auto. exists r. repeat split; auto; [lra|tauto]. left. split; [tauto|reflexivity].
  - assert (F' : finite_grid l) by (intros g H; apply F; right; exact H). specialize (IH F').
    destruct (F x (or_introl eq_refl)) as [->|(q & ->)].
    + specialize (IH a). destruct a as [r| | |]; auto.
      * destruct IH as (r' & E & D & L & M). exists r'. cbn [fold_left]. unfold f at 2. cbn [isnan].
        split; [exact E|]. split; [destruct D; [auto|right; right; auto]|]. split; [exact L|].
        intros s [H|H]; [discriminate|auto].
      * destruct IH as [(N & E)|(r' & E & I & M)]; cbn [fold_left]; unfold f at 2 4; cbn [isnan].
        -- left. split; [intros g [<-|H]; auto|exact E].
        -- right. exists r'. split; [exact E|]. split; [right; exact I|]. intros s [H|H]; [discriminate|auto].
    + destruct a as [r| | |]; auto.
      * cbn [fold_left]. unfold f at 2. cbn [isnan]. simpl xltb. unfold Rltb.
        destruct (Rlt_dec q r) as [L|L].
        -- destruct (IH (XF q)) as (r' & E & D & L' & M). exists r'. split; [exact E|].
           split; [destruct D as [->|D]; [right; left; reflexivity|right; right; exact D]|]. split; [lra|].
           intros s [H|H]; [injection H as <-; exact L'|auto].
        -- destruct (IH (XF r)) as (r' & E & D & L' & M). exists r'. split; [exact E|].
           split; [destruct D; [auto|right; right; auto]|]. split; [exact L'|].
           intros s [H|H]; [injection H as <-; lra|auto].
      * right. cbn [fold_left]. unfold f at 2. cbn [isnan].
        destruct (IH (XF q)) as (r' & E & D & L' & M). exists r'. split; [exact E|].
        split; [destruct D as [->|D]; [left; reflexivity|right; exact D]|].
        intros s [H|H]; [injection H as <-; exact L'|auto].
Qed.
Definition neg_grid := map (fun g => match g with XF r => XF (- r) | _ => g end).
Lemma nanmax_neg l a : finite_grid l -> (a = XNaN \/ exists r, a = XF r) ->
  fold_left (fun a x => if isnan x then a else if isnan a then x else if xltb a x then x else a) l a
  = xopp (fold_left (fun a x => if isnan x then a else if isnan a then x else if xltb x a then x else a) (neg_grid l) (xopp a)).
Proof.
  revert a. induction l as [|x l IH]; intros a F A.
  - simpl. destruct A as [->|(r & ->)]; simpl; [reflexivity|]. f_equal. lra.
  - assert (F' : finite_grid l) by (intros g H; apply F; right; exact H).
    cbn [neg_grid map fold_left]. fold (neg_grid l).
    destruct (F x (or_introl eq_refl)) as [->|(q & ->)]; [cbn [isnan]; apply IH; auto|].
    cbn [isnan]. destruct A as [->|(r & ->)].
    + cbn [isnan xopp]. apply (IH (XF q)); eauto.
    + cbn [isnan xopp]. simpl xltb. unfold Rltb.
      destruct (Rlt_dec r q), (Rlt_dec (- q) (- r)); try (exfalso; lra); [apply (IH (XF q))|apply (IH (XF r))]; eauto.
Qed.
Lemma axis_nanmin grid lo hi : axis_range grid lo hi -> nanmin grid = XF lo /\ nanmax grid = XF hi.
Proof.
  intros (L & H & F).
  assert (FG : finite_grid grid) by (intros g I; destruct (F g I) as [->|(r & -> & _)]; eauto).
  split.
  - unfold nanmin, nanfold. pose proof (nanmin_fold grid XNaN FG) as N. cbv zeta in N.
    destruct N as [(N & _)|(r & E & I & M)]; [specialize (N _ L); discriminate|]. rewrite E. f_equal.
    apply Rle_antisym; [apply M; exact L|]. destruct (F _ I) as [?|(s & E' & B)]; [discriminate|]. injection E' as ->. apply B.
  - unfold nanmax, nanfold. rewrite nanmax_neg by auto. cbn [xopp].
    assert (FN : finite_grid (neg_grid grid)).
    { intros g I. apply in_map_iff in I as (y & <- & I). destruct (FG y I) as [->|(r & ->)]; eauto. }
    assert (NI : forall r, In (XF r) (neg_grid grid) <-> In (XF (- r)) grid).
    { intro r. unfold neg_grid. rewrite in_map_iff. split.
      - intros (y & E & I). destruct y; try discriminate. injection E as <-. rewrite Ropp_involutive. exact I.
      - intro I. exists (XF (- r)). split; [rewrite Ropp_involutive; reflexivity|exact I]. }
    pose proof (nanmin_fold (neg_grid grid) XNaN FN) as N. cbv zeta in N.
    assert (H' : In (XF (- hi)) (neg_grid grid)) by (apply NI; rewrite Ropp_involutive; exact H).
    destruct N as [(N & _)|(r & E & I & M)]; [specialize (N _ H'); discriminate|]. rewrite E. cbn [xopp]. f_equal.
    apply NI in I. destruct (F _ I) as [?|(s & E' & B)]; [discriminate|]. injection E' as <-.
    pose proof (M _ H'). lra.
Qed.
Lemma clamp_real grid lo hi r : axis_range grid lo hi -> clamp_to grid (XF r) = XF (Rmax lo (Rmin r hi)).
Proof.
  intro A. assert (LH : (lo <= hi)%R).
  { destruct A as (L & H & F). destruct (F _ H) as [?|(s & E & B)]; [discriminate|]. injection E as ->. lra. }
  destruct (axis_nanmin _ _ _ A) as [E1 E2]. unfold clamp_to. rewrite E1, E2. simpl xltb. unfold Rltb.
  destruct (Rlt_dec r lo).
  - rewrite Rmin_left by lra. rewrite Rmax_left by lra. reflexivity.
  - destruct (Rlt_dec hi r).
    + rewrite Rmin_right by lra. rewrite Rmax_right by lra. reflexivity.
    + rewrite Rmin_left by lra. rewrite Rmax_right by lra. reflexivity.
Qed.
Lemma clamp_nan grid : clamp_to grid XNaN = XNaN.
Proof.
  unfold clamp_to. simpl xltb. destruct (nanmax grid); reflexivity.
Qed.
Lemma clamp_spec arr grid lo hi : axis_range grid lo hi ->
  exists out, set_array_to_valid_range arr grid = Ok out /\ length out = length arr /\
    (forall i r, nth_error arr i = Some (XF r) -> nth_error out i = Some (XF (Rmax lo (Rmin r hi)))) /\
    (forall i, nth_error arr i = Some XNaN -> nth_error out i = Some XNaN) /\
    set_array_to_valid_range out grid = Ok out.
Proof.
  intro A. exists (map (clamp_to grid) arr). unfold set_array_to_valid_range.
  destruct grid as [|g gs] eqn:G; [destruct A as ([] & _)|]. rewrite <- G in *. split; [reflexivity|].
  split; [apply map_length|]. split; [|split].
  - intros i r H. rewrite nth_error_map, H. simpl. rewrite (clamp_real _ _ _ _ A). reflexivity.
  - intros i H. rewrite nth_error_map, H. simpl. rewrite clamp_nan. reflexivity.
  - f_equal. rewrite map_map. apply map_ext. intro v.
    assert (LH : (lo <= hi)%R).
    { destruct A as (L & H & F). destruct (F _ H) as [?|(s & E & B)]; [discriminate|]. injection E as ->. lra. }
    destruct (axis_nanmin _ _ _ A) as [E1 E2].
    destruct v as [r| | |].
    + rewrite !(clamp_real _ _ _ _ A). f_equal. unfold Rmax, Rmin.
      repeat (destruct (Rle_dec _ _)); lra.
    + rewrite !clamp_nan. reflexivity.
    + unfold clamp_to at 2 3. rewrite E1, E2. simpl xltb. cbn [xltb]. rewrite (clamp_real _ _ _ _ A). f_equal.
      unfold Rmax, Rmin. repeat (destruct (Rle_dec _ _)); lra.
    + unfold clamp_to at 2 3. rewrite E1, E2. simpl xltb. cbn [xltb]. rewrite (clamp_real _ _ _ _ A). f_equal.
      unfold Rmax, Rmin. repeat (destruct (Rle_dec _ _)); lra.
Qed.
Lemma clamp_value lo hi r s : (lo <= hi)%R ->
  (lo <= Rmax lo (Rmin r hi) <= hi)%R /\ ((lo <= r <= hi)%R -> Rmax lo (Rmin r hi) = r) /\
  ((r <= s)%R -> (Rmax lo (Rmin r hi) <= Rmax lo (Rmin s hi))%R).
Proof. intro. unfold Rmax, Rmin. repeat (destruct (Rle_dec _ _)); repeat split; intros; lra. Qed.

(** *** Saving and loading *)
Lemma saved_fields m k v : In (k, v) (vars (subcolumns_file m)) <->
  In (k, v) (vars (mds m)) /\
  exists a, In a ["sub_col"; "subcol"; "strat_"; "conv_"; "_tot"; "_ext"; "_mask"; "_min"; "mpr"; "fpr"; time_dim m; "Times"]
            /\ occurs_in a k.
Proof.
  unfold subcolumns_file, marked, save_markers. cbn [vars]. rewrite filter_In. cbn [fst]. rewrite any_spec. tauto.
Qed.
Lemma saved_coords m k v : In (k, v) (coords (mds m)) ->
  (exists k' v', In (k', v') (vars (subcolumns_file m)) /\ incl (vdims v) (vdims v')) ->
  In (k, v) (coords (subcolumns_file m)).
Proof.
  intros I (k' & v' & I' & D). unfold subcolumns_file in *. cbn [vars coords] in *. apply filter_In. split; [exact I|].
  apply filter_In in I' as [I' M]. apply Bool.orb_true_iff. right. apply existsb_exists. exists (k', v'). split.
  - apply filter_In. split; [apply in_all_vars; auto|exact M].
  - cbn [snd]. apply forallb_forall. intros d Hd. apply memb_in. apply D. exact Hd.
Qed.

Definition veq (v w : var) : Prop := vdims v = vdims w /\ forall ix, vat v ix = vat w ix.
Lemma merge_var_same szf v w : veq v w -> exists u, merge_var szf v w = Ok u /\ veq u w.
Proof.
  intros [D V]. unfold merge_var. destruct (list_eq_dec string_dec (vdims v) (vdims w)); [|tauto]. cbn [andb].
  replace (forallb _ _) with true.
  - eexists. split; [reflexivity|]. split; [exact D|]. intro ix. cbn [vat]. rewrite V. destruct (isnan (vat w ix)); reflexivity.
  - symmetry. apply forallb_forall. intros ix _. rewrite V. destruct (vat w ix) as [r| | |]; simpl; try reflexivity.
    unfold Reqb. destruct (Req_EM_T r r); [reflexivity|tauto].
Qed.
Lemma merge_vars_ok szf f : NoDup (map fst f) -> forall l,
  (forall k w, In (k, w) f -> assoc l k = None \/ exists v, assoc l k = Some v /\ veq v w) ->
  exists l', merge_vars szf l f = Ok l' /\
    (forall k w, In (k, w) f -> exists u, assoc l' k = Some u /\ veq u w) /\
    (forall k, ~ In k (map fst f) -> assoc l' k = assoc l k).
Proof.
  induction f as [|[k w] f IH]; intros N l H.
  - exists l. split; [reflexivity|]. split; [intros ? ? []|reflexivity].
  - inversion N as [|? ? N1 N2]; subst. cbn [merge_vars].
    assert (E : exists u, match assoc l k with None => Ok w | Some v => merge_var szf v w end = Ok u /\ veq u w).
    { destruct (H k w (or_introl eq_refl)) as [->|(v & -> & Q)]; [|apply merge_var_same; exact Q].
      exists w. split; [reflexivity|split; reflexivity]. }
    destruct E as (u & E & Q). rewrite E. cbn [bind].
    destruct (IH N2 (put l k u)) as (l' & E' & A & B).
    { intros k' w' I. assert (k' <> k) by (intros ->; apply N1; apply in_map_iff; exists (k, w'); auto).
      rewrite Gen_Facts.assoc_put_other by assumption. apply H. right. exact I. }
    exists l'. split; [exact E'|]. split.
    + intros k' w' [I|I]; [|apply A; exact I]. injection I as <- <-.
      exists u. rewrite B by exact N1. rewrite Gen_Facts.assoc_put_same. auto.
    + intros k' Nk. rewrite B by (intro; apply Nk; right; assumption).
      apply Gen_Facts.assoc_put_other. intros ->. apply Nk. left. reflexivity.
Qed.
Lemma NoDup_map_filter {A B} (g : A -> B) f l : NoDup (map g l) -> NoDup (map g (filter f l)).
Proof.
  induction l as [|x l IH]; simpl; [auto|]. intro N. inversion N as [|? ? N1 N2]; subst.
  destruct (f x); simpl; [constructor|]; auto. intro H. apply N1. apply in_map_iff in H as (y & E & H).
  apply filter_In in H as [H _]. apply in_map_iff. eauto.
Qed.
Lemma assoc_in_nodup {A} (l : list (string * A)) k v : NoDup (map fst l) -> In (k, v) l -> assoc l k = Some v.
Proof.
  induction l as [|[x w] l IH]; simpl; [tauto|]. intros N [E|H].
  - injection E as -> ->. rewrite String.eqb_refl. reflexivity.
  - inversion N as [|? ? N1 N2]; subst. destruct (String.eqb_spec x k) as [->|]; [|auto].
    exfalso. apply N1. apply in_map_iff. exists (k, v). auto.
Qed.

(** Loading into a dataset that has some of the same fields. *)
Lemma load_ok m y : NoDup (map fst (coords (mds m))) -> NoDup (map fst (vars (mds m))) ->
  (forall d, sz (mds y) d = sz (mds m) d) ->
  incl (coords (mds y)) (coords (mds m)) -> incl (vars (mds y)) (vars (mds m)) ->
  exists z, load_subcolumns y (subcolumns_file m) = Ok z /\ time_dim z = time_dim y /\
    (forall d, sz (mds z) d = sz (mds m) d) /\
    (forall k v, field (subcolumns_file m) k v \/ field (mds y) k v ->
       exists u, field (mds z) k u /\ vdims u = vdims v /\ forall ix, at_ u ix = at_ v ix) /\
    (forall k, ~ In k (map fst (vars (subcolumns_file m))) -> assoc (vars (mds z)) k = assoc (vars (mds y)) k).
Proof.
  intros NC NV Sz IC IV. unfold load_subcolumns.
  assert (Hsz : forallb (fun d => Nat.eqb (sz (mds y) d) (sz (subcolumns_file m) d))
                  (filter (fun d => memb d (all_dims (subcolumns_file m))) (all_dims (mds y))) = true).
  { apply forallb_forall. intros d _. apply Nat.eqb_eq. rewrite Sz. reflexivity. }
  rewrite Hsz.
  assert (G : forall L L' (f : string * var -> bool), NoDup (map fst L) -> incl L' L ->
    forall k w, In (k, w) (filter f L) -> assoc L' k = None \/ exists v, assoc L' k = Some v /\ veq v w).
  { intros L L' f N I k w H. apply filter_In in H as [H _].
    destruct (assoc L' k) as [v|] eqn:E; [|auto]. right. exists v. split; [reflexivity|].
    apply assoc_mem, I in E. pose proof (assoc_in_nodup _ _ _ N E). pose proof (assoc_in_nodup _ _ _ N H).
    assert (v = w) as -> by congruence. split; reflexivity. }
  destruct (merge_vars_ok (sz (subcolumns_file m)) (coords (subcolumns_file m))
              (NoDup_map_filter _ _ _ NC) (coords (mds y)) (G _ _ _ NC IC)) as (cs & Ec & _).
  rewrite Ec. cbn [bind].
  destruct (merge_vars_ok (sz (subcolumns_file m)) (vars (subcolumns_file m))
              (NoDup_map_filter _ _ _ NV) (vars (mds y)) (G _ _ _ NV IV)) as (vs & Ev & Av & Bv).
  rewrite Ev. cbn [bind]. eexists. split; [reflexivity|]. split; [reflexivity|].
  split.
  { intro d. cbn [with_ds mds sz]. destruct (has_dim (subcolumns_file m) d); [reflexivity|apply Sz]. }
  split; [|exact Bv]. intros k v H. cbn [with_ds mds].
  assert (V : forall u w, veq u w -> vdims u = vdims w /\ forall ix, at_ u ix = at_ w ix).
  { intros u w [D E]. split; [exact D|]. intro ix. unfold at_. rewrite D, E. reflexivity. }
  destruct H as [H|H].
  - destruct (Av k v (assoc_mem _ _ _ H)) as (u & E & Q). exists u. split; [exact E|]. apply V. exact Q.
  - destruct (in_dec string_dec k (map fst (vars (subcolumns_file m)))) as [I|I].
    + apply in_map_iff in I as ([k' w] & E & I). cbn [fst] in E. subst k'.
      destruct (Av k w I) as (u & E & Q). exists u. split; [exact E|]. apply V.
      assert (v = w) as ->; [|exact Q]. unfold field in H. apply assoc_mem, IV in H.
      unfold subcolumns_file in I. cbn [vars] in I. apply filter_In in I as [I _].
      pose proof (assoc_in_nodup _ _ _ NV H). pose proof (assoc_in_nodup _ _ _ NV I). congruence.
    + exists v. split; [unfold field; cbn [vars]; rewrite Bv by exact I; exact H|]. split; [reflexivity|auto].
Qed.
