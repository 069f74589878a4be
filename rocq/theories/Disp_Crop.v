(** Latitude and longitude of a display. *)
From Verif Require Import Xr_Facts Disp_Spec Disp_Stat Disp_Level Disp_Prof Xds_Proofs Xds_Stack Xds_Round Xds_Fields Load_Facts Load_Crop.
Local Open Scope string_scope.
Local Open Scope list_scope.

Lemma pick_dims d i v : vdims (pick d i v) = filter (fun c => negb (String.eqb c d)) (vdims v).
Proof.
  unfold pick. destruct (memb d (vdims v)) eqn:M; [reflexivity|]. symmetry. apply memb_out in M. clear -M.
  induction (vdims v) as [|a l IH]; [reflexivity|]. cbn. destruct (String.eqb_spec a d) as [->|]; [elim M; left; reflexivity|].
  cbn. f_equal. apply IH. intro I. apply M. right. exact I.
Qed.
Lemma at_pick d i v ix : at_ (pick d i v) ix = at_ v (fun c => if String.eqb c d then i else ix c).
Proof.
  unfold at_ at 1. pose proof (pick_dims d i v) as D. unfold pick in *. destruct (memb d (vdims v)) eqn:M; cbn [vdims vat] in *.
  - unfold at_. f_equal. apply map_ext_in. intros c I. destruct (String.eqb_spec c d) as [|N]; [reflexivity|].
    apply index_of_map. apply filter_In. split; [exact I|]. destruct (String.eqb_spec c d); [congruence|reflexivity].
  - fold (at_ v ix). apply at_ext. intros c I. destruct (String.eqb_spec c d) as [->|]; [|reflexivity].
    apply memb_out in M. contradiction.
Qed.
Lemma has_dim_pick d e i x : d <> e -> has_dim (pick_ds d i x) e = has_dim x e.
Proof.
  intro N. apply Bool.eq_iff_eq_true. rewrite !has_dim_in, !in_dims. unfold all_vars, pick_ds. cbn [coords vars]. split.
  - intros (k & v & I & J). rewrite in_app_iff in I. 
    destruct I as [I|I]; apply in_on_vals in I as (w & I & ->); rewrite pick_dims in J; apply filter_In in J as [J _];
      exists k, w; (split; [apply in_app_iff; tauto|exact J]).
  - intros (k & v & I & J). exists k, (pick d i v). split.
    + rewrite in_app_iff in *. destruct I as [I|I]; [left|right]; apply in_on_vals; exists v; auto.
    + rewrite pick_dims. apply filter_In. split; [exact J|]. destruct (String.eqb_spec e d); [congruence|reflexivity].
Qed.
Lemma has_dim_gone d i x : has_dim (pick_ds d i x) d = false.
Proof.
  destruct (has_dim (pick_ds d i x) d) eqn:H; [|reflexivity]. apply has_dim_in, in_dims in H as (k & v & I & J). unfold all_vars, pick_ds in I. cbn [coords vars] in I.
  rewrite in_app_iff in I. destruct I as [I|I]; apply in_on_vals in I as (w & I & ->); rewrite pick_dims in J; apply filter_In in J as [_ J];
    rewrite String.eqb_refl in J; discriminate.
Qed.

Lemma choose_ok x d c ch : has_dim x d = true -> clock x d c -> can_choose (sz x d) ch ->
  exists i, choose d (or_zero ch) x = Ok (pick_ds d i x) /\ chosen (sz x d) c ch i.
Proof.
  intros H C (N & K). unfold choose. rewrite H. destruct ch as [|v|z|]; cbn [or_zero].
  - exists 0. unfold position. cbn [Z.leb Z.ltb]. destruct (0 <? Z.of_nat (sz x d))%Z eqn:E; [|apply Z.ltb_ge in E; lia].
    split; [reflexivity|]. split; [exact N|reflexivity].
  - destruct K as (t & ->). destruct (nearest_label_ok _ _ _ t C N) as (i & E & I & J). exists i. rewrite E. split; [reflexivity|]. split; assumption.
  - unfold position. destruct (0 <=? z)%Z eqn:E1; destruct (z <? Z.of_nat (sz x d))%Z eqn:E2; cbn [andb]; rewrite ?Z.leb_le, ?Z.leb_gt, ?Z.ltb_lt, ?Z.ltb_ge in *.
    + exists (Z.to_nat z). split; [reflexivity|]. split; [lia|left; lia].
    + lia.
    + destruct (z <? 0)%Z eqn:E3; [|apply Z.ltb_ge in E3; lia]. destruct (- Z.of_nat (sz x d) <=? z)%Z eqn:E4; [|apply Z.leb_gt in E4; lia].
      cbn [andb bind]. exists (Z.to_nat (Z.of_nat (sz x d) + z)). split; [reflexivity|]. split; [lia|right; lia].
    + lia.
  - destruct K.
Qed.

Section Crop.
Variables (m : mobj) (la lo : choice) (cla clo : nat -> R).
Let x := mds m.
Hypothesis (NE : lat_dim m <> lon_dim m).
Hypothesis (HA : has_dim x (lat_dim m) = true) (HO : has_dim x (lon_dim m) = true).
Hypothesis (CA : clock x (lat_dim m) cla) (CO : clock x (lon_dim m) clo).
Hypothesis (KA : can_choose (sz x (lat_dim m)) la) (KO : can_choose (sz x (lon_dim m)) lo).

Theorem display_ok : exists d i j, display m la lo = Ok (m, d) /\
  chosen (sz x (lat_dim m)) cla la i /\ chosen (sz x (lon_dim m)) clo lo j /\
  d_ds d = mds (d_model d) /\
  time_dim (d_model d) = time_dim m /\ height_dim (d_model d) = height_dim m /\
  (forall n, sz (d_ds d) n = sz x n) /\
  (forall name, (exists v, assoc (all_vars (d_ds d)) name = Some v) <-> exists v, assoc (all_vars x) name = Some v) /\
  forall name v, assoc (all_vars x) name = Some v ->
    exists v', assoc (all_vars (d_ds d)) name = Some v' /\
      vdims v' = filter (fun c => negb (String.eqb c (lat_dim m) || String.eqb c (lon_dim m))) (vdims v) /\
      forall ix, ix (lat_dim m) = i -> ix (lon_dim m) = j -> at_ v' ix = at_ v ix.
Proof.
  destruct (choose_ok x _ cla la HA CA KA) as (i & Ei & Ci).
  destruct (choose_ok (pick_ds (lat_dim m) i x) (lon_dim m) clo lo) as (j & Ej & Cj).
  - rewrite has_dim_pick by exact NE. exact HO.
  - destruct CO as (v & A & D & V & I). exists (pick (lat_dim m) i v). cbn [pick_ds coords sz]. rewrite assoc_on_vals, A.
    assert (P : pick (lat_dim m) i v = v).
    { unfold pick. rewrite D. destruct (memb (lat_dim m) [lon_dim m]) eqn:M; [|reflexivity]. apply memb_in in M as [M|[]]. congruence. }
    cbn [option_map]. rewrite !P. repeat split; auto.
  - exact KO.
  - exists {| d_model := with_ds m (pick_ds (lon_dim m) j (pick_ds (lat_dim m) i x)); d_ds := pick_ds (lon_dim m) j (pick_ds (lat_dim m) i x) |}, i, j.
    split; [|split; [exact Ci|split; [exact Cj|split; [reflexivity|split; [reflexivity|split; [reflexivity|split; [reflexivity|split]]]]]]].
    + unfold display, crop_lat_lon, switch_lat_lon. fold x. rewrite HA. cbn [orb].
      assert (O : forall c, is_none (or_zero c) = false) by (intros []; reflexivity). rewrite O. cbn [andb].
      unfold with_ds at 1 2 3 4. cbn [lat_dim lon_dim mds]. fold x. rewrite Ei. cbn [bind]. rewrite Ej. cbn [bind]. reflexivity.
    + intro name. cbn [d_ds]. rewrite !vars_pick. destruct (assoc (all_vars x) name) as [v|]; cbn [option_map]; split; intros (w & E); eauto; discriminate.
    + intros name v V. cbn [d_ds]. rewrite !vars_pick, V. cbn [option_map]. eexists. split; [reflexivity|]. split.
      * rewrite !pick_dims. clear. induction (vdims v) as [|a l IH]; [reflexivity|]. cbn.
        destruct (String.eqb a (lat_dim m)); cbn; [exact IH|]. destruct (String.eqb a (lon_dim m)); cbn; [exact IH|]. now f_equal.
      * intros ix Ii Ij. rewrite !at_pick. apply at_ext. intros c I.
        destruct (String.eqb_spec c (lat_dim m)) as [->|]; [auto|]. destruct (String.eqb_spec c (lon_dim m)) as [->|]; auto.
Qed.

(** A display made can no longer be moved to another place. *)
Theorem switch_fixed : forall d, display m la lo = Ok (m, d) -> forall arg la' lo' deep,
  switch_lat_lon (d_model d) arg la' lo' deep = Ok (d_model d).
Proof.
  intros d D arg la' lo' deep. destruct display_ok as (d' & i & j & E & _ & _ & DS & _ & _ & _ & AV & H). rewrite D in E. injection E as <-.
  assert (LD : lat_dim (d_model d) = lat_dim m /\ lon_dim (d_model d) = lon_dim m).
  { unfold display in D. destruct (crop_lat_lon m m la lo true) as [mc|] eqn:C; [|discriminate D]. injection D as _ <-. cbn [d_model].
    unfold crop_lat_lon, switch_lat_lon in C. destruct (is_none _ && is_none _); [injection C as <-; auto|].
    destruct (_ || _); [|injection C as <-; auto]. cbn [with_ds mds] in C.
    destruct (choose _ _ _) as [x1|]; [|discriminate C]. cbn [bind] in C. destruct (choose _ _ x1) as [x2|]; [|discriminate C]. injection C as <-. auto. }
  destruct LD as [L1 L2]. unfold switch_lat_lon. rewrite L1, L2.
  assert (G : forall e, e = lat_dim m \/ e = lon_dim m -> has_dim (mds (d_model d)) e = false).
  { intros e Ee. rewrite <- DS. unfold display in D. destruct (crop_lat_lon m m la lo true) as [mc|] eqn:C; [|discriminate D]. injection D as _ <-.
    destruct (choose_ok x _ cla la HA CA KA) as (i' & Ei & _).
    unfold crop_lat_lon, switch_lat_lon in C. fold x in C. rewrite HA in C. cbn [orb] in C.
    assert (O : forall c, is_none (or_zero c) = false) by (intros []; reflexivity). rewrite O in C. cbn [andb] in C.
    unfold with_ds at 1 2 3 4 in C. cbn [lat_dim lon_dim mds] in C. fold x in C. rewrite Ei in C. cbn [bind] in C.
    destruct (choose_ok (pick_ds (lat_dim m) i' x) (lon_dim m) clo lo) as (j' & Ej & _).
    - rewrite has_dim_pick by exact NE. exact HO.
    - destruct CO as (v & A & D & V & I). exists (pick (lat_dim m) i' v). cbn [pick_ds coords sz]. rewrite assoc_on_vals, A.
      assert (P : pick (lat_dim m) i' v = v).
      { unfold pick. rewrite D. destruct (memb (lat_dim m) [lon_dim m]) eqn:M; [|reflexivity]. apply memb_in in M as [M|[]]. congruence. }
      cbn [option_map]. rewrite !P. repeat split; auto.
    - exact KO.
    - rewrite Ej in C. cbn [bind] in C. injection C as <-. cbn [d_ds with_ds mds]. destruct Ee as [->| ->].
      + rewrite has_dim_pick by (intro Q; apply NE; auto). apply has_dim_gone.
      + apply has_dim_gone. }
  rewrite !G by auto. cbn [orb]. destruct (is_none la' && is_none lo'); reflexivity.
Qed.
End Crop.

(** An index out of range is an error; an index that is not a Python int is ignored. *)
Lemma index_bad m z lo : has_dim (mds m) (lat_dim m) = true -> ~ (- Z.of_nat (sz (mds m) (lat_dim m)) <= z < Z.of_nat (sz (mds m) (lat_dim m)))%Z ->
  display m (CInt z) lo = Raise IndexError.
Proof.
  intros H B. unfold display, crop_lat_lon, switch_lat_lon. cbn [or_zero is_none andb]. rewrite H. cbn [orb].
  unfold choose at 1. cbn [with_ds lat_dim mds]. rewrite H. unfold position.
  destruct (0 <=? z)%Z eqn:E1; destruct (z <? Z.of_nat (sz (mds m) (lat_dim m)))%Z eqn:E2; cbn [andb bind];
    rewrite ?Z.leb_le, ?Z.leb_gt, ?Z.ltb_lt, ?Z.ltb_ge in *; try lia.
  - destruct (z <? 0)%Z eqn:E3; [apply Z.ltb_lt in E3; lia|]. reflexivity.
  - destruct (z <? 0)%Z eqn:E3; [|reflexivity]. destruct (- Z.of_nat (sz (mds m) (lat_dim m)) <=? z)%Z eqn:E4; [|reflexivity]. apply Z.leb_le in E4. lia.
Qed.
Lemma other_ignored m : display m COther COther = Ok (m, {| d_model := m; d_ds := mds m |}).
Proof.
  unfold display, crop_lat_lon, switch_lat_lon. cbn [or_zero is_none andb].
  assert (O : forall d x, choose d COther x = Ok x) by (intros d x; unfold choose; destruct (has_dim x d); reflexivity).
  destruct (has_dim (mds m) (lat_dim m) || has_dim (mds m) (lon_dim m)) eqn:H; cbn [bind with_ds mds lat_dim lon_dim].
  - rewrite O. cbn [bind]. rewrite O. cbn [bind]. destruct m; reflexivity.
  - reflexivity.
Qed.
(** A model without these dimensions is shown as it is. *)
Lemma no_dims m la lo : has_dim (mds m) (lat_dim m) = false -> has_dim (mds m) (lon_dim m) = false ->
  display m la lo = Ok (m, {| d_model := m; d_ds := mds m |}).
Proof.
  intros A B. unfold display, crop_lat_lon, switch_lat_lon. rewrite A, B. cbn [orb]. destruct (is_none (or_zero la) && is_none (or_zero lo)); reflexivity.
Qed.
