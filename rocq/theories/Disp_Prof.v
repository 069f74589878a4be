(** Mean profiles. *)
From Verif Require Import Xr_Facts Disp_Spec Disp_Stat Disp_Level Xds_Proofs Xds_Stack Xds_Round Xds_Fields Load_Facts Load_Crop.
Local Open Scope string_scope.
Local Open Scope list_scope.

(** The nearest label. *)
Lemma nearest_from_ok (c : nat -> R) (t : R) l : forall i best, best < i ->
  (forall j, j < length l -> nth_error l j = Some (XF (c (i + j)))) ->
  (forall j, j < i -> (Rabs (t - c best) <= Rabs (t - c j))%R) ->
  let r := nearest_from (XF t) i best (XF (c best)) l in
  r < i + length l /\ forall j, j < i + length l -> (Rabs (t - c r) <= Rabs (t - c j))%R.
Proof.
  induction l as [|b l IH]; intros i best B V H; cbn [nearest_from length].
  - rewrite Nat.add_0_r. split; [exact B|exact H].
  - assert (b = XF (c i)) as ->.
    { specialize (V 0). simpl in V. rewrite Nat.add_0_r in V. assert (Q : Some b = Some (XF (c i))) by (apply V; lia). injection Q. auto. }
    assert (V' : forall j, j < length l -> nth_error l j = Some (XF (c (S i + j)))).
    { intros j J. specialize (V (S j)). simpl in V. replace (S i + j) with (i + S j) by lia. apply V. lia. }
    cbn [xsub xopp xadd xabs]. change (t + - c i)%R with (t - c i)%R. change (t + - c best)%R with (t - c best)%R.
    replace (i + S (length l)) with (S i + length l) by lia.
    destruct (xltb (XF (Rabs (t - c i))) (XF (Rabs (t - c best))) ||
              (xeqb (XF (Rabs (t - c i))) (XF (Rabs (t - c best))) && xltb (XF (c best)) (XF (c i))))%bool eqn:E.
    + apply IH; [lia|exact V'|]. intros j J.
      assert (L : (Rabs (t - c i) <= Rabs (t - c best))%R).
      { apply Bool.orb_prop in E as [E|E]; [apply xltb_fin in E; lra|]. apply andb_prop in E as [E _]. apply xeqb_fin in E. lra. }
      destruct (Nat.eq_dec j i) as [->|]; [lra|]. specialize (H j ltac:(lia)). lra.
    + apply IH; [lia|exact V'|]. intros j J. apply Bool.orb_false_iff in E as [E _]. apply xltb_fin_f in E.
      destruct (Nat.eq_dec j i) as [->|]; [exact E|]. apply H. lia.
Qed.
Lemma strictly_ok (c : nat -> R) n : (forall i j, i < j < n -> (c i < c j)%R) -> strictly xltb (map (fun i => XF (c i)) (seq 0 n)) = true.
Proof.
  intro H. unfold strictly. apply forallb_forall. intros [a b] I.
  apply (In_nth _ _ (XNaN, XNaN)) in I as (i & L & E). rewrite combine_length in L.
  assert (LT : length (tl (map (fun i => XF (c i)) (seq 0 n))) = n - 1).
  { destruct n; [reflexivity|]. cbn [seq map tl]. rewrite map_length, seq_length. lia. }
  rewrite LT, map_length, seq_length in L.
  destruct n as [|n]; [lia|]. cbn [seq map tl] in E.
  assert (N : nth i (combine (XF (c 0) :: map (fun i => XF (c i)) (seq 1 n)) (map (fun i => XF (c i)) (seq 1 n))) (XNaN, XNaN)
              = (XF (c i), XF (c (S i)))).
  { assert (G : forall m i0 k, k < m -> nth k (combine (XF (c i0) :: map (fun i => XF (c i)) (seq (S i0) m)) (map (fun i => XF (c i)) (seq (S i0) m))) (XNaN, XNaN)
       = (XF (c (i0 + k)), XF (c (S (i0 + k))))).
    { clear. induction m as [|m IH]; intros i0 k K; [lia|]. destruct k as [|k]; [cbn; rewrite Nat.add_0_r; reflexivity|].
      etransitivity; [apply (IH (S i0) k); lia|]. replace (S i0 + k) with (i0 + S k) by lia. reflexivity. }
    rewrite (G n 0 i) by lia. reflexivity. }
  rewrite N in E. injection E as <- <-. cbn [fst snd]. apply xltb_fin. apply H. lia.
Qed.
Lemma nearest_label_ok x d c t : clock x d c -> 0 < sz x d ->
  exists i, nearest_label x d (XF t) = Ok i /\ i < sz x d /\ forall j, j < sz x d -> (Rabs (t - c i) <= Rabs (t - c j))%R.
Proof.
  intros (v & A & _ & V & I) P. unfold nearest_label. rewrite A.
  assert (E : map (fun i => vat v [i]) (seq 0 (sz x d)) = map (fun i => XF (c i)) (seq 0 (sz x d))).
  { apply map_ext_in. intros i J. apply in_seq in J. apply V. lia. }
  rewrite E, (strictly_ok c _ I). cbn [orb negb isnan].
  destruct (sz x d) as [|n] eqn:S; [lia|]. cbn [seq map].
  assert (N1 : forall m i0 j, j < m -> nth_error (map (fun i => XF (c i)) (seq i0 m)) j = Some (XF (c (i0 + j)))).
  { clear. induction m as [|m IH]; intros i0 j J; [lia|]. cbn [seq map]. destruct j; cbn [nth_error]; [rewrite Nat.add_0_r; reflexivity|].
    rewrite IH by lia. replace (S i0 + j) with (i0 + S j) by lia. reflexivity. }
  pose proof (nearest_from_ok c t (map (fun i => XF (c i)) (seq 1 n)) 1 0) as H. rewrite map_length, seq_length in H.
  destruct H as [H1 H2]; [lia| | |].
  - intros j J. rewrite N1 by exact J. reflexivity.
  - intros j J. assert (j = 0) by lia. subst. lra.
  - eexists. split; [reflexivity|]. split; [exact H1|exact H2].
Qed.

(** Selections of the arrays. *)
Lemma isel_3 a d e keep v f : vdims v = [a; d; e] -> NoDup [a; d; e] -> (forall s t k, vat v [s; t; k] = f s t k) ->
  forall s j k, vat (isel d keep v) [s; j; k] = f s (nth j keep 0) k.
Proof.
  intros D N F s j k. unfold isel. rewrite D. inversion N as [|? ? N1 N2]; subst. inversion N2 as [|? ? N3 _]; subst. simpl in N1, N3.
  assert (M : memb d [a; d; e] = true) by (apply memb_in; simpl; tauto). rewrite M. cbn [vat map].
  unfold index_of. cbn [combine find fst snd].
  destruct (String.eqb_spec a d); [exfalso; apply N1; auto|]. destruct (String.eqb_spec e d); [exfalso; apply N3; left; auto|].
  rewrite !String.eqb_refl. cbn [fst snd]. destruct (String.eqb_spec a e); [exfalso; apply N1; auto|].
  destruct (String.eqb_spec d e); [exfalso; apply N3; left; auto|]. apply F.
Qed.
Lemma isel_2 d e keep v f : vdims v = [d; e] -> d <> e -> (forall t k, vat v [t; k] = f t k) ->
  forall j k, vat (isel d keep v) [j; k] = f (nth j keep 0) k.
Proof.
  intros D N F j k. unfold isel. rewrite D. assert (M : memb d [d; e] = true) by (apply memb_in; simpl; tauto). rewrite M. cbn [vat map].
  unfold index_of. cbn [combine find fst snd]. rewrite !String.eqb_refl. destruct (String.eqb_spec e d); [congruence|].
  cbn [fst snd]. destruct (String.eqb_spec d e); [congruence|]. apply F.
Qed.
Lemma pick_3 a d e i v f : vdims v = [a; d; e] -> NoDup [a; d; e] -> (forall s t k, vat v [s; t; k] = f s t k) ->
  vdims (pick d i v) = [a; e] /\ forall s k, vat (pick d i v) [s; k] = f s i k.
Proof.
  intros D N F. inversion N as [|? ? N1 N2]; subst. inversion N2 as [|? ? N3 _]; subst. simpl in N1, N3.
  unfold pick. rewrite D. assert (M : memb d [a; d; e] = true) by (apply memb_in; simpl; tauto). rewrite M. cbn [vdims vat filter map].
  rewrite !String.eqb_refl. cbn [negb].
  destruct (String.eqb_spec a d); [exfalso; apply N1; auto|]. destruct (String.eqb_spec e d); [exfalso; apply N3; left; auto|]. cbn [negb].
  split; [reflexivity|]. intros s k. unfold index_of. cbn [combine find fst snd]. rewrite !String.eqb_refl. cbn [fst snd].
  destruct (String.eqb_spec a e); [exfalso; apply N1; auto|]. apply F.
Qed.
Lemma pick_2 d e i v f : vdims v = [d; e] -> d <> e -> (forall t k, vat v [t; k] = f t k) ->
  vdims (pick d i v) = [e] /\ forall k, vat (pick d i v) [k] = f i k.
Proof.
  intros D N F. unfold pick. rewrite D. assert (M : memb d [d; e] = true) by (apply memb_in; simpl; tauto). rewrite M. cbn [vdims vat filter map].
  rewrite !String.eqb_refl. cbn [negb]. destruct (String.eqb_spec e d); [congruence|]. cbn [negb].
  split; [reflexivity|]. intro k. unfold index_of. cbn [combine find fst snd]. rewrite String.eqb_refl. apply F.
Qed.

(** Columns of the squeezed arrays. *)
Definition seen (K : option (nat -> nat -> nat -> xr)) (g : nat -> nat -> nat -> xr) (s j k : nat) : xr :=
  match K with None => g s j k | Some K => match K s j k with XF r => if Rle_dec r 0 then g s j k else XNaN | XM => g s j k | _ => XNaN end end.
Definition hide (K : option (nat -> nat -> nat -> xr)) (a : xr) : xr := match K with None => if isfin a then a else XNaN | Some _ => a end.
Lemma xleb_zero a (b : xr) : (if xleb a (XF 0) then b else XNaN) =
  match a with XF r => if Rle_dec r 0 then b else XNaN | XM => b | _ => XNaN end.
Proof. destruct a as [r| | |]; try reflexivity. cbn. unfold Rleb. destruct (Rle_dec r 0); reflexivity. Qed.
Ltac shape_eq := match goal with |- context [list_eq_dec Nat.eq_dec ?a ?a] => destruct (list_eq_dec Nat.eq_dec a a) as [_|NE]; [|elim NE; reflexivity] end.
Ltac now_same := try reflexivity; cbn [expand Nat.eqb hd tl nth];
  repeat (match goal with |- context [Nat.eqb ?a 1] => destruct (Nat.eqb_spec a 1); [tauto|] end); reflexivity.
Lemma columns_3 p q n K g a : ash a = [p; q; n] -> (forall s j k, s < p -> j < q -> aat a [s; j; k] = g s j k) -> n <> 1 -> ~ (p = 1 /\ q = 1) ->
  exists col, columns (masked (option_map squeeze (mask3 p q n K)) (squeeze a)) = Ok (n, col) /\
  forall k, col k = flat_map (fun s => map (fun j => hide K (seen K g s j k)) (seq 0 q)) (seq 0 p).
Proof.
  intros A G N1 N2.
  assert (E : exists col, columns (masked (option_map squeeze (mask3 p q n K)) (squeeze a)) = Ok (n, col) /\
     forall k, col k = flat_map (fun s => map (fun j => match K with
        | None => if isfin (aat a [s; j; k]) then aat a [s; j; k] else XNaN
        | Some K => if xleb (K s j k) (XF 0) then aat a [s; j; k] else XNaN end) (seq 0 q)) (seq 0 p)).
  { unfold columns, masked, squeeze, mask3. cbn [ash aat]. rewrite A.
    destruct K as [K|]; cbn [option_map ash aat filter]; [shape_eq|];
      destruct (Nat.eqb_spec p 1) as [->|]; destruct (Nat.eqb_spec q 1) as [->|]; try tauto;
      destruct (Nat.eqb_spec n 1); try tauto; cbn [ash aat filter negb expand];
      repeat (match goal with |- context [Nat.eqb ?a 1] => destruct (Nat.eqb_spec a 1); [tauto|] end); cbn [negb Nat.eqb];
      (eexists; split; [reflexivity|]); intro k; cbn [hd tl expand Nat.eqb nth].
    - cbn [seq flat_map]. rewrite app_nil_r. apply map_ext. intro j. now_same.
    - generalize (seq 0 p). intro l. cbn [seq map]. induction l as [|s l IH]; [reflexivity|]. cbn [map flat_map app]. rewrite <- IH. now_same.
    - apply flat_map_ext. intro s. apply map_ext. intro j. now_same.
    - cbn [seq flat_map]. rewrite app_nil_r. apply map_ext. intro j. now_same.
    - generalize (seq 0 p). intro l. cbn [seq map]. induction l as [|s l IH]; [reflexivity|]. cbn [map flat_map app]. rewrite <- IH. now_same.
    - apply flat_map_ext. intro s. apply map_ext. intro j. now_same. }
  destruct E as (col & E & C). exists col. split; [exact E|]. intro k. rewrite C, !flat_map_concat_map. f_equal.
  apply map_ext_in. intros s Is. apply map_ext_in. intros j Ij. apply in_seq in Is, Ij. rewrite G by lia. destruct K as [K|]; [|reflexivity]. cbn [hide seen]. apply xleb_zero.
Qed.

Lemma hidden_numbers K l : (K <> None -> no_inf l) ->
  no_inf (map (hide K) l) /\ numbers (map (hide K) l) = numbers l.
Proof.
  destruct K as [K|]; cbn [hide].
  - intro N. rewrite map_id. split; [apply N; discriminate|reflexivity].
  - intros _. split.
    + split; intro I; apply in_map_iff in I as ([] & E & _); discriminate E.
    + unfold numbers. induction l as [|[r| | |] l IH]; simpl; try exact IH; [reflexivity|]. f_equal. exact IH.
Qed.
Lemma mean_fin ys : ys <> [] -> nanmean (map XF ys) = XF (average ys).
Proof.
  intro N. assert (NI : no_inf (map XF ys)) by (split; intro I; apply in_map_iff in I as (? & E & _); discriminate E).
  pose proof (mean_arith (map XF ys) NI) as M. unfold calc_mean_and_sd in M.
  assert (E : numbers (map XF ys) = ys) by (clear; induction ys; cbn; [reflexivity|now f_equal]).
  rewrite E in M. destruct ys; [elim N; reflexivity|]. now injection M.
Qed.
Lemma geometric_ok g name geom : geometric g name geom -> use_geom g name = geom.
Proof.
  destruct g as [b|s]; cbn [geometric use_geom]; [auto|]. intro H. destruct geom.
  - destruct (proj1 H eq_refl) as (-> & k & I & O). change (String.eqb "auto" "auto") with true. cbn [andb].
    apply any_spec. exists k. auto.
  - destruct (String.eqb_spec s "auto") as [->|]; [|reflexivity]. cbn [andb].
    destruct (existsb (contains name) gmean_fields) eqn:E; [|reflexivity]. apply any_spec in E as (k & I & O). symmetry. apply H. eauto.
Qed.
Lemma hide_flat K (F : nat -> nat -> xr) p q :
  flat_map (fun s => map (fun j => hide K (F s j)) (seq 0 q)) (seq 0 p) = map (hide K) (flat_map (fun s => map (F s) (seq 0 q)) (seq 0 p)).
Proof.
  generalize (seq 0 p). induction l as [|s l IH]; [reflexivity|]. cbn [flat_map]. rewrite map_app, map_map, IH. reflexivity.
Qed.
Lemma keep_shown n c t0 t1 (v : var) : (forall i, i < n -> vat v [i] = XF (c i)) ->
  filter (fun i => xleb (XF t0) (vat v [i]) && xltb (vat v [i]) (XF t1)) (seq 0 n) =
  filter (fun i => if Rle_dec t0 (c i) then if Rlt_dec (c i) t1 then true else false else false) (seq 0 n).
Proof.
  intro V. apply filter_ext_in. intros i I. apply in_seq in I. rewrite V by lia. cbn. unfold Rleb, Rltb.
  destruct (Rle_dec t0 (c i)), (Rlt_dec (c i) t1); reflexivity.
Qed.
Lemma columns_2 p n K g a : ash a = [p; n] -> (forall s k, aat a [s; k] = g s 0 k) -> n <> 1 -> p <> 1 ->
  exists col, columns (masked (option_map squeeze (mask3 p 1 n K)) (squeeze a)) = Ok (n, col) /\
  forall k, col k = flat_map (fun s => map (fun j => hide K (seen K g s j k)) (seq 0 1)) (seq 0 p).
Proof.
  intros A G N P.
  destruct (columns_3 p 1 n K g {| ash := [p; 1; n]; aat := fun ix => g (nth 0 ix 0) (nth 1 ix 0) (nth 2 ix 0) |}) as (col & C & E);
    [reflexivity|reflexivity|exact N|tauto|].
  assert (X : forall k, map (fun i => match K with None => if isfin (aat a [i; k]) then aat a [i; k] else XNaN
                                   | Some K => if xleb (K i 0 k) (XF 0) then aat a [i; k] else XNaN end) (seq 0 p)
     = flat_map (fun s => map (fun j => hide K (seen K g s j k)) (seq 0 1)) (seq 0 p)).
  { intro k. generalize (seq 0 p). induction l as [|s l IH]; [reflexivity|]. cbn [map flat_map seq app]. cbn [map flat_map seq app] in IH. rewrite IH. f_equal.
    rewrite G. destruct K; [|reflexivity]. apply xleb_zero. }
  clear C E col. unfold columns, masked, squeeze, mask3. cbn [ash aat]. rewrite A.
  destruct K as [K|]; cbn [option_map ash aat filter Nat.eqb negb];
    destruct (Nat.eqb_spec p 1) as [->|]; try tauto; destruct (Nat.eqb_spec n 1); try tauto; cbn [negb]; try shape_eq;
    (eexists; split; [reflexivity|]); intro k; cbn [expand hd tl]; rewrite <- X; apply map_ext; intro s;
    destruct (Nat.eqb_spec p 1); try tauto; destruct (Nat.eqb_spec n 1); try tauto; reflexivity.
Qed.

Section Profile.
Variables (d : disp) (name yname : string) (c : nat -> R) (subs levels : nat) (f : nat -> nat -> nat -> xr) (y : nat -> nat -> R).
Hypothesis P : profile_of d name yname c subs levels f y.
Variables (w : when) (g : gchoice) (geom : bool) (K : option (nat -> nat -> nat -> xr)).
Hypothesis (G : geometric g name geom) (L1 : levels <> 1).
Let td := time_dim (d_model d).
Let hd_ := height_dim (d_model d).

Variable ze : bool.
Hypothesis Z : is_dBZ name ze.
Definition profile_result (steps : list nat) : Prop :=
  exists r, mean_profile d name yname w (mask3 subs (length steps) levels K) g = Ok r /\
    drawn_profile r levels steps ze geom y (seen_at K f subs steps).

Lemma result_ok x steps v yv ny Y :
  at_times (d_model d) w (d_ds d) = Ok x -> assoc (all_vars x) name = Some v -> assoc (all_vars x) yname = Some yv ->
  heights (values x yv) = Ok (ny, Y) -> ny = levels -> (forall k, k < levels -> Y k = XF (average (map (fun t => y t k) steps))) ->
  (exists col, columns (masked (option_map squeeze (mask3 subs (length steps) levels K)) (squeeze (values x v))) = Ok (levels, col) /\
     forall k, col k = flat_map (fun s => map (fun j => hide K (visible K f steps s j k)) (seq 0 (length steps))) (seq 0 subs)) ->
  (K <> None -> forall k, no_inf (seen_at K f subs steps k)) ->
  profile_result steps.
Proof.
  intros A V YV H -> HY (col & C & E) NI. unfold profile_result, mean_profile. rewrite A. cbn [bind]. unfold getv. rewrite YV, V. cbn [bind].
  rewrite C. cbn [bind]. rewrite H. cbn [bind]. rewrite Nat.eqb_refl. eexists. split; [reflexivity|]. unfold drawn_profile. rewrite map_length, seq_length. split; [reflexivity|].
  intros k Hk. eexists. split.
  { rewrite nth_error_map, (nth_error_nth' _ 0) by (rewrite seq_length; exact Hk). rewrite seq_nth by exact Hk. cbn [option_map Nat.add]. rewrite HY by exact Hk. reflexivity. }
  rewrite (geometric_ok _ _ _ G), E, hide_flat.
  match goal with |- context [map (hide K) ?l] => destruct (hidden_numbers K l) as [H1 H2] end.
  { intro N. exact (NI N k). }
  assert (ZE : contains name "Ze" = ze).
  { destruct Z as [Z1 Z2]. destruct ze; [apply contains_spec; auto|]. destruct (contains name "Ze") eqn:C'; [|reflexivity]. apply contains_spec in C'. symmetry. auto. }
  rewrite ZE. unfold seen_at. rewrite <- H2. apply level_drawn, H1.
Qed.

Lemma vars_pick dd i x n : assoc (all_vars (pick_ds dd i x)) n = option_map (pick dd i) (assoc (all_vars x) n).
Proof. unfold all_vars, pick_ds, on_vals. cbn [coords vars]. rewrite <- map_app. apply (assoc_on_vals (pick dd i) (coords x ++ vars x)). Qed.
Lemma vars_keep dd keep x n : assoc (all_vars (keep_along dd keep x)) n = option_map (isel dd keep) (assoc (all_vars x) n).
Proof. unfold all_vars, keep_along, on_vals. cbn [coords vars]. rewrite <- map_app. apply (assoc_on_vals (isel dd keep) (coords x ++ vars x)). Qed.

Theorem profile_all : w = WAll -> 0 < sz (d_ds d) td -> ~ (subs = 1 /\ sz (d_ds d) td = 1) ->
  let steps := seq 0 (sz (d_ds d) td) in
  (K <> None -> forall k, no_inf (seen_at K f subs steps k)) ->
  profile_result steps.
Proof.
  intros W N S steps NI. destruct P as [_ (v & V & VD & VA) (yv & YV & YD & YA) ND (S1 & S2)]. fold td hd_ in VD, YD, YA, ND, S2.
  assert (LS : length steps = sz (d_ds d) td) by apply seq_length.
  eapply (result_ok (d_ds d) steps v yv levels); try eassumption; [rewrite W; reflexivity| |reflexivity| |].
  - unfold heights, values, shape. rewrite YD. cbn [ash map aat]. rewrite S2. reflexivity.
  - intros k Hk. cbn beta. rewrite <- mean_fin, map_map.
    + f_equal. apply map_ext_in. intros i I. apply in_seq in I. apply YA; [lia|exact Hk].
    + unfold steps. destruct (sz (d_ds d) td); [lia|discriminate].
  - apply columns_3; [|intros s j k _ J; cbn [values aat]; rewrite VA; rewrite LS in J; unfold steps; rewrite seq_nth by exact J; reflexivity|exact L1|rewrite LS; exact S].
    cbn [values ash]; unfold shape; rewrite VD; cbn [map]. rewrite S1, S2, LS. reflexivity.
Qed.

Theorem profile_range t0 t1 : w = WRange (XF t0) (XF t1) ->
  forall steps, shown w (sz (d_ds d) td) c steps -> steps <> [] -> ~ (subs = 1 /\ length steps = 1) ->
  (K <> None -> forall k, no_inf (seen_at K f subs steps k)) ->
  profile_result steps.
Proof.
  intros W steps SH NE S NI. destruct P as [(tc & TC & TD & TV & _) (v & V & VD & VA) (yv & YV & YD & YA) ND (S1 & S2)]. fold td hd_ in TC, TD, TV, VD, YD, YA, ND, S2.
  assert (IN : forall t, In t steps -> t < sz (d_ds d) td).
  { rewrite W in SH. cbn in SH. rewrite SH. intros t I. apply filter_In in I as [I _]. apply in_seq in I. lia. }
  assert (T' : axis_of (d_ds d) td = Some tc).
  { unfold axis_of, all_vars. rewrite assoc_app, TC. reflexivity. }
  assert (NT : td <> hd_ /\ "subcolumn" <> td /\ "subcolumn" <> hd_).
  { inversion ND as [|? ? N1 N2]; subst. inversion N2 as [|? ? N3 _]; subst. simpl in N1, N3. split; [|split]; intro Q; [apply N3|apply N1|apply N1]; rewrite Q; auto. }
  destruct NT as (NT1 & NT2 & NT3).
  eapply (result_ok (keep_along td steps (d_ds d)) steps (isel td steps v) (isel td steps yv) levels); try eassumption.
  - rewrite W. unfold at_times. fold td. rewrite T', (keep_shown _ c _ _ _ TV). rewrite W in SH. cbn in SH. rewrite <- SH. reflexivity.
  - rewrite vars_keep, V. reflexivity.
  - rewrite vars_keep, YV. reflexivity.
  - unfold heights, values, shape. cbn [ash aat]. rewrite isel_dims, YD. cbn [map keep_along sz]. rewrite String.eqb_refl.
    destruct (String.eqb_spec hd_ td); [congruence|]. rewrite S2. reflexivity.
  - reflexivity.
  - intros k Hk. cbn beta. rewrite <- mean_fin, map_map by (destruct steps; [congruence|discriminate]).
    f_equal. transitivity (map (fun i => XF (y (nth i steps 0) k)) (seq 0 (length steps))).
    + apply map_ext_in. intros i I. apply in_seq in I. rewrite (isel_2 td hd_ steps yv (fun t k => vat yv [t; k]) YD NT1) by reflexivity.
      apply YA; [|exact Hk]. apply IN, nth_In. lia.
    + clear. rewrite <- (map_map (fun i => nth i steps 0) (fun t => XF (y t k))). f_equal.
      induction steps as [|a l IH] using rev_ind; [reflexivity|]. rewrite app_length, seq_app, map_app. cbn [length seq map Nat.add]. f_equal.
      * rewrite <- IH at 2. apply map_ext_in. intros i I. apply in_seq in I. rewrite app_nth1 by lia. reflexivity.
      * rewrite app_nth2, Nat.sub_diag by lia. reflexivity.
  - apply columns_3; [|intros s j k _ J; cbn [values aat]; apply (isel_3 "subcolumn" td hd_ steps v f VD ND VA)|exact L1|exact S].
    cbn [values ash]; unfold shape; rewrite isel_dims, VD; cbn [map keep_along sz]. rewrite String.eqb_refl.
    destruct (String.eqb_spec hd_ td); [congruence|]. destruct (String.eqb_spec "subcolumn" td); [congruence|]. rewrite S1, S2. reflexivity.
Qed.

Theorem profile_one t : w = WOne (XF t) -> 0 < sz (d_ds d) td -> subs <> 1 ->
  exists i, shown w (sz (d_ds d) td) c [i] /\
  ((K <> None -> forall k, no_inf (seen_at K f subs [i] k)) ->
   profile_result [i]).
Proof.
  intros W N S. destruct P as [TC (v & V & VD & VA) (yv & YV & YD & YA) ND (S1 & S2)]. fold td hd_ in TC, VD, YD, YA, ND, S2.
  assert (NT : td <> hd_).
  { inversion ND as [|? ? N1 N2]; subst. inversion N2 as [|? ? N3 _]; subst. simpl in N3. intro Q; apply N3; rewrite Q; auto. }
  destruct (nearest_label_ok _ _ _ t TC N) as (i & E & I & J). exists i. rewrite W. split; [exists i; auto|].
  intro NI.
  destruct (pick_3 "subcolumn" td hd_ i v f VD ND VA) as [D3 F3].
  destruct (pick_2 td hd_ i yv (fun t k => vat yv [t; k]) YD NT ltac:(reflexivity)) as [D2 F2].
  eapply (result_ok (pick_ds td i (d_ds d)) [i] (pick td i v) (pick td i yv) levels).
  - rewrite W. unfold at_times. fold td. rewrite E. reflexivity.
  - rewrite vars_pick, V. reflexivity.
  - rewrite vars_pick, YV. reflexivity.
  - unfold heights, values, shape. cbn [ash aat]. rewrite D2. cbn [map pick_ds sz]. rewrite S2. reflexivity.
  - reflexivity.
  - intros k Hk. cbn beta. rewrite F2, YA by assumption. unfold average. cbn. f_equal. field.
  - apply columns_2; [|intros s k; cbn [values aat]; rewrite F3; reflexivity|exact L1|exact S].
    cbn [values ash]; unfold shape; rewrite D3; cbn [map pick_ds sz]. rewrite S1, S2. reflexivity.
  - exact NI.
Qed.
End Profile.

(** The three ways of choosing times together. *)
Theorem profile_ok d name yname c subs levels f y w g geom ze K :
  profile_of d name yname c subs levels f y -> geometric g name geom -> is_dBZ name ze -> real_times w ->
  levels <> 1 -> 0 < sz (d_ds d) (time_dim (d_model d)) ->
  exists steps, shown w (sz (d_ds d) (time_dim (d_model d))) c steps /\
    (steps <> [] -> ~ (subs = 1 /\ length steps = 1) -> (K <> None -> forall k, no_inf (seen_at K f subs steps k)) ->
     exists r, mean_profile d name yname w (mask3 subs (length steps) levels K) g = Ok r /\
       drawn_profile r levels steps ze geom y (seen_at K f subs steps)).
Proof.
  intros P G Z RT L N. destruct w as [|t|a b]; cbn [real_times] in RT.
  - eexists. split; [reflexivity|]. intros _ S NI. eapply profile_all; try eassumption; [reflexivity|]. rewrite seq_length in S. exact S.
  - destruct RT as (r & ->).
    destruct (Nat.eq_dec subs 1) as [->|NS].
    + destruct (nearest_label_ok _ _ _ r (po_clock _ _ _ _ _ _ _ _ P) N) as (i & E & I & J). exists [i]. split; [exists i; auto|].
      intros _ S. elim S. split; reflexivity.
    + edestruct (profile_one d name yname c subs levels f y P (WOne (XF r)) g geom K G L ze Z r eq_refl N NS) as (i & SH & H).
      exists [i]. split; [exact SH|]. intros _ _ NI. exact (H NI).
  - destruct RT as (r & s & -> & ->). eexists. split; [reflexivity|]. intros NE S NI.
    eapply profile_range; try eassumption; reflexivity.
Qed.

(** Fields without subcolumns. *)
Lemma flat_single {A} (F : nat -> A) l : flat_map (fun s => map (fun _ : nat => F s) (seq 0 1)) l = map F l.
Proof. induction l as [|a l IH]; [reflexivity|]. cbn in *. now rewrite IH. Qed.
Theorem grid_ok d name yname c levels f y g geom ze :
  grid_profile_of d name yname c levels f y -> geometric g name geom -> is_dBZ name ze ->
  levels <> 1 -> 1 < sz (d_ds d) (time_dim (d_model d)) ->
  exists r, mean_profile d name yname WAll None g = Ok r /\
    drawn_profile r levels (seq 0 (sz (d_ds d) (time_dim (d_model d)))) ze geom y
      (fun k => map (fun t => f t k) (seq 0 (sz (d_ds d) (time_dim (d_model d))))).
Proof.
  intros [_ (v & V & VD & VA) (yv & YV & YD & YA) ND S2] G Z L N.
  assert (ZE : contains name "Ze" = ze).
  { destruct Z as [Z1 Z2]. destruct ze; [apply contains_spec; auto|]. destruct (contains name "Ze") eqn:C'; [|reflexivity]. apply contains_spec in C'. symmetry. auto. }
  set (n := sz (d_ds d) (time_dim (d_model d))) in *.
  destruct (columns_2 n levels None (fun t _ k => f t k) (values (d_ds d) v)) as (col & C & E).
  { cbn [values ash]. unfold shape. rewrite VD. cbn [map]. rewrite S2. reflexivity. }
  { intros s k. apply VA. } { exact L. } { lia. }
  cbn [mask3 option_map] in C.
  unfold mean_profile, at_times, getv. cbn [bind]. rewrite YV, V. cbn [bind option_map]. rewrite C. cbn [bind].
  unfold heights, values at 1, shape. cbn [ash aat]. rewrite YD. cbn [map]. rewrite S2. cbn [bind]. rewrite Nat.eqb_refl.
  eexists. split; [reflexivity|]. split; [rewrite map_length, seq_length; reflexivity|].
  intros k Hk. eexists. split.
  - rewrite nth_error_map, (nth_error_nth' _ 0) by (rewrite seq_length; exact Hk). rewrite seq_nth by exact Hk. cbn [option_map Nat.add].
    f_equal. f_equal. fold n. rewrite <- mean_fin, map_map by (destruct n; [lia|discriminate]). f_equal. apply map_ext_in. intros i I. apply in_seq in I. apply YA; [fold n; lia|exact Hk].
  - rewrite (geometric_ok _ _ _ G), ZE, E. cbn [hide seen]. rewrite (flat_single (fun s => if isfin (f s k) then f s k else XNaN)).
    destruct (hidden_numbers None (map (fun t => f t k) (seq 0 n))) as [H1 H2]; [congruence|]. cbn [hide] in H1, H2. rewrite map_map in H1, H2. rewrite <- H2.
    apply level_drawn, H1.
Qed.
