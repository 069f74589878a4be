(** Mean profiles of an instrument. *)
From Coq Require Import Reals Lra.
From Verif Require Import Xr_Facts Disp_Spec Disp_Stat Disp_Level Disp_Prof Xds_Proofs Xds_Stack Xds_Round Xds_Fields Load_Facts Load_Crop.
Local Open Scope string_scope.
Local Open Scope list_scope.

Lemma assoc_in {A} (l : list (string * A)) k v : assoc l k = Some v -> In k (map fst l).
Proof.
  induction l as [|[a b] l IH]; cbn; [discriminate|]. destruct (String.eqb_spec a k); [intros; left; auto|]. intro H. right. auto.
Qed.
Lemma first_ok x pre yname post v : ~ (exists p, In p pre /\ present x p) -> assoc (all_vars x) yname = Some v ->
  first_of x (pre ++ yname :: post) = Ok v.
Proof.
  intros N A. unfold first_of.
  assert (F : find (fun n => memb n (map fst (all_vars x)) || has_dim x n) (pre ++ yname :: post) = Some yname).
  { induction pre as [|p pre IH]; cbn [app find].
    - rewrite (proj2 (memb_in yname _)); [reflexivity|]. eapply assoc_in. exact A.
    - destruct (memb p (map fst (all_vars x)) || has_dim x p) eqn:M.
      + exfalso. apply N. exists p. split; [left; reflexivity|]. apply Bool.orb_prop in M as [M|M]; [left; apply memb_in, M|right; apply memb_in, M].
      + apply IH. intros (q & I & Q). apply N. exists q. split; [right; exact I|exact Q]. }
  rewrite F. unfold axis_of. rewrite A. reflexivity.
Qed.
Lemma masked_2 K p n a g : ash a = [p; n] -> (forall j k, j < p -> aat a [j; k] = g j k) ->
  ash (masked (mask2 p n K) a) = [p; n] /\
  forall k, map (fun i => aat (masked (mask2 p n K) a) [i; k]) (seq 0 p) = map (fun j => hide K (seen K (fun _ => g) 0 j k)) (seq 0 p).
Proof.
  intros A G. unfold masked, mask2. destruct K as [K|]; cbn [option_map ash aat]; rewrite A.
  - shape_eq. cbn [ash aat]. split; [reflexivity|]. intro k. apply map_ext_in. intros j J. apply in_seq in J. cbn [nth hide seen].
    rewrite xleb_zero, G by lia. reflexivity.
  - split; [reflexivity|]. intro k. apply map_ext_in. intros j J. apply in_seq in J. cbn [hide seen]. rewrite G by lia. reflexivity.
Qed.
Theorem instrument_ok x name hdim c f y r g geom ze K :
  instrument_of x name hdim c f y -> geometric g name geom -> is_dBZ name ze -> real_times (window r) ->
  exists steps, shown (window r) (sz x "time") c steps /\
  let vis := seen_at K (fun _ => f) 1 steps in
  ((K <> None -> forall k, no_inf (vis k)) ->
   exists out, instrument_profile x name r (mask2 (length steps) (sz x hdim) K) g = Ok out /\ length out = sz x hdim /\
     forall k, k < sz x hdim -> exists lev, nth_error out k = Some (XF (y k), lev) /\ drawn ze geom (numbers (vis k)) lev).
Proof.
  intros [(tc & TC & TD & TV & _) (pre & yname & post & yv & YE & YN & YV & YD & YA) (v & V & VD & VA) ND] G Z RT.
  assert (ZE : contains name "Ze" = ze).
  { destruct Z as [Z1 Z2]. destruct ze; [apply contains_spec; auto|]. destruct (contains name "Ze") eqn:C'; [|reflexivity]. apply contains_spec in C'. symmetry. auto. }
  assert (FY : first_of x ["range"; "altitude"; "height"] = Ok yv).
  { rewrite YE. apply first_ok; [|exact YV]. intros (p & I & Q). exact (YN p I Q). }
  assert (main : forall steps a, ash a = [length steps; sz x hdim] -> (forall j k, j < length steps -> aat a [j; k] = f (nth j steps 0) k) ->
    (K <> None -> forall k, no_inf (seen_at K (fun _ => f) 1 steps k)) ->
    exists out, match ash (masked (mask2 (length steps) (sz x hdim) K) a), shape x yv with
      | [p; n], [ny] => if Nat.eqb n ny then Ok (map (fun k => (vat yv [k], level (contains name "Ze") (use_geom g name)
              (map (fun i => aat (masked (mask2 (length steps) (sz x hdim) K) a) [i; k]) (seq 0 p)))) (seq 0 n)) else Raise ValueError
      | _, _ => Raise ValueError end = Ok out /\ length out = sz x hdim /\
     forall k, k < sz x hdim -> exists lev, nth_error out k = Some (XF (y k), lev) /\ drawn ze geom (numbers (seen_at K (fun _ => f) 1 steps k)) lev).
  { intros steps a A AA NI. destruct (masked_2 K _ _ a (fun j k => f (nth j steps 0) k) A AA) as [S C]. rewrite S. unfold shape. rewrite YD. cbn [map]. rewrite Nat.eqb_refl.
    eexists. split; [reflexivity|]. rewrite map_length, seq_length. split; [reflexivity|]. intros k Hk. eexists. split.
    { rewrite nth_error_map, (nth_error_nth' _ 0) by (rewrite seq_length; exact Hk). rewrite seq_nth by exact Hk. cbn [option_map Nat.add]. rewrite YA by exact Hk. reflexivity. }
    rewrite (geometric_ok _ _ _ G), ZE, C.
    destruct (hidden_numbers K (seen_at K (fun _ => f) 1 steps k)) as [H1 H2]; [intro Q; exact (NI Q k)|].
    rewrite <- H2.
    assert (E : map (hide K) (seen_at K (fun _ => f) 1 steps k) = map (fun j => hide K (seen K (fun _ j k => f (nth j steps 0) k) 0 j k)) (seq 0 (length steps))).
    { unfold seen_at. cbn [seq flat_map]. rewrite app_nil_r, map_map. reflexivity. }
    rewrite E in *. apply level_drawn, H1. }
  unfold instrument_profile. rewrite FY. cbn [bind]. unfold getv. rewrite V. cbn [bind].
  destruct r as [[a b]|]; cbn [window] in *.
  - destruct RT as (t0 & t1 & -> & ->). eexists. split; [reflexivity|]. cbn zeta. intro NI.
    assert (T' : axis_of x "time" = Some tc) by (unfold axis_of, all_vars; rewrite assoc_app, TC; reflexivity).
    rewrite T', (keep_shown _ c _ _ _ TV). rewrite VD. assert (M : memb "time" ["time"; hdim] = true) by (apply memb_in; simpl; auto). rewrite M. cbn [bind].
    apply main; [| |exact NI].
    + unfold values. cbn [ash]. unfold shape. rewrite isel_dims, VD. cbn [map keep_along sz]. rewrite String.eqb_refl.
      destruct (String.eqb_spec hdim "time"); [contradiction|]. reflexivity.
    + intros j k _. cbn [values aat]. apply (isel_2 "time" hdim _ v f VD ltac:(congruence) VA).
  - eexists. split; [reflexivity|]. cbn zeta. intro NI. cbn [bind]. apply main; [| |exact NI].
    + unfold values. cbn [ash]. unfold shape. rewrite VD, seq_length. reflexivity.
    + intros j k J. rewrite seq_length in J. cbn [values aat]. rewrite VA, seq_nth by exact J. reflexivity.
Qed.
