(** Switching the model of a display. *)
From Coq Require Import Reals ZArith.
From Verif Require Import Disp_Spec Xds_Proofs Xds_Stack Xds_Fields Disp_Crop.
Local Open Scope string_scope.
Local Open Scope list_scope.

Theorem switch_same m la lo : ~ In (lat_dim m) (all_dims (mds m)) -> ~ In (lon_dim m) (all_dims (mds m)) ->
  display m la lo = Ok (m, switch_model m).
Proof.
  intros A B. assert (H : forall d, ~ In d (all_dims (mds m)) -> has_dim (mds m) d = false).
  { intros d N. unfold has_dim. destruct (memb d (all_dims (mds m))) eqn:E; [|reflexivity]. apply memb_in in E. tauto. }
  apply no_dims; apply H; assumption.
Qed.
Theorem switch_keeps_place m la lo cla clo :
  lat_dim m <> lon_dim m -> has_dim (mds m) (lat_dim m) = true -> has_dim (mds m) (lon_dim m) = true ->
  clock (mds m) (lat_dim m) cla -> clock (mds m) (lon_dim m) clo ->
  can_choose (sz (mds m) (lat_dim m)) la -> can_choose (sz (mds m) (lon_dim m)) lo ->
  exists d, display m la lo = Ok (m, d) /\
  forall name v, assoc (all_vars (mds m)) name = Some v -> In (lat_dim m) (vdims v) ->
    assoc (all_vars (d_ds (switch_model m))) name = Some v /\
    exists v', assoc (all_vars (d_ds d)) name = Some v' /\ ~ In (lat_dim m) (vdims v').
Proof.
  intros NE HA HO CA CO KA KO. destruct (display_ok m la lo cla clo NE HA HO CA CO KA KO) as (d & i & j & E & _ & _ & _ & _ & _ & _ & _ & H).
  exists d. split; [exact E|]. intros name v V I. split; [exact V|]. destruct (H name v V) as (v' & V' & D & _).
  exists v'. split; [exact V'|]. rewrite D. intro J. apply filter_In in J as [_ J]. rewrite String.eqb_refl in J. discriminate J.
Qed.
