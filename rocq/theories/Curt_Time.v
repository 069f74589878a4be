(** Time-height curtains. *)
From Coq Require Import Reals Lra ZArith Lia.
From Verif Require Import Xr_Facts Disp_Stat Disp_Prof Disp_Crop Xds_Proofs Xds_Stack Xds_Fields Load_Facts Curt_Model Curt_Spec Curt_Facts.
Local Open Scope string_scope.
Local Open Scope list_scope.

Section Source.
Context (d : disp) (c : nat -> R) (times levels : nat).
Let m := d_model d. Let td := time_dim m. Let hd_ := height_dim m.
Context (AX : axes_of d c times levels).

(** A dataset like that of the display, perhaps without subcolumns. *)
Definition like (x : xds) : Prop := (forall n, sz x n = sz (d_ds d) n) /\
  (forall n v, assoc (all_vars (d_ds d)) n = Some v -> ~ In "subcolumn" (vdims v) -> assoc (all_vars x) n = Some v) /\
  (forall n, n <> "subcolumn" -> In n (all_dims (d_ds d)) -> In n (all_dims x)) /\
  (forall n v, assoc (all_vars x) n = Some v -> exists w, assoc (all_vars (d_ds d)) n = Some w /\ vdims v = filter (fun e => negb (String.eqb e "subcolumn")) (vdims w) \/
     assoc (all_vars (d_ds d)) n = Some v).
Lemma like_self : like (d_ds d).
Proof. repeat split; auto. intros n v A. exists v. right. exact A. Qed.
Lemma like_pick i : like (pick_ds "subcolumn" i (d_ds d)).
Proof.
  repeat split.
  - intros n v A N. rewrite pick_assoc, A. cbn. rewrite pick_other by exact N. reflexivity.
  - intros n N I. apply dims_pick; [congruence|exact I].
  - intros n v A. rewrite pick_assoc in A. destruct (assoc (all_vars (d_ds d)) n) as [w|]; [|discriminate]. injection A as <-.
    exists w. left. split; [reflexivity|]. apply pick_dims.
Qed.
Context (N : NoDup ["subcolumn"; td; hd_]).
Lemma td_sub : "subcolumn" <> td.
Proof. inversion N as [|? ? A _]; subst. intro E. apply A. left. exact (eq_sym E). Qed.
Lemma hd_sub : "subcolumn" <> hd_.
Proof. inversion N as [|? ? A _]; subst. intro E. apply A. right. left. exact (eq_sym E). Qed.

Lemma source_times x : like x -> exists g, vector x td = Ok (times, g) /\ forall j, j < times -> g j = XF (c j).
Proof.
  intros (SZ & KEEP & _). destruct AX as [_ (v & A & D & V & _) T _ _]. fold m td in A, D, V, T.
  exists (fun i => vat v [i]). split.
  - rewrite (vector_ok x td v td); [rewrite SZ, T; reflexivity| |exact D]. apply KEEP.
    + unfold all_vars. rewrite Xds_Round.assoc_app, A. reflexivity.
    + rewrite D. intros [E|[]]. exact (td_sub (eq_sym E)).
  - intros j J. apply V. rewrite T. exact J.
Qed.
Lemma source_levels x pressure zname y : like x -> placed d pressure zname times levels y ->
  exists g, vertical m x pressure zname = Ok (levels, g) /\ forall k, k < levels -> g k = XF (y k).
Proof.
  intros LK P. pose proof LK as (SZ & KEEP & DIM & BACK). destruct AX as [_ _ T LV [HI H1]]. fold m td hd_ in T, LV, HI, H1. fold m in T. unfold placed in P. fold m td hd_ in P.
  assert (VH : exists g, vector x hd_ = Ok (levels, g)).
  { destruct (vector_dim x hd_) as [g G].
    - apply DIM; [intro E; exact (hd_sub (eq_sym E))|exact HI].
    - intros v A. destruct (BACK _ _ A) as (w & [[W E]|W]); [|exact (H1 v W)]. rewrite E, (H1 w W). cbn.
      destruct (String.eqb_spec hd_ "subcolumn") as [X|]; [elim hd_sub; exact (eq_sym X)|reflexivity].
    - rewrite SZ, LV in G. exists g. exact G. }
  unfold vertical. fold hd_. destruct pressure.
  - destruct P as (v & A & V). pose proof (H1 v A) as D.
    rewrite (vector_ok x hd_ v hd_); [rewrite SZ, LV; eexists; split; [reflexivity|exact V]| |exact D].
    apply KEEP; [exact A|]. rewrite D. intros [E|[]]. exact (hd_sub (eq_sym E)).
  - destruct P as (v & A & [[D V]|(D & T0 & h & V & Y)]).
    + unfold getv. rewrite (KEEP zname v A) by (rewrite D; intros [E|[]]; exact (hd_sub (eq_sym E))). cbn [bind]. rewrite D. cbn [bind].
      destruct VH as [g ->]. cbn [bind]. rewrite SZ, LV, Nat.eqb_refl. cbn [orb]. eexists. split; [reflexivity|exact V].
    + unfold getv. rewrite (KEEP zname v A) by (rewrite D; intros [E|[E|[]]]; [exact (td_sub (eq_sym E))|exact (hd_sub (eq_sym E))]).
      cbn [bind]. rewrite D. cbn [bind]. destruct VH as [g ->]. cbn [bind]. rewrite !SZ, LV, Nat.eqb_refl. cbn [orb]. eexists. split; [reflexivity|].
      intros k K. cbv beta. rewrite T, Y, <- mean_fin by (destruct times; [lia|discriminate]). rewrite seq_length. f_equal. f_equal.
      apply map_ext_in. intros t I. apply in_seq in I. apply V; [lia|exact K].
Qed.
End Source.

Lemma source_ok d name z f c times levels : axes_of d c times levels -> curtain_of d name z f ->
  exists x v, subcolumn_of d name z = Ok x /\ like d x /\ getv x name = Ok v /\
    ash (flip_axes (values x v)) = [levels; times] /\ forall t k, aat (flip_axes (values x v)) [k; t] = f t k.
Proof.
  intros AX (v & A & N & H). pose proof AX as [OWN CL T LV _]. unfold subcolumn_of. unfold getv at 1. rewrite <- OWN, A. cbn [bind].
  destruct H as [[D V]|(D & s & S & V)]; rewrite D; cbn [length Nat.eqb].
  - exists (d_ds d), v. split; [reflexivity|]. split; [apply like_self|]. split; [unfold getv; rewrite A; reflexivity|].
    unfold flip_axes, values, shape. cbn [ash aat]. rewrite D. cbn [map rev app]. rewrite T, LV. split; [reflexivity|]. exact V.
  - rewrite (select_ok _ z s); [| |exact S].
    2: { apply has_dim_in, in_dims. exists name, v. split; [|rewrite D; left; reflexivity]. clear -A.
         induction (all_vars (d_ds d)) as [|[k w] l IH]; [discriminate|]. cbn in A. destruct (String.eqb_spec k name) as [->|]; [injection A as ->; left; reflexivity|right; auto]. }
    exists (pick_ds "subcolumn" s (d_ds d)), (pick "subcolumn" s v). split; [reflexivity|]. split; [apply like_pick|].
    split; [unfold getv; rewrite pick_assoc, A; reflexivity|].
    unfold flip_axes, values, shape. cbn [ash aat]. rewrite pick_dims, D. 
    inversion N as [|? ? N1 N2]; subst.
    cbn [filter]. destruct (String.eqb_spec (time_dim (d_model d)) "subcolumn") as [E|_]; [elim N1; left; exact E|].
    destruct (String.eqb_spec (height_dim (d_model d)) "subcolumn") as [E|_]; [elim N1; right; left; exact E|].
    cbn [String.eqb]. change (String.eqb "subcolumn" "subcolumn") with true. cbn [negb filter map rev app]. cbn [pick_ds sz].
    split; [reflexivity|]. intros t k. cbn [rev app]. rewrite (pick_first _ (time_dim (d_model d)) (height_dim (d_model d))) by assumption. apply V.
Qed.

Lemma title_ok o times : o_titled o = true \/ (o_dated o = true /\ 0 < times) -> title o times = Ok tt.
Proof. unfold title. intros [->|[-> T]]; [reflexivity|]. destruct (o_titled o); [reflexivity|]. destruct times; [lia|reflexivity]. Qed.

(** What a panel shows, for a mask over columns and levels. *)
Definition hatched_as (p : panel) (h : option (nat -> nat -> bool)) (cols levels : nat) : Prop :=
  match p_hatch p, h with
  | None, None => True
  | Some g, Some h => forall j k, j < cols -> k < levels -> g k j = h j k
  | _, _ => False
  end.

Section Panel.
Context (nx ny : nat) (x y : nat -> xr) (c e : nat -> R) (a : arr) (f : nat -> nat -> xr) (o : opts).
Context (X : forall i, i < nx -> x i = XF (c i)) (Y : forall i, i < ny -> y i = XF (e i)) (S : ash a = [ny; nx]) (A : forall j k, aat a [k; j] = f j k)
  (L : o_log o = true -> o_lo o <> None /\ o_hi o <> None).
Lemma draw_plain : exists p, draw nx ny x y a (with_mask o None (HBool false)) = Ok p /\ shows p nx ny c e f /\ p_hatch p = None /\ coloured_as o p.
Proof.
  eexists. split; [apply (draw_ok nx ny x y c e); [exact X|exact Y|exact S|exact L|reflexivity]|]. split; [|split; [reflexivity|repeat split]].
  repeat split; auto. intros j k _ _. apply A.
Qed.
Lemma draw_masked K : exists p, draw nx ny x y a (with_mask o (Some (mask_of nx ny K)) (HBool false)) = Ok p /\
  shows p nx ny c e (fun j k => if hides (K j k) then XNaN else f j k) /\ p_hatch p = None /\ coloured_as o p.
Proof.
  eexists. split; [apply (draw_ok nx ny x y c e); [exact X|exact Y|exact S|exact L|reflexivity]|]. split; [|split; [reflexivity|repeat split]].
  repeat split; auto. intros j k _ _. cbn [p_val with_mask o_mask o_hatch option_map].
  unfold hide. rewrite same_shape_true by (rewrite S; reflexivity). cbn [truthy negb andb aat flip_axes mask_of rev app nth].
  rewrite xleb_hides, A. destruct (hides (K j k)); reflexivity.
Qed.
Lemma draw_hatched K h : truthy h = true -> exists p, draw nx ny x y a (with_mask o (Some (mask_of nx ny K)) h) = Ok p /\
  shows p nx ny c e f /\ coloured_as o p /\
  exists g, p_hatch p = Some g /\ forall j k, g k j = true <-> K j k <> XF 0.
Proof.
  intro T. assert (HH : hatches h = true) by (destruct h; [exact T|reflexivity]).
  eexists. split; [apply (draw_ok nx ny x y c e); [exact X|exact Y|exact S|exact L|]|].
  - cbn [with_mask o_hatch o_mask option_map]. rewrite HH. rewrite same_shape_true by (rewrite hide_shape, S; reflexivity). reflexivity.
  - split; [|split; [repeat split|]].
    + repeat split; auto. intros j k _ _. cbn [p_val with_mask o_mask o_hatch option_map]. unfold hide. rewrite T, Bool.andb_false_r. apply A.
    + eexists. split; [reflexivity|]. intros j k. cbn [flip_axes mask_of aat rev app nth].
      destruct (K j k) as [r| | |]; cbn; try (split; [discriminate|reflexivity]). unfold Reqb. destruct (Req_EM_T r 0) as [->|].
      * split; [discriminate|]. intro E. elim E. reflexivity.
      * split; [congruence|reflexivity].
Qed.
Lemma draw_hatched_all h : truthy h = true -> exists p, draw nx ny x y a (with_mask o None h) = Ok p /\
  shows p nx ny c e f /\ exists g, p_hatch p = Some g /\ forall j k, g k j = true.
Proof.
  intro T. assert (HH : hatches h = true) by (destruct h; [exact T|reflexivity]).
  eexists. split; [apply (draw_ok nx ny x y c e); [exact X|exact Y|exact S|exact L|]|].
  - cbn [with_mask o_hatch o_mask option_map]. rewrite HH. reflexivity.
  - split; [repeat split; auto; intros j k _ _; apply A|]. eexists. split; [reflexivity|]. reflexivity.
Qed.
Lemma draw_other_mask k : ash k <> [nx; ny] -> draw nx ny x y a (with_mask o (Some k) (HBool false)) = draw nx ny x y a (with_mask o None (HBool false)).
Proof.
  intro NE. unfold draw. cbn [with_mask o_mask o_hatch o_log o_lo o_hi option_map]. unfold hide at 1 2.
  rewrite same_shape_false. 2: { cbn [flip_axes ash]. rewrite S. intro E. apply NE. rewrite <- (rev_involutive (ash k)), E. reflexivity. }
  cbn [andb hatches]. unfold hide. rewrite same_shape_false. 2: { cbn [flip_axes ash]. rewrite S. intro E. apply NE. rewrite <- (rev_involutive (ash k)), E. reflexivity. }
  reflexivity.
Qed.
Lemma draw_hatched_other k h : truthy h = true -> ash k <> [nx; ny] -> draw nx ny x y a (with_mask o (Some k) h) = Raise IndexError.
Proof.
  intros T NE. assert (HH : hatches h = true) by (destruct h; [exact T|reflexivity]).
  unfold draw. cbn [with_mask o_mask o_hatch o_log o_lo o_hi option_map]. rewrite (draw_log o L). cbn [bind].
  rewrite (mesh_ok nx ny x y c e) by (assumption || (rewrite hide_shape; exact S)). cbn [bind]. rewrite HH.
  rewrite same_shape_false; [reflexivity|]. rewrite hide_shape, S. cbn [flip_axes ash]. intro E. apply NE. rewrite <- (rev_involutive (ash k)), E. reflexivity.
Qed.
End Panel.
Lemma draw_no_limits nx ny x y a o : o_log o = true -> o_lo o = None \/ o_hi o = None -> draw nx ny x y a o = Raise UnboundLocalError.
Proof. intros L H. unfold draw. rewrite L. destruct (o_lo o), (o_hi o); destruct H; try discriminate; reflexivity. Qed.
