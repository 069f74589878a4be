(** Cutting a dataset along several dimensions, then stacking it. *)
From Verif Require Import Read_Spec Xds_Round Load_Facts Load_Stack Load_Crop Load_Loop Xds_Proofs Xds_Stack Xds_Fields.
Local Open Scope string_scope.
Local Open Scope list_scope.

Definition cut (m : mobj) (d : string) (keep : list nat) : mobj := with_ds m (keep_along d keep (mds m)).

Section Cut.
Variables (m : mobj) (td : string) (keep : list nat).
Lemma ct_in_vars k v : In (k, v) (all_vars (mds m)) -> In (k, isel td keep v) (all_vars (mds (cut m td keep))).
Proof.
  intro I. unfold all_vars in *. apply in_app_iff in I as [I|I]; apply in_app_iff; [left|right];
  apply in_on_vals; eauto.
Qed.
Lemma ct_of_vars k v : In (k, v) (all_vars (mds (cut m td keep))) -> exists w, In (k, w) (all_vars (mds m)) /\ v = isel td keep w.
Proof.
  intro I. unfold all_vars in *. apply in_app_iff in I as [I|I]; apply in_on_vals in I as (w & I & ->); exists w;
  (split; [apply in_app_iff; auto|reflexivity]).
Qed.
Lemma ct_dims d : In d (all_dims (mds (cut m td keep))) <-> In d (all_dims (mds m)).
Proof.
  rewrite !in_dims. split.
  - intros (k & v & I & D). apply ct_of_vars in I as (w & I & ->). rewrite isel_dims in D. eauto.
  - intros (k & v & I & D). exists k, (isel td keep v). split; [apply ct_in_vars; exact I|]. rewrite isel_dims. exact D.
Qed.
Lemma ct_keys : map fst (all_vars (mds (cut m td keep))) = map fst (all_vars (mds m)).
Proof. unfold all_vars. rewrite !map_app. cbn [cut keep_along with_ds mds coords vars]. rewrite !on_vals_keys. reflexivity. Qed.
Lemma ct_wf : well_formed (mds m) -> well_formed (mds (cut m td keep)).
Proof. intros W k v I. apply ct_of_vars in I as (w & I & ->). rewrite isel_dims. exact (W k w I). Qed.
Lemma ct_sz d : d <> td -> sz (mds (cut m td keep)) d = sz (mds m) d.
Proof. intro N. cbn [cut keep_along with_ds mds sz]. rewrite eqb_f by exact N. reflexivity. Qed.
Lemma ct_sz_same : sz (mds (cut m td keep)) td = length keep.
Proof. cbn [cut keep_along with_ds mds sz]. rewrite String.eqb_refl. reflexivity. Qed.
Lemma ct_field k v : field (mds m) k v -> field (mds (cut m td keep)) k (isel td keep v).
Proof. unfold field. intro F. cbn [cut keep_along with_ds mds vars]. rewrite assoc_on_vals, F. reflexivity. Qed.
Lemma ct_unused n : unused (mds m) n -> unused (mds (cut m td keep)) n.
Proof. intros [A B]. split; [rewrite ct_dims; exact A|rewrite ct_keys; exact B]. Qed.
Lemma ct_stackable out : stackable m out -> stackable (cut m td keep) out.
Proof.
  intros [A1 A2 A3 A4 A5 A6 A7 A8]. constructor; cbn [with_ds cut time_dim lat_dim lon_dim height_dim stacked_time_dim].
  - apply ct_wf. exact A1.
  - apply ct_dims. exact A2.
  - apply ct_dims. exact A3.
  - destruct A4 as (k & v & I & D). exists k, (isel td keep v). split; [apply in_on_vals; eauto|rewrite isel_dims; exact D].
  - exact A5.
  - intros n I. apply ct_unused. exact (A6 n I).
  - intros d v I D. apply in_on_vals in I as (w & I & ->). rewrite isel_dims. apply (A7 d w I). apply ct_dims. exact D.
  - exact A8.
Qed.
End Cut.

Lemma regional_dec m : regional m \/ ~ regional m.
Proof.
  unfold regional. destruct (Nat.eq_dec (sz (mds m) (lat_dim m)) 1) as [E|E]; [|left; left; exact E].
  destruct (in_dec string_dec (lon_dim m) (all_dims (mds m))) as [I|I].
  - destruct (Nat.eq_dec (sz (mds m) (lon_dim m)) 1) as [F|F]; [|left; right; auto]. right. tauto.
  - right. tauto.
Qed.
Lemma domain_of_stackable m : stackable m "time_lat_lon" -> domain m.
Proof.
  intro S. destruct (regional_dec m) as [R|R]; [apply several; assumption|].
  apply one; [apply S|apply S|exact R|]. pose proof (st_names _ _ S) as N.
  apply NoDup_cons_iff in N as [N1 N]. apply NoDup_cons_iff in N as [N2 N]. apply NoDup_cons_iff in N as [N3 N].
  apply NoDup_cons_iff in N as [N4 N]. simpl in N1, N2, N3, N4.
  repeat constructor; simpl; tauto.
Qed.

(** Cuts along several dimensions. *)
Fixpoint cuts (m : mobj) (l : list (string * list nat)) : mobj :=
  match l with [] => m | (d, k) :: l' => cuts (cut m d k) l' end.
Definition keeps (l : list (string * list nat)) (szf : string -> nat) (d : string) : list nat :=
  match assoc l d with Some k => k | None => seq 0 (szf d) end.

Definition good (m : mobj) (l : list (string * list nat)) : Prop :=
  stackable m "time_lat_lon" \/ (domain m /\ forall d, In d (map fst l) -> d = time_dim m).

Lemma cut_time_domain m keep : domain m -> domain (cut m (time_dim m) keep).
Proof. exact (cr_domain m keep). Qed.
Lemma cuts_domain l : forall m, good m l -> domain (cuts m l).
Proof.
  induction l as [|[d k] l IH]; intros m H; cbn [cuts].
  - destruct H as [H|[H _]]; [apply domain_of_stackable; exact H|exact H].
  - apply IH. destruct H as [H|[H E]]; [left; apply ct_stackable; exact H|].
    right. rewrite (E d) by (left; reflexivity). split; [apply cut_time_domain; exact H|].
    intros d' I. apply E. right. exact I.
Qed.
Lemma cuts_names l : forall m, time_dim (cuts m l) = time_dim m /\ height_dim (cuts m l) = height_dim m /\
  lat_dim (cuts m l) = lat_dim m /\ lon_dim (cuts m l) = lon_dim m /\ stacked_time_dim (cuts m l) = stacked_time_dim m /\
  map fst (coords (mds (cuts m l))) = map fst (coords (mds m)) /\
  map fst (vars (mds (cuts m l))) = map fst (vars (mds m)) /\
  forall d, In d (all_dims (mds (cuts m l))) <-> In d (all_dims (mds m)).
Proof.
  induction l as [|[d k] l IH]; intro m; cbn [cuts]; [repeat split; auto; tauto|].
  destruct (IH (cut m d k)) as (A & B & C & D & E & F & F2 & G). rewrite A, B, C, D, E, F, F2.
  do 5 (split; [reflexivity|]). split; [|split; [|intro e; rewrite G; apply ct_dims]];
  cbn [cut keep_along with_ds mds coords vars]; apply on_vals_keys.
Qed.
Lemma keeps_cut l m d k c : c <> d -> keeps l (sz (mds (cut m d k))) c = keeps l (sz (mds m)) c.
Proof. intro N. unfold keeps. rewrite ct_sz by exact N. reflexivity. Qed.
Lemma keeps_cons l szf d k c : keeps ((d, k) :: l) szf c = if string_dec c d then k else keeps l szf c.
Proof.
  unfold keeps. cbn [assoc]. destruct (string_dec c d) as [->|N].
  - rewrite String.eqb_refl. reflexivity.
  - rewrite eqb_f; [reflexivity|]. congruence.
Qed.
Lemma keeps_fresh l szf d : ~ In d (map fst l) -> keeps l szf d = seq 0 (szf d).
Proof. intro N. unfold keeps. rewrite assoc_none by exact N. reflexivity. Qed.
Lemma cuts_sz l : forall m, NoDup (map fst l) -> forall d, sz (mds (cuts m l)) d = length (keeps l (sz (mds m)) d).
Proof.
  induction l as [|[d k] l IH]; intros m N c; cbn [cuts].
  - unfold keeps. cbn [assoc]. rewrite seq_length. reflexivity.
  - inversion N as [|? ? N1 N2]; subst. rewrite IH by exact N2. rewrite keeps_cons.
    destruct (string_dec c d) as [->|Q].
    + rewrite keeps_fresh by exact N1. rewrite seq_length. apply ct_sz_same.
    + rewrite keeps_cut by exact Q. reflexivity.
Qed.
Lemma cuts_field l : forall m, NoDup (map fst l) -> forall k v, field (mds m) k v ->
  exists v', field (mds (cuts m l)) k v' /\ vdims v' = vdims v /\
  forall ix, (forall d, In d (vdims v) -> ix d < length (keeps l (sz (mds m)) d)) ->
    at_ v' ix = at_ v (fun d => nth (ix d) (keeps l (sz (mds m)) d) 0).
Proof.
  induction l as [|[d k] l IH]; intros m N n v F; cbn [cuts].
  - exists v. split; [exact F|]. split; [reflexivity|]. intros ix I. apply at_ext. intros c C.
    specialize (I c C). unfold keeps in *. cbn [assoc] in *. rewrite seq_length in I. rewrite seq_nth by exact I. reflexivity.
  - inversion N as [|? ? N1 N2]; subst.
    destruct (IH (cut m d k) N2 n _ (ct_field m d k n v F)) as (v' & F' & D' & A').
    rewrite isel_dims in D'. exists v'. split; [exact F'|]. split; [exact D'|]. intros ix I.
    assert (KE : forall c, length (keeps l (sz (mds (cut m d k))) c) = length (keeps ((d, k) :: l) (sz (mds m)) c)).
    { intro c. rewrite keeps_cons. destruct (string_dec c d) as [->|Q].
      - rewrite keeps_fresh by exact N1. rewrite seq_length. apply ct_sz_same.
      - rewrite keeps_cut by exact Q. reflexivity. }
    rewrite A'.
    + rewrite at_isel. apply at_ext. intros c C. specialize (I c C). rewrite keeps_cons in *.
      destruct (string_dec c d) as [->|Q].
      * rewrite String.eqb_refl. rewrite keeps_fresh by exact N1. rewrite ct_sz_same, seq_nth by exact I. reflexivity.
      * rewrite eqb_f by exact Q. rewrite keeps_cut by exact Q. reflexivity.
    + intros c C. rewrite isel_dims in C. rewrite KE. apply I. exact C.
Qed.

(** Cutting, then stacking. *)
Lemma tail_ok m l T k0 : NoDup (map fst l) -> good m l -> gridded m T -> field (mds m) k0 T ->
  let keep := keeps l (sz (mds m)) in
  exists m', check_and_stack (cuts m l) "time_lat_lon" true = Ok m' /\
  (forall k, In k (map fst (coords (mds m'))) -> In k (map fst (coords (mds m))) \/
     In k ["time_lat_lon"; (time_dim m ++ "_tmp")%string; (lat_dim m ++ "_tmp")%string; (lon_dim m ++ "_tmp")%string]) /\
  map fst (vars (mds m')) = map fst (vars (mds m)) /\
  forall k v, field (mds m) k v -> held m keep m' k (at_ v).
Proof.
  intros ND G [OUT HN (DT & DH) _] FT keep.
  destruct (cuts_names l m) as (N1 & N2 & N3 & N4 & N5 & N6 & N6v & N7).
  destruct (stack_any (cuts m l) (cuts_domain l m G)) as (m3 & g & E & SL).
  { rewrite N7. exact OUT. }
  { rewrite N1, N2, N3, N4. exact HN. }
  destruct (cuts_field l m ND k0 T FT) as (T1 & FT1 & DT1 & _).
  assert (F3 : forall k v, field (mds (cuts m l)) k v -> field (mds m3) k (g v)).
  { intros k v F. unfold field. rewrite (sl_vars _ _ _ SL), assoc_on_vals. unfold field in F. rewrite F. reflexivity. }
  assert (INC : incl [time_dim m3; height_dim m3] (all_dims (mds m3))).
  { intros d [<-|[<-|[]]]; (eapply field_dims; [apply F3; exact FT1|]).
    - apply (sl_time _ _ _ SL). rewrite N1, DT1. exact DT.
    - rewrite (sl_height _ _ _ SL). apply (sl_h _ _ _ SL). rewrite N2, DT1. exact DH. }
  assert (E' : check_and_stack (cuts m l) "time_lat_lon" true = permute_dims m3 None true).
  { revert E. unfold check_and_stack. cbn zeta. intros [= <-]. reflexivity. }
  rewrite (permute_ok m3 None true INC) in E'. cbn [andb] in E'.
  eexists. split; [exact E'|]. split.
  { intro k. cbn [with_ds mds on_ds coords]. rewrite keys_on_vals. intro I. apply (sl_coords _ _ _ SL) in I.
    rewrite N1, N3, N4, N6 in I. exact I. }
  split.
  { cbn [with_ds mds on_ds vars]. rewrite keys_on_vals, (sl_vars _ _ _ SL), keys_on_vals. exact N6v. }
  intros k v F. destruct (cuts_field l m ND k v F) as (v1 & F1 & D1 & A1).
  destruct (permute_field m3 [time_dim m3; height_dim m3] true k (g v1) INC (F3 k v1 F1)) as (F' & D' & A').
  eexists. split; [exact F'|]. split.
  { intros d I. apply D' in I. cbn [with_ds mds on_ds sz]. rewrite (sl_sz _ _ _ SL k v1 d F1 I). unfold extent, stack_size, keep.
    rewrite N1, N3, N4, !cuts_sz by exact ND. destruct (string_dec d "time_lat_lon"); [|reflexivity].
    destruct (in_dec string_dec (lon_dim m) (all_dims (mds m))) as [L|L];
    destruct (in_dec string_dec (lon_dim m) (all_dims (mds (cuts m l)))) as [L'|L']; try reflexivity; rewrite N7 in L'; tauto. }
   intros ix I. rewrite A'. unfold keep in I |- *.
  assert (I1 : inside (mds (cuts m l)) ix).
  { intros d D. rewrite cuts_sz by exact ND. apply I. apply N7. exact D. }
  rewrite <- (A1 ix).
  - rewrite <- (sl_at _ _ _ SL k v1 ix F1 I1). apply at_ext. intros d _. unfold spot, stack_position, column.
    rewrite N1, N3, N4. rewrite !cuts_sz by exact ND.
    destruct (string_dec d "time_lat_lon"); [|reflexivity].
    destruct (in_dec string_dec (lon_dim m) (all_dims (mds m))) as [L|L];
    destruct (in_dec string_dec (lon_dim m) (all_dims (mds (cuts m l)))) as [L'|L']; try reflexivity; rewrite N7 in L'; tauto.
  - intros d D. apply I. eapply field_dims; eauto.
Qed.
