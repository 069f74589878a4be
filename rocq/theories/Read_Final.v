(** Reading ModelE and DHARMA files. *)
From Coq Require Import Lra.
From Verif Require Import Read_Spec Xds_Round Load_Facts Load_Stack Load_Crop Load_Loop Xds_Proofs Xds_Stack Xds_Fields Xr_Facts Read_Cut.
Local Open Scope string_scope.
Local Open Scope list_scope.

Lemma cuts_app l : forall m l', cuts (cuts m l) l' = cuts m (l ++ l').
Proof. induction l as [|[d k] l IH]; intros m l'; [reflexivity|]. apply IH. Qed.

(** *** The time range *)
Definition good_axis (x : xds) (td : string) : Prop := forall c, assoc (all_vars x) td = Some c -> vdims c = [td].
Lemma axis_value x td : good_axis x td -> In td (all_dims x) ->
  exists c, axis_of x td = Some c /\ vdims c = [td] /\ forall i, vat c [i] = time_value x td i.
Proof.
  intros G I. unfold axis_of, time_value. destruct (assoc (all_vars x) td) as [c|] eqn:E.
  - exists c. pose proof (G c E) as D. split; [reflexivity|]. split; [exact D|]. intro i. unfold at_. rewrite D. reflexivity.
  - apply memb_in in I. rewrite I. eexists. split; [reflexivity|]. split; reflexivity.
Qed.
Lemma sorted_seq n : forall a, StronglySorted lt (seq a n).
Proof.
  induction n as [|n IH]; intro a; simpl; constructor; [apply IH|]. apply Forall_forall. intros y H. apply in_seq in H. lia.
Qed.
Definition crop_opt (m : mobj) (r : option (R * R)) : res mobj :=
  match r with None => Ok m | Some (a, b) => crop_time_range m (XF a) (XF b) None end.
Lemma checked_crop m r : checked_range m (as_datetime r) = crop_opt m r.
Proof. destruct r as [[a b]|]; reflexivity. Qed.
Lemma range_cut m r : good_axis (mds m) (time_dim m) -> In (time_dim m) (all_dims (mds m)) -> some_step r (mds m) (time_dim m) ->
  exists l, crop_opt m r = Ok (cuts m l) /\ ((r = None /\ l = []) \/ exists k, l = [(time_dim m, k)]) /\
  let keep := keeps l (sz (mds m)) (time_dim m) in
  StronglySorted lt keep /\ forall i, In i keep <-> i < sz (mds m) (time_dim m) /\ in_range r (mds m) (time_dim m) i.
Proof.
  intros G I S. destruct r as [[t0 t1]|].
  - destruct (axis_value _ _ G I) as (c & A & D & V). destruct S as (i & Hi & R); [discriminate|].
    set (keep := shown_times c t0 t1 (sz (mds m) (time_dim m))).
    assert (K : forall i, In i keep <-> i < sz (mds m) (time_dim m) /\ in_range (Some (t0, t1)) (mds m) (time_dim m) i).
    { intro j. unfold keep. rewrite shown_times_in. rewrite V. reflexivity. }
    exists [(time_dim m, keep)]. split; [|split; [right; eauto|]].
    + cbn [crop_opt]. unfold crop_time_range. rewrite A, D, String.eqb_refl. cbn [negb].
      fold (shown_times c t0 t1 (sz (mds m) (time_dim m))). fold keep.
      destruct keep as [|a kr] eqn:Q; [exfalso|reflexivity].
      apply (proj2 (K i)). split; assumption.
    + cbn zeta. rewrite keeps_cons. destruct (string_dec _ _); [|tauto]. split; [apply sorted_filter_seq|exact K].
  - exists []. split; [reflexivity|]. split; [auto|]. cbn zeta. unfold keeps. cbn [assoc].
    split; [apply sorted_seq|]. intro i. rewrite in_seq. cbn [in_range]. intuition lia.
Qed.
Lemma range_none m r : good_axis (mds m) (time_dim m) -> In (time_dim m) (all_dims (mds m)) ->
  ~ (exists i, i < sz (mds m) (time_dim m) /\ in_range r (mds m) (time_dim m) i) -> crop_opt m r = Ok m.
Proof.
  intros G I N. destruct r as [[t0 t1]|]; [|reflexivity].
  destruct (axis_value _ _ G I) as (c & A & D & V). cbn [crop_opt]. unfold crop_time_range. rewrite A, D, String.eqb_refl. cbn [negb].
  fold (shown_times c t0 t1 (sz (mds m) (time_dim m))). 
  destruct (shown_times c t0 t1 (sz (mds m) (time_dim m))) as [|i l] eqn:E; [reflexivity|].
  exfalso. apply N. exists i. assert (J : In i (shown_times c t0 t1 (sz (mds m) (time_dim m)))) by (rewrite E; left; reflexivity).
  apply shown_times_in in J. rewrite V in J. exact J.
Qed.

(** *** ModelE *)
Lemma air_density_ok T p x t pv : field x T t -> assoc (all_vars x) p = Some pv ->
  air_density T p x = Ok (setv x "rho_a" (vbin xdiv (vmap (fun a => xmul a (XF 100)) pv) (vmap (xmul (XF R_d)) t))).
Proof. intros F A. unfold air_density, calc_air_density. cbn [f_T f_p]. rewrite F. unfold getv. rewrite A. reflexivity. Qed.
Lemma at_density pv t ix :
  at_ (vbin xdiv (vmap (fun a => xmul a (XF 100)) pv) (vmap (xmul (XF R_d)) t)) ix = dry_air (at_ pv ix) (at_ t ix).
Proof. rewrite at_vbin. reflexivity. Qed.

Lemma selects_keeps x l (P : string -> nat -> Prop) :
  (forall d, In d (map fst l) -> StronglySorted lt (keeps l (sz x) d) /\
     forall i, In i (keeps l (sz x) d) <-> i < sz x d /\ P d i) ->
  (forall d i, ~ In d (map fst l) -> P d i) ->
  selects x P (keeps l (sz x)).
Proof.
  intros A B d _. destruct (in_dec string_dec d (map fst l)) as [I|I]; [exact (A d I)|].
  rewrite keeps_fresh by exact I. split; [apply sorted_seq|]. intro i. rewrite in_seq. specialize (B d i I). intuition lia.
Qed.

Theorem modele_reads r x T p : field x "t" T -> field x "p_3d" p -> ~ In "p_3d" (map fst (coords x)) ->
  gridded (modele_obj x) T -> domain (modele_obj x) -> some_step r x "time" ->
  exists m' keep, modele_load (as_datetime r) x = Ok m' /\
    selects x (fun d i => d = "time" -> in_range r x "time" i) keep /\
    (forall k v, field x k v -> k <> "rho_a" -> held (modele_obj x) keep m' k (at_ v)) /\
    held (modele_obj x) keep m' "rho_a" (fun ix => dry_air (at_ p ix) (at_ T ix)).
Proof.
  intros FT FP NP G D S. set (m := modele_obj x) in *.
  destruct (range_cut m r) as (l & C & L & SS & K).
  { exact (gr_axis _ _ G). }
  { eapply field_dims; [exact FT|]. apply (gr_dims _ _ G). }
  { exact S. }
  cbn zeta in SS, K.
  assert (ND : NoDup (map fst l)) by (destruct L as [(RN & ->)|(k & ->)]; repeat constructor; simpl; tauto).
  assert (ONLY : forall d, In d (map fst l) -> d = time_dim m).
  { destruct L as [(RN & ->)|(k & ->)]; simpl; intros d; [tauto|]. intros [<-|[]]. reflexivity. }
  destruct (tail_ok m l T "t" ND (or_intror (conj D ONLY)) G FT) as (m2 & E & CO & _ & H).
  destruct (H "p_3d" p FP) as (p2 & FP2 & DP & AP). destruct (H "t" T FT) as (t2 & FT2 & DT & AT).
  assert (GP : assoc (all_vars (mds m2)) "p_3d" = Some p2).
  { assert (N : ~ In "p_3d" (map fst (coords (mds m2)))).
    { intro I. apply CO in I as [I|I]; [exact (NP I)|]. simpl in I. intuition discriminate. }
    unfold all_vars. rewrite assoc_app, (assoc_none _ _ N). exact FP2. }
  exists (with_ds m2 (setv (mds m2) "rho_a" (vbin xdiv (vmap (fun a => xmul a (XF 100)) p2) (vmap (xmul (XF R_d)) t2)))),
    (keeps l (sz x)).
  split; [|split; [|split]].
  - unfold modele_load. fold m. rewrite checked_crop, C. cbn [bind]. rewrite E. cbn [bind].
    unfold getv. rewrite GP. cbn [bind]. rewrite (air_density_ok "t" "p_3d" (mds m2) t2 p2 FT2 GP). reflexivity.
  - apply selects_keeps.
    + intros d I. rewrite (ONLY d I). split; [exact SS|]. intro i.
      change (time_dim m) with "time" in K |- *. change (mds m) with x in K. rewrite (K i). intuition.
    + intros d i N ->. destruct r as [[a b]|]; [exfalso|exact I].
      destruct L as [(RN & ->)|(k & ->)]; [discriminate|apply N; left; reflexivity].
  - intros k v F N. destruct (H k v F) as (v2 & F2 & D2 & A2). exists v2. split; [|split; [exact D2|exact A2]].
    unfold field. cbn [with_ds mds]. rewrite set_other by exact N. exact F2.
  - eexists. split; [apply set_same|]. split.
    { intros d I. apply vbin_dims in I as [I|I]; [exact (DP d I)|exact (DT d I)]. }
    intros ix I. rewrite at_density, AP, AT by exact I. reflexivity.
Qed.
