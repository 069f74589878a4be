From Verif Require Import Xds_Model Xds_Spec Xr_Facts.
From Verif Require Mom_Facts Gen_Facts.
Local Open Scope string_scope.
Local Open Scope list_scope.

Lemma memb_in x l : memb x l = true <-> In x l.
Proof.
  unfold memb. rewrite existsb_exists. split.
  - intros (y & H & E). apply String.eqb_eq in E. subst. exact H.
  - intro H. exists x. split; [exact H|apply String.eqb_refl].
Qed.
Lemma memb_out x l : memb x l = false <-> ~ In x l.
Proof. rewrite <- memb_in. destruct (memb x l); split; try congruence; intuition. Qed.

(** *** Dimensions *)
Lemma in_dims x d : In d (all_dims x) <-> exists k v, In (k, v) (all_vars x) /\ In d (vdims v).
Proof.
  unfold all_dims. rewrite nodup_In, in_flat_map. split.
  - intros ((k & v) & H & D). eauto.
  - intros (k & v & H & D). exists (k, v). auto.
Qed.
Lemma has_dim_in x d : has_dim x d = true <-> In d (all_dims x).
Proof. apply memb_in. Qed.

(** *** Label-based access *)
Lemma index_of_map ix d ds : In d ds -> index_of d ds (map ix ds) = ix d.
Proof.
  unfold index_of. induction ds as [|c ds IH]; simpl; [tauto|].
  destruct (String.eqb c d) eqn:E; simpl.
  - apply String.eqb_eq in E. subst. reflexivity.
  - intros [->|H]; [rewrite String.eqb_refl in E; discriminate|]. apply IH; exact H.
Qed.
Lemma map_index_of ds l : NoDup ds -> length l = length ds -> map (fun d => index_of d ds l) ds = l.
Proof.
  revert l. induction ds as [|d ds IH]; intros [|i l] N H; try discriminate; [reflexivity|].
  inversion N as [|? ? N1 N2]; subst. simpl. f_equal.
  - unfold index_of. simpl. rewrite String.eqb_refl. reflexivity.
  - simpl in H. transitivity (map (fun d => index_of d ds l) ds); [|apply IH; auto].
    apply map_ext_in. intros c Hc.
    unfold index_of. simpl. destruct (String.eqb d c) eqn:E; [|reflexivity].
    apply String.eqb_eq in E. subst. tauto.
Qed.

Lemma at_ext v f g : (forall d, In d (vdims v) -> f d = g d) -> at_ v f = at_ v g.
Proof. intro H. unfold at_. f_equal. apply map_ext_in. exact H. Qed.

Lemma at_trans order v ix : incl (vdims v) order -> at_ (vtrans order v) ix = at_ v ix.
Proof.
  intro I. unfold at_, vtrans. cbn [vdims vat]. f_equal. apply map_ext_in. intros d Hd.
  apply index_of_map. apply filter_In. split; [apply I; exact Hd|apply memb_in; exact Hd].
Qed.
Lemma trans_dims order v d : In d (vdims (vtrans order v)) <-> In d order /\ In d (vdims v).
Proof. unfold vtrans. cbn [vdims]. rewrite filter_In, memb_in. tauto. Qed.
Lemma trans_nodup order v : NoDup order -> NoDup (vdims (vtrans order v)).
Proof. intro N. apply NoDup_filter. exact N. Qed.

Lemma at_squeeze ds v ix : at_ (vsqueeze ds v) ix = at_ v (fun d => if memb d ds then 0 else ix d).
Proof.
  unfold at_, vsqueeze. cbn [vdims vat]. f_equal. apply map_ext_in. intros d Hd.
  destruct (memb d ds) eqn:E; [reflexivity|]. apply index_of_map. apply filter_In.
  split; [exact Hd|rewrite E; reflexivity].
Qed.

(** *** Row-major positions *)
Inductive within : list nat -> list nat -> Prop :=
| within_nil : within [] []
| within_cons n sh i ix : i < n -> within sh ix -> within (n :: sh) (i :: ix).
Lemma within_app sh ix sh' ix' : within sh ix -> within sh' ix' -> within (sh ++ sh') (ix ++ ix').
Proof. induction 1; simpl; auto using within. Qed.
Lemma within_map (szf ix : string -> nat) ds :
  (forall d, In d ds -> ix d < szf d) -> within (map szf ds) (map ix ds).
Proof. induction ds; simpl; intro H; constructor; auto. Qed.
Lemma within_len sh ix : within sh ix -> length ix = length sh.
Proof. induction 1; simpl; auto. Qed.
Lemma size_app a b : size_of (a ++ b) = size_of a * size_of b.
Proof. induction a; simpl; [lia|]. unfold size_of in *. simpl. rewrite IHa. lia. Qed.
Lemma size_cons n sh : size_of (n :: sh) = n * size_of sh.
Proof. reflexivity. Qed.

Lemma ravel_lt sh ix : within sh ix -> ravel sh ix < size_of sh.
Proof.
  induction 1 as [|n sh i ix Hi W IH]; [simpl; lia|]. cbn [ravel]. rewrite size_cons.
  assert (i * size_of sh + size_of sh <= n * size_of sh) by nia. lia.
Qed.
Lemma ravel_app sh ix sh' ix' : within sh ix ->
  ravel (sh ++ sh') (ix ++ ix') = ravel sh ix * size_of sh' + ravel sh' ix'.
Proof.
  induction 1 as [|n sh i ix Hi W IH]; [reflexivity|]. cbn [app ravel]. rewrite IH, size_app. lia.
Qed.
Lemma unravel_head i s r : r < s -> (i * s + r) / s = i /\ (i * s + r) mod s = r.
Proof.
  intro H. split.
  - rewrite Nat.div_add_l by lia. rewrite Nat.div_small by exact H. lia.
  - rewrite Nat.add_comm, Nat.mod_add by lia. apply Nat.mod_small. exact H.
Qed.
Lemma unravel_ravel sh ix : within sh ix -> unravel sh (ravel sh ix) = ix.
Proof.
  induction 1 as [|n sh i ix Hi W IH]; [reflexivity|]. cbn [ravel unravel].
  destruct (unravel_head i (size_of sh) (ravel sh ix) (ravel_lt _ _ W)) as [-> ->]. f_equal. exact IH.
Qed.
Lemma unravel_len sh p : length (unravel sh p) = length sh.
Proof. revert p. induction sh; simpl; auto. Qed.
Lemma unravel_app sh ix sh' p : within sh ix -> p < size_of sh' ->
  unravel (sh ++ sh') (ravel sh ix * size_of sh' + p) = ix ++ unravel sh' p.
Proof.
  induction 1 as [|n sh i ix Hi W IH]; intro Hp; [reflexivity|]. cbn [app ravel unravel].
  rewrite size_app.
  assert (L : ravel sh ix * size_of sh' + p < size_of sh * size_of sh').
  { pose proof (ravel_lt _ _ W). nia. }
  replace ((i * size_of sh + ravel sh ix) * size_of sh' + p)
    with (i * (size_of sh * size_of sh') + (ravel sh ix * size_of sh' + p)) by lia.
  destruct (unravel_head i _ _ L) as [-> ->]. f_equal. apply IH; exact Hp.
Qed.
Lemma size_one n : size_of [n] = n.
Proof. unfold size_of. simpl. lia. Qed.
Lemma unravel_one n p : unravel [n] p = [p].
Proof. cbn [unravel]. change (size_of []) with 1. rewrite Nat.div_1_r. reflexivity. Qed.
Lemma ravel_one n p : ravel [n] [p] = p.
Proof. cbn [ravel]. change (size_of []) with 1. lia. Qed.

(** *** Stacking one variable *)
Definition unstacked_at (szf : string -> nat) (name : string) (ds : list string) (ix : string -> nat) : string -> nat :=
  fun d => if memb d ds then index_of d ds (unravel (map szf ds) (ix name)) else ix d.

Lemma filter_all {A} f (l : list A) : (forall x, In x l -> f x = true) -> filter f l = l.
Proof. induction l; simpl; intro H; [reflexivity|]. rewrite H by auto. f_equal. auto. Qed.

Lemma stack_full v ds d : In d (vdims v ++ filter (fun d => negb (memb d (vdims v))) ds)
  <-> In d (vdims v) \/ In d ds.
Proof.
  rewrite in_app_iff, filter_In. destruct (memb d (vdims v)) eqn:E; simpl.
  - apply memb_in in E. tauto.
  - intuition.
Qed.

Lemma at_stack szf name ds v ix :
  NoDup ds -> ~ In name (vdims v) -> ~ In name ds ->
  (forall d, In d (vdims v) -> ~ In d ds -> ix d < szf d) -> ix name < size_of (map szf ds) ->
  at_ (vstack szf name ds v) ix
  = if existsb (fun d => memb d (vdims v)) ds then at_ v (unstacked_at szf name ds ix) else at_ v ix.
Proof.
  intros N Hn Hs R P. unfold vstack.
  destruct (existsb (fun d => memb d (vdims v)) ds) eqn:E; [|reflexivity].
  set (full := vdims v ++ filter (fun d => negb (memb d (vdims v))) ds).
  set (rest := filter (fun d => negb (memb d ds)) full).
  set (exp := {| vdims := full; vat := fun ix => vat v (firstn (length (vdims v)) ix) |}).
  set (g := unstacked_at szf name ds ix).
  unfold at_ at 1. cbn [vdims vat]. rewrite map_app. cbn [map].
  assert (RI : forall d, In d rest -> In d (vdims v) /\ ~ In d ds).
  { intros d H. apply filter_In in H as [H M]. apply stack_full in H.
    destruct (memb d ds) eqn:M2; [discriminate|]. apply memb_out in M2. tauto. }
  assert (W : within (map szf rest) (map ix rest)).
  { apply within_map. intros d H. apply R; apply RI; exact H. }
  unfold reshape. rewrite !map_app. cbn [map].
  rewrite (ravel_app _ _ [size_of (map szf ds)] [ix name] W), ravel_one, size_one.
  rewrite unravel_app by assumption.
  assert (G : map ix rest ++ unravel (map szf ds) (ix name) = map g (rest ++ ds)).
  { rewrite map_app. f_equal.
    - apply map_ext_in. intros d H. unfold g, unstacked_at.
      assert (M : memb d ds = false) by (apply memb_out; apply RI; exact H). rewrite M. reflexivity.
    - rewrite <- (map_index_of ds (unravel (map szf ds) (ix name))) at 1
        by (auto; rewrite unravel_len, map_length; reflexivity).
      apply map_ext_in. intros d H. unfold g, unstacked_at.
      assert (M : memb d ds = true) by (apply memb_in; exact H). rewrite M. reflexivity. }
  rewrite G.
  assert (F : vdims (vtrans (rest ++ ds) exp) = rest ++ ds).
  { unfold vtrans. cbn [vdims]. apply filter_all. intros d H. apply memb_in.
    apply in_app_or in H as [H|H]; apply stack_full; [left; apply RI; exact H|right; exact H]. }
  rewrite <- F at 2. change (at_ (vtrans (rest ++ ds) exp) g = at_ v g).
  rewrite at_trans.
  - unfold at_, exp. cbn [vdims vat]. f_equal. unfold full. rewrite map_app.
    rewrite <- (map_length g (vdims v)). rewrite firstn_app, firstn_all, Nat.sub_diag. simpl.
    apply app_nil_r.
  - intros d H. cbn [exp vdims] in H. apply in_or_app. destruct (memb d ds) eqn:M.
    + right. apply memb_in. exact M.
    + left. apply filter_In. split; [exact H|rewrite M; reflexivity].
Qed.
Lemma stack_dims szf name ds v d :
  In d (vdims (vstack szf name ds v)) ->
  (In d (vdims v) /\ ~ (In d ds)) \/ (d = name /\ exists c, In c ds /\ In c (vdims v)).
Proof.
  unfold vstack. destruct (existsb (fun d => memb d (vdims v)) ds) eqn:E.
  - cbn [vdims]. intro H. apply in_app_or in H as [H|H].
    + left. apply filter_In in H as [H M]. apply stack_full in H.
      destruct (memb d ds) eqn:M2; [discriminate|]. apply memb_out in M2. tauto.
    + right. simpl in H. destruct H as [H|[]]. split; [auto|].
      apply existsb_exists in E as (c & Hc & Mc). exists c. split; [exact Hc|apply memb_in; exact Mc].
  - intro H. left. split; [exact H|]. intro D.
    assert (existsb (fun d => memb d (vdims v)) ds = true); [|congruence].
    apply existsb_exists. exists d. split; [exact D|apply memb_in; exact H].
Qed.
Lemma stack_dims_in szf name ds v d : In d (vdims v) -> ~ In d ds -> In d (vdims (vstack szf name ds v)).
Proof.
  intros H D. unfold vstack. destruct (existsb (fun d => memb d (vdims v)) ds); [|exact H].
  cbn [vdims]. apply in_or_app. left. apply filter_In. split; [apply stack_full; auto|].
  apply memb_out in D. rewrite D. reflexivity.
Qed.
Lemma stack_dims_name szf name ds v c : In c ds -> In c (vdims v) -> In name (vdims (vstack szf name ds v)).
Proof.
  intros H D. unfold vstack. replace (existsb (fun d => memb d (vdims v)) ds) with true.
  - cbn [vdims]. apply in_or_app. right. left. reflexivity.
  - symmetry. apply existsb_exists. exists c. split; [exact H|apply memb_in; exact D].
Qed.

(** *** Unstacking one variable *)
Definition stacked_at (szf : string -> nat) (name : string) (ds : list string) (ix : string -> nat) : string -> nat :=
  fun d => if String.eqb d name then ravel (map szf ds) (map ix ds) else ix d.

Lemma at_unstack szf name ds v v' ix pre :
  vdims v = pre ++ [name] -> ~ In name pre -> szf name = size_of (map szf ds) ->
  (forall d, In d (pre ++ ds) -> ix d < szf d) ->
  vunstack szf name ds v = Ok v' ->
  vdims v' = pre ++ ds /\ at_ v' ix = at_ v (stacked_at szf name ds ix).
Proof.
  intros Hv Hp Hsz R E. unfold vunstack in E.
  assert (M : memb name (vdims v) = true) by (apply memb_in; rewrite Hv; apply in_or_app; right; left; reflexivity).
  rewrite M in E. rewrite Hv in E. rewrite removelast_last, last_last in E.
  rewrite Hsz, Nat.eqb_refl in E. injection E as <-. split; [reflexivity|].
  unfold at_. cbn [vdims vat]. unfold reshape. rewrite !map_app.
  rewrite ravel_app by (apply within_map; intros; apply R; apply in_or_app; auto).
  cbn [map]. rewrite Hsz.
  assert (W2 : within (map szf ds) (map ix ds)) by (apply within_map; intros; apply R; apply in_or_app; auto).
  pose proof (ravel_lt _ _ W2) as L.
  rewrite <- (size_one (size_of (map szf ds))) at 2.
  rewrite unravel_app by (try rewrite size_one; auto; apply within_map; intros; apply R; apply in_or_app; auto).
  rewrite unravel_one. f_equal. rewrite Hv, map_app. cbn [map]. f_equal.
  - apply map_ext_in. intros d H. unfold stacked_at. destruct (String.eqb d name) eqn:Q; [|reflexivity].
    apply String.eqb_eq in Q. subst. tauto.
  - unfold stacked_at. rewrite String.eqb_refl. reflexivity.
Qed.
