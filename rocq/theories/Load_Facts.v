(** Labelled arithmetic and the height flip. *)
From Verif Require Import Load_Spec Xds_Proofs Xds_Stack Xds_Round Xds_Ops Xds_Fields Mom_Facts.
Local Open Scope string_scope.
Local Open Scope list_scope.

Lemma at_vmap f v ix : at_ (vmap f v) ix = f (at_ v ix).
Proof. reflexivity. Qed.
Lemma vbin_dims f v w d : In d (vdims (vbin f v w)) <-> In d (vdims v) \/ In d (vdims w).
Proof.
  unfold vbin. cbn [vdims]. rewrite in_app_iff, filter_In. split.
  - tauto.
  - intros [H|H]; [tauto|]. destruct (memb d (vdims v)) eqn:E; [left; apply memb_in; exact E|].
    right. split; [exact H|reflexivity].
Qed.
Lemma at_vbin f v w ix : at_ (vbin f v w) ix = f (at_ v ix) (at_ w ix).
Proof.
  unfold at_ at 1. cbn [vbin vat]. set (D := vdims (vbin f v w)). change (vdims v ++ _) with D.
  assert (I : forall u, (forall d, In d (vdims u) -> In d D) ->
     map (fun d => index_of d D (map ix D)) (vdims u) = map ix (vdims u)).
  { intros u H. apply map_ext_in. intros d Hd. apply index_of_map. auto. }
  rewrite (I v), (I w); [reflexivity| |]; intros d H; apply vbin_dims; auto.
Qed.
Lemma at_vpos x f v w u ix : vpos x f v w = Ok u -> vdims v = vdims w ->
  vdims u = vdims v /\ at_ u ix = f (at_ v ix) (at_ w ix).
Proof.
  unfold vpos. destruct (list_eq_dec _ _ _); [|discriminate]. intros [= <-] E. split; [reflexivity|].
  unfold at_. cbn [vdims vat]. rewrite E. reflexivity.
Qed.
Lemma vpos_ok x f v w : vdims v = vdims w -> vpos x f v w = Ok {| vdims := vdims v; vat := fun ix => f (vat v ix) (vat w ix) |}.
Proof. intro E. unfold vpos, shape. rewrite E. destruct (list_eq_dec _ _ _); [reflexivity|tauto]. Qed.

Lemma at_vflip n d v ix : at_ (vflip n d v) ix = at_ v (fun c => if String.eqb c d then n - 1 - ix c else ix c).
Proof.
  unfold vflip. destruct (memb d (vdims v)) eqn:M.
  - unfold at_. cbn [vdims vat]. f_equal. apply map_ext_in. intros c Hc.
    rewrite (index_of_map ix c) by exact Hc. reflexivity.
  - apply at_ext. intros c Hc. destruct (String.eqb c d) eqn:E; [|reflexivity].
    apply String.eqb_eq in E. subst c. apply memb_out in M. tauto.
Qed.
Lemma vflip_dims n d v : vdims (vflip n d v) = vdims v.
Proof. unfold vflip. destruct (memb d (vdims v)); reflexivity. Qed.

Lemma getv_var x k v : field x k v -> ~ In k (map fst (coords x)) -> getv x k = Ok v.
Proof.
  intros F N. unfold getv, all_vars. rewrite assoc_app, (assoc_none _ _ N). rewrite F. reflexivity.
Qed.
Lemma put_same {A} (l : list (string * A)) k v : assoc (put l k v) k = Some v.
Proof.
  induction l as [|[x w] l IH]; simpl; [rewrite String.eqb_refl; reflexivity|].
  destruct (String.eqb x k) eqn:E; simpl; [rewrite String.eqb_refl; reflexivity|rewrite E; exact IH].
Qed.
Lemma put_other {A} (l : list (string * A)) k k' v : k' <> k -> assoc (put l k v) k' = assoc l k'.
Proof.
  intro N. induction l as [|[x w] l IH]; simpl.
  - rewrite eqb_f by congruence. reflexivity.
  - destruct (String.eqb x k) eqn:E; simpl.
    + apply String.eqb_eq in E. subst x. rewrite eqb_f by congruence. reflexivity.
    + rewrite IH. reflexivity.
Qed.
Lemma set_same x k v : field (setv x k v) k v.
Proof. apply put_same. Qed.
Lemma set_other x k k' v : k' <> k -> assoc (vars (setv x k v)) k' = assoc (vars x) k'.
Proof. apply put_other. Qed.
Lemma vtranspose_ok o v : (forall d, In d o <-> In d (vdims v)) -> vtranspose o v = Ok (vtrans o v).
Proof. intro H. unfold vtranspose. rewrite same_set_true by exact H. reflexivity. Qed.

(** *** Stacking a file *)
Record stacked_like (m m3 : mobj) (g : var -> var) : Prop := {
  sl_vars : vars (mds m3) = on_vals g (vars (mds m));
  sl_height : height_dim m3 = height_dim m;
  sl_coords : forall k, In k (map fst (coords (mds m3))) -> In k (map fst (coords (mds m))) \/
     In k ["time_lat_lon"; (time_dim m ++ "_tmp")%string; (lat_dim m ++ "_tmp")%string; (lon_dim m ++ "_tmp")%string];
  sl_dims_eq : forall v w, vdims v = vdims w -> vdims (g v) = vdims (g w);
  sl_nil : forall v, vdims v = [] -> vdims (g v) = [];
  sl_one : forall v, vdims v = [height_dim m] -> vdims (g v) = [height_dim m];
  sl_union : forall T PS, (forall d, In d (vdims T) <-> In d (vdims PS) \/ d = height_dim m) ->
     forall d, In d (vdims (g T)) <-> In d (vdims (g PS)) \/ d = height_dim m;
  sl_time : forall v, In (time_dim m) (vdims v) -> In (time_dim m3) (vdims (g v));
  sl_h : forall v, In (height_dim m) (vdims v) -> In (height_dim m) (vdims (g v));
  sl_tn : time_dim m3 <> height_dim m;
  sl_sub : time_dim m <> "subcolumn" -> time_dim m3 <> "subcolumn";
  sl_at : forall k v ix, field (mds m) k v -> inside (mds m) ix ->
     at_ (g v) (fun d => if string_dec d "time_lat_lon" then stack_position m ix else ix d) = at_ v ix;
  sl_lev : forall v, assoc (coords (mds m)) (height_dim m) = Some v -> vdims v = [height_dim m] ->
     assoc (coords (mds m3)) (height_dim m) = Some v \/
     exists v', assoc (coords (mds m3)) (height_dim m) = Some v' /\ forall ix, at_ v' ix = at_ v ix;
  sl_sz : forall k v d, field (mds m) k v -> In d (vdims (g v)) ->
     sz (mds m3) d = if string_dec d "time_lat_lon" then stack_size m else sz (mds m) d
}.
