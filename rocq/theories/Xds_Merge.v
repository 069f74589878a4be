(** Loading saved subcolumn fields into a dataset: what is kept, what is
    filled, what conflicts. *)
From Verif Require Import Np Xr Xr_Facts Xds_Spec Xds_Stack Xds_Fields.
From Verif Require Gen_Facts Xds_Witness.
Local Open Scope string_scope.
Local Open Scope list_scope.

Lemma in_positions szf : forall dims (ix : string -> nat), (forall d, In d dims -> ix d < szf d) ->
  In (map ix dims) (positions (map szf dims)).
Proof.
  induction dims as [|d dims IH]; intros ix H; [left; reflexivity|]. cbn [map positions].
  apply in_flat_map. exists (ix d). split.
  - apply in_seq. specialize (H d (or_introl eq_refl)). lia.
  - apply in_map. apply IH. intros d' I. apply H. right. exact I.
Qed.
Lemma xeqb_same a b : xeqb a b = true -> a = b.
Proof.
  destruct a as [x| | |], b as [y| | |]; simpl; try discriminate; try reflexivity.
  unfold Reqb. destruct (Req_EM_T x y); [intros _; f_equal; assumption|discriminate].
Qed.
Lemma merge_var_inv szf v w u : merge_var szf v w = Ok u ->
  vdims v = vdims w /\ vdims u = vdims v /\ (forall ix, at_ u ix = first_known (at_ v ix) (at_ w ix)) /\
  (forall ix, (forall d, In d (vdims v) -> ix d < szf d) -> compatible (at_ v ix) (at_ w ix)).
Proof.
  unfold merge_var. destruct (list_eq_dec string_dec (vdims v) (vdims w)) as [D|]; [|discriminate]. cbn [andb].
  destruct (forallb _ _) eqn:F; [|discriminate]. intro Q. injection Q as <-. cbn [vdims].
  split; [exact D|]. split; [reflexivity|]. split.
  - intro ix. unfold at_. cbn [vdims vat]. rewrite <- D. destruct (vat v (map ix (vdims v))); reflexivity.
  - intros ix H. rewrite forallb_forall in F. specialize (F _ (in_positions szf _ ix H)).
    unfold at_. rewrite <- D. unfold compatible. rewrite !Bool.orb_true_iff in F. destruct F as [[F|F]|F].
    + left. destruct (vat v _); simpl in F; congruence.
    + right. left. destruct (vat w _); simpl in F; congruence.
    + right. right. apply xeqb_same. exact F.
Qed.
Lemma merge_vars_inv szf f : NoDup (map fst f) -> forall l l', merge_vars szf l f = Ok l' ->
  (forall k, ~ In k (map fst f) -> assoc l' k = assoc l k) /\
  (forall k w, In (k, w) f -> match assoc l k with
     | None => assoc l' k = Some w
     | Some v => exists u, assoc l' k = Some u /\ merge_var szf v w = Ok u end).
Proof.
  induction f as [|[k w] f IH]; intros N l l' H; cbn [merge_vars] in H.
  - injection H as <-. split; [reflexivity|intros ? ? []].
  - inversion N as [|? ? N1 N2]; subst. cbn [map fst] in *.
    destruct (match assoc l k with None => Ok w | Some v => merge_var szf v w end) as [u|] eqn:E; [|discriminate].
    cbn [bind] in H. destruct (IH N2 _ _ H) as [A B]. split.
    + intros k' Nk. rewrite A by (intro; apply Nk; right; assumption).
      apply Gen_Facts.assoc_put_other. intros ->. apply Nk. left. reflexivity.
    + intros k' w' [I|I].
      * injection I as <- <-. specialize (A k N1). rewrite Gen_Facts.assoc_put_same in A.
        destruct (assoc l k) as [v|]; [exists u; auto|congruence].
      * specialize (B k' w' I).
        assert (k' <> k) by (intros ->; apply N1; apply in_map_iff; exists (k, w'); auto).
        rewrite Gen_Facts.assoc_put_other in B by assumption. exact B.
Qed.
Lemma load_inv m file z : load_subcolumns m file = Ok z ->
  exists cs, merge_vars (sz file) (coords (mds m)) (coords file) = Ok cs /\
  merge_vars (sz file) (vars (mds m)) (vars file) = Ok (vars (mds z)).
Proof.
  unfold load_subcolumns. destruct (forallb _ _); [|discriminate].
  destruct (merge_vars _ (coords _) _) as [cs|]; [|discriminate]. cbn [bind].
  destruct (merge_vars _ (vars _) _) as [vs|] eqn:E; [|discriminate]. cbn [bind]. intro Q. injection Q as <-.
  exists cs. auto.
Qed.

(** Every field afterwards. *)
Lemma load_keeps m file z : NoDup (map fst (vars file)) -> load_subcolumns m file = Ok z ->
  (forall k v, field (mds m) k v -> (forall w, ~ field file k w) -> field (mds z) k v) /\
  (forall k w, field file k w -> (forall v, ~ field (mds m) k v) -> field (mds z) k w) /\
  (forall k v w, field (mds m) k v -> field file k w ->
     exists u, field (mds z) k u /\ vdims u = vdims v /\ vdims w = vdims v /\
       (forall ix, at_ u ix = first_known (at_ v ix) (at_ w ix)) /\
       (forall ix, (forall d, In d (vdims v) -> ix d < sz file d) -> compatible (at_ v ix) (at_ w ix))) /\
  (forall k u, field (mds z) k u -> (exists v, field (mds m) k v) \/ (exists w, field file k w)).
Proof.
  intros N H. apply load_inv in H as (cs & _ & H). destruct (merge_vars_inv _ _ N _ _ H) as [A B]. clear cs.
  assert (NF : forall k, (forall w, ~ field file k w) -> ~ In k (map fst (vars file))).
  { intros k F I. apply in_map_iff in I as ([k' w] & E & I). cbn [fst] in E. subst k'.
    apply (F w). unfold field. apply assoc_in_nodup; assumption. }
  split; [|split; [|split]].
  - intros k v V F. unfold field in *. rewrite A by (apply NF; exact F). exact V.
  - intros k w W F. specialize (B k w (assoc_mem _ _ _ W)). unfold field in *.
    destruct (assoc (vars (mds m)) k) as [v|]; [exfalso; apply (F v); reflexivity|exact B].
  - intros k v w V W. specialize (B k w (assoc_mem _ _ _ W)). unfold field in *. rewrite V in B.
    destruct B as (u & U & M). exists u. apply merge_var_inv in M as (M1 & M2 & M3 & M4). auto 6.
  - intros k u U. destruct (in_dec string_dec k (map fst (vars file))) as [I|I].
    + right. apply in_map_iff in I as ([k' w] & E & I). cbn [fst] in E. subst k'. exists w. unfold field. apply assoc_in_nodup; assumption.
    + left. exists u. unfold field in *. rewrite <- (A k I). exact U.
Qed.
Lemma load_conflict m file k v w ix : NoDup (map fst (vars file)) -> field (mds m) k v -> field file k w ->
  (forall d, In d (vdims v) -> ix d < sz file d) -> ~ compatible (at_ v ix) (at_ w ix) ->
  exists x, load_subcolumns m file = Raise x.
Proof.
  intros N V W I C. destruct (load_subcolumns m file) as [z|x] eqn:E; [|exists x; reflexivity]. exfalso.
  destruct (load_keeps m file z N E) as (_ & _ & K & _). destruct (K k v w V W) as (u & _ & _ & _ & _ & Q). apply C, Q, I.
Qed.
(** And it succeeds when nothing conflicts. *)
Lemma merge_var_ok szf v w : vdims v = vdims w ->
  (forall l, In l (positions (map szf (vdims v))) -> compatible (vat v l) (vat w l)) -> exists u, merge_var szf v w = Ok u.
Proof.
  intros D C. unfold merge_var. destruct (list_eq_dec string_dec (vdims v) (vdims w)); [|tauto]. cbn [andb].
  replace (forallb _ _) with true; [eexists; reflexivity|]. symmetry. apply forallb_forall. intros l I.
  destruct (C l I) as [Q|[Q|Q]]; rewrite Q.
  - reflexivity.
  - destruct (isnan (vat v l)); reflexivity.
  - destruct (vat w l) as [r| | |]; simpl; try reflexivity. unfold Reqb. destruct (Req_EM_T r r); [reflexivity|tauto].
Qed.

(** A field known at the first of two positions, and a file that knows the
    second, or contradicts the first. *)
Definition mg_var (a b : xr) : var := {| vdims := ["x"]; vat := fun l => match l with [0] => a | _ => b end |}.
Definition mg_ds (a b : xr) : xds := {| sz := fun _ => 2; coords := []; vars := [("Ze_tot", mg_var a b)] |}.
Lemma mg_case : exists z u,
  load_subcolumns (with_ds (Xds_Witness.wd 3) (mg_ds (XF 1) XNaN)) (mg_ds XNaN (XF 5)) = Ok z /\
  field (mds z) "Ze_tot" u /\ at_ u (fun _ => 0) = XF 1 /\ at_ u (fun _ => 1) = XF 5 /\
  exists x, load_subcolumns (with_ds (Xds_Witness.wd 3) (mg_ds (XF 1) XNaN)) (mg_ds (XF 2) (XF 5)) = Raise x.
Proof.
  eexists _, _. split; [reflexivity|]. split; [reflexivity|]. split; [reflexivity|]. split; [reflexivity|].
  apply (load_conflict _ _ "Ze_tot" (mg_var (XF 1) XNaN) (mg_var (XF 2) (XF 5)) (fun _ => 0)).
  - repeat constructor; intros [].
  - reflexivity.
  - reflexivity.
  - intros d _. simpl. lia.
  - unfold compatible, at_. simpl. intros [Q|[Q|Q]]; try discriminate. injection Q as Q. lra.
Qed.
