(** Stacking and unstacking of whole datasets. *)
From Verif Require Import Xds_Model Xds_Spec Xds_Proofs.
From Verif Require Mom_Facts Gen_Facts.
Local Open Scope string_scope.
Local Open Scope list_scope.

(** *** Association lists *)
Lemma assoc_on_vals f l k : assoc (on_vals f l) k = option_map f (assoc l k).
Proof. unfold on_vals. induction l as [|[x v] l IH]; simpl; [reflexivity|]. destruct (String.eqb x k); auto. Qed.
Lemma in_on_vals f l k v : In (k, v) (on_vals f l) <-> exists w, In (k, w) l /\ v = f w.
Proof.
  unfold on_vals. rewrite in_map_iff. split.
  - intros ([x w] & E & H). simpl in E. injection E as <- <-. eauto.
  - intros (w & H & ->). exists (k, w). auto.
Qed.
Lemma assoc_mem {A} (l : list (string * A)) k v : assoc l k = Some v -> In (k, v) l.
Proof.
  induction l as [|[x w] l IH]; simpl; [discriminate|].
  destruct (String.eqb x k) eqn:E; intro H.
  - apply String.eqb_eq in E. injection H as ->. subst. auto.
  - right. auto.
Qed.
Lemma assoc_filter {A} (f : string * A -> bool) l k v :
  assoc l k = Some v -> f (k, v) = true -> assoc (filter f l) k = Some v.
Proof.
  induction l as [|[x w] l IH]; simpl; [discriminate|].
  destruct (String.eqb x k) eqn:E; intros H F.
  - apply String.eqb_eq in E. injection H as ->. subst. rewrite F. simpl. rewrite String.eqb_refl. reflexivity.
  - destruct (f (x, w)); simpl; [rewrite E|]; auto.
Qed.

Lemma in_all_vars x k v : In (k, v) (all_vars x) <-> In (k, v) (coords x) \/ In (k, v) (vars x).
Proof. apply in_app_iff. Qed.
Lemma field_dims x k v d : field x k v -> In d (vdims v) -> In d (all_dims x).
Proof.
  intros F D. apply in_dims. exists k, v. split; [|exact D]. apply in_all_vars. right. apply assoc_mem. exact F.
Qed.

(** *** Transposing a dataset *)
Lemma in_on_ds f x k v : In (k, v) (all_vars (on_ds f x)) <-> exists w, In (k, w) (all_vars x) /\ v = f w.
Proof.
  rewrite in_all_vars. cbn [on_ds coords vars]. rewrite !in_on_vals. split.
  - intros [(w & H & E)|(w & H & E)]; exists w; rewrite in_all_vars; auto.
  - intros (w & H & E). apply in_all_vars in H as [H|H]; eauto.
Qed.
Lemma trans_all_dims order x d : incl (all_dims x) order ->
  In d (all_dims (on_ds (vtrans order) x)) <-> In d (all_dims x).
Proof.
  intro I. rewrite !in_dims. split.
  - intros (k & v & H & D). apply in_on_ds in H as (w & H & ->). apply trans_dims in D as [_ D]. eauto.
  - intros (k & v & H & D). exists k, (vtrans order v). split; [apply in_on_ds; eauto|].
    apply trans_dims. split; [|exact D]. apply I. apply in_dims. eauto.
Qed.

Definition base_of (m : mobj) (b : list string) : list string :=
  if has_dim (mds m) "subcolumn" then "subcolumn" :: b else b.
Definition others_of (m : mobj) (b : list string) : list string :=
  filter (fun d => negb (memb d ("subcolumn" :: b))) (all_dims (mds m)).
Definition order_of (m : mobj) (b : list string) (first : bool) : list string :=
  if first then base_of m b ++ others_of m b else others_of m b ++ base_of m b.

Lemma order_in m b first d : incl b (all_dims (mds m)) ->
  In d (order_of m b first) <-> In d (all_dims (mds m)).
Proof.
  intro I.
  assert (B : In d (base_of m b) <-> (In d b \/ (d = "subcolumn" /\ In d (all_dims (mds m))))).
  { unfold base_of. destruct (has_dim (mds m) "subcolumn") eqn:E.
    - apply has_dim_in in E. simpl. split; [intros [<-|H]; auto|intros [H|[-> H]]; auto].
    - split; [auto|]. intros [H|[-> H]]; [exact H|]. apply has_dim_in in H. congruence. }
  assert (O : In d (others_of m b) <-> In d (all_dims (mds m)) /\ d <> "subcolumn" /\ ~ In d b).
  { unfold others_of. rewrite filter_In. split.
    - intros [H M]. destruct (memb d ("subcolumn" :: b)) eqn:E; [discriminate|].
      apply memb_out in E. simpl in E. split; [exact H|]. split; [intro; subst; tauto|tauto].
    - intros (H & N & M). split; [exact H|].
      assert (E : memb d ("subcolumn" :: b) = false) by (apply memb_out; simpl; intros [E|E]; [subst; tauto|tauto]).
      rewrite E. reflexivity. }
  assert (G : In d (order_of m b first) <-> In d (base_of m b) \/ In d (others_of m b)).
  { unfold order_of. destruct first; rewrite in_app_iff; tauto. }
  rewrite G, B, O. split.
  - intros [[H|[_ H]]|[H _]]; auto.
  - intro H. destruct (string_dec d "subcolumn") as [E|E]; [tauto|].
    destruct (in_dec string_dec d b); tauto.
Qed.
Lemma order_nodup m b first : NoDup b -> ~ In "subcolumn" b -> NoDup (order_of m b first).
Proof.
  intros N S.
  assert (NB : NoDup (base_of m b)) by (unfold base_of; destruct (has_dim _ _); [constructor|]; assumption).
  assert (NO : NoDup (others_of m b)) by (apply NoDup_filter, NoDup_nodup).
  assert (D : forall d, In d (base_of m b) -> In d (others_of m b) -> False).
  { intros d H1 H2. apply filter_In in H2 as [_ H2].
    destruct (memb d ("subcolumn" :: b)) eqn:E; [discriminate|]. apply memb_out in E. apply E.
    unfold base_of in H1. destruct (has_dim _ _); [exact H1|right; exact H1]. }
  unfold order_of. destruct first.
  - clear NO NB. assert (NB : NoDup (base_of m b)) by (unfold base_of; destruct (has_dim _ _); [constructor|]; assumption).
    assert (NO : NoDup (others_of m b)) by (apply NoDup_filter, NoDup_nodup).
    induction (base_of m b) as [|y l IH]; [exact NO|]. inversion NB; subst. simpl. constructor.
    + rewrite in_app_iff. intros [H|H]; [tauto|]. apply (D y); simpl; auto.
    + apply IH; auto. intros d H1' H2'. apply (D d); simpl; auto.
  - induction (others_of m b) as [|y l IH]; [exact NB|]. inversion NO; subst. simpl. constructor.
    + rewrite in_app_iff. intros [H|H]; [tauto|]. apply (D y); simpl; auto.
    + apply IH; auto. intros d H1' H2'. apply (D d); simpl; auto.
Qed.
Lemma same_set_true a b : (forall d, In d a <-> In d b) -> same_set a b = true.
Proof.
  intro H. unfold same_set. apply andb_true_intro. split; apply forallb_forall; intros d D;
    apply memb_in; apply H; exact D.
Qed.
Lemma permute_ok m bo first : let b := match bo with None => [time_dim m; height_dim m] | Some b => b end in
  incl b (all_dims (mds m)) ->
  permute_dims m bo first = Ok (with_ds m (on_ds (vtrans (order_of m b first)) (mds m))).
Proof.
  intros b I. unfold permute_dims. fold b.
  change (filter _ (all_dims (mds m))) with (others_of m b).
  change (if has_dim (mds m) "subcolumn" then _ else _) with (base_of m b).
  change (if first then _ else _) with (order_of m b first).
  unfold transpose. rewrite same_set_true; [reflexivity|]. intro d. apply order_in. exact I.
Qed.
Lemma permute_field m b first k v : incl b (all_dims (mds m)) -> field (mds m) k v ->
  field (on_ds (vtrans (order_of m b first)) (mds m)) k (vtrans (order_of m b first) v) /\
  (forall d, In d (vdims (vtrans (order_of m b first) v)) <-> In d (vdims v)) /\
  forall ix, at_ (vtrans (order_of m b first) v) ix = at_ v ix.
Proof.
  intros I F. split; [|split].
  - unfold field, on_ds. cbn [vars]. rewrite assoc_on_vals. unfold field in F. rewrite F. reflexivity.
  - intro d. rewrite trans_dims. split; [tauto|]. intro H. split; [|exact H].
    apply order_in; [exact I|]. eapply field_dims; eauto.
  - intro ix. apply at_trans. intros d H. apply order_in; [exact I|]. eapply field_dims; eauto.
Qed.

(** *** Renaming *)
Lemma at_rename a b v ix : at_ {| vdims := map (rn a b) (vdims v); vat := vat v |} ix = at_ v (fun d => ix (rn a b d)).
Proof. unfold at_. cbn [vdims vat]. rewrite map_map. reflexivity. Qed.
Lemma rename_field a b x k v : ~ In a (map fst (vars x)) -> field x k v ->
  field (rename a b x) k {| vdims := map (rn a b) (vdims v); vat := vat v |}.
Proof.
  unfold field, rename. cbn [vars]. induction (vars x) as [|[y w] l IH]; simpl; [discriminate|].
  intros N H. replace (rn a b y) with y.
  - destruct (String.eqb y k); [injection H as ->; reflexivity|]. apply IH; tauto.
  - unfold rn. destruct (String.eqb y a) eqn:E; [|reflexivity]. apply String.eqb_eq in E. subst. tauto.
Qed.
Lemma rename_keys a b x : ~ In a (map fst (vars x)) -> map fst (vars (rename a b x)) = map fst (vars x).
Proof.
  unfold rename. cbn [vars]. intro N. rewrite map_map. apply map_ext_in. intros [y w] H. simpl.
  unfold rn. destruct (String.eqb y a) eqn:E; [|reflexivity]. apply String.eqb_eq in E. subst.
  exfalso. apply N. apply in_map_iff. exists (a, w). auto.
Qed.
Lemma in_rename_dims a b x k v : In (k, v) (all_vars x) ->
  In (rn a b k, {| vdims := map (rn a b) (vdims v); vat := vat v |}) (all_vars (rename a b x)).
Proof.
  intro H. apply in_all_vars. apply in_all_vars in H. cbn [rename coords vars].
  destruct H as [H|H]; [left|right]; apply in_map_iff; exists (k, v); auto.
Qed.
Lemma rename_dim_in a b x d : In d (all_dims x) -> In (rn a b d) (all_dims (rename a b x)).
Proof.
  rewrite !in_dims. intros (k & v & H & D). exists (rn a b k). eexists. split; [apply in_rename_dims; exact H|].
  cbn [vdims]. apply in_map. exact D.
Qed.
Lemma rn_other a b d : d <> a -> rn a b d = d.
Proof. intro N. unfold rn. destruct (String.eqb d a) eqn:E; [apply String.eqb_eq in E; tauto|reflexivity]. Qed.
Lemma rn_same a b : rn a b a = b.
Proof. unfold rn. rewrite String.eqb_refl. reflexivity. Qed.

(** *** Unstacking all fields *)
Lemma vunstack_all_spec szf name ds l :
  (forall k v, In (k, v) l -> exists v', vunstack szf name ds v = Ok v') ->
  exists l', vunstack_all szf name ds l = Ok l' /\ map fst l' = map fst l /\
    (forall k v, assoc l k = Some v -> exists v', vunstack szf name ds v = Ok v' /\ assoc l' k = Some v') /\
    (forall k v', In (k, v') l' -> exists v, In (k, v) l /\ vunstack szf name ds v = Ok v') /\
    (forall k v, In (k, v) l -> exists v', vunstack szf name ds v = Ok v' /\ In (k, v') l').
Proof.
  induction l as [|[x w] l IH]; intro H.
  - exists []. repeat split; simpl; try tauto; discriminate.
  - destruct IH as (l' & E & K & A & B & C); [intros; eapply H; right; eassumption|].
    destruct (H x w (or_introl eq_refl)) as (w' & Ew). exists ((x, w') :: l').
    cbn [vunstack_all]. rewrite Ew. cbn [bind]. rewrite E. cbn [bind]. split; [reflexivity|].
    split; [simpl; rewrite K; reflexivity|]. split; [|split].
    + intros k v. simpl. destruct (String.eqb x k); [intro Q; injection Q as <-; eauto|apply A].
    + intros k v' [Q|Q]; [injection Q as <- <-; exists w; simpl; auto|].
      destruct (B k v' Q) as (v & ? & ?). exists v. simpl. auto.
    + intros k v [Q|Q]; [injection Q as <- <-; exists w'; simpl; auto|].
      destruct (C k v Q) as (v' & ? & ?). exists v'. simpl. auto.
Qed.

(** The dimensions that [unstack] restores. *)
Definition tmps (m : mobj) (t0 : string) (lon : bool) : list string :=
  if lon then [lat_dim m ++ "_tmp"; lon_dim m ++ "_tmp"; t0 ++ "_tmp"]%string
  else [lat_dim m ++ "_tmp"; t0 ++ "_tmp"]%string.
(** Row-major position of a column. *)
Definition column_of (m : mobj) (t0 : string) (lon : bool) (ix : string -> nat) : nat :=
  let s d := sz (mds m) (d ++ "_tmp")%string in
  if lon then (ix (lat_dim m) * s (lon_dim m) + ix (lon_dim m)) * s t0 + ix t0
  else ix (lat_dim m) * s t0 + ix t0.

(** What [unstack] needs of a stacked model. *)
Record stacked (m : mobj) (t0 : string) (lon : bool) : Prop := {
  sk_t0 : stacked_time_dim m = Some t0;
  sk_names : NoDup [time_dim m; height_dim m; lat_dim m; lon_dim m; "subcolumn"; t0;
                    (t0 ++ "_tmp")%string; (lat_dim m ++ "_tmp")%string; (lon_dim m ++ "_tmp")%string];
  sk_time : In (time_dim m) (all_dims (mds m));
  sk_height : exists k v, In (k, v) (vars (mds m)) /\ In (height_dim m) (vdims v);
  sk_tmp : forall d, In d (tmps m t0 lon) ->
             (exists v, assoc (coords (mds m)) d = Some v /\ vdims v = [d]) /\ ~ In d (map fst (vars (mds m))) /\
             (forall k v, In (k, v) (vars (mds m)) -> ~ In d (vdims v));
  sk_gone : forall k v d, In (k, v) (vars (mds m)) -> In d [t0; lat_dim m; lon_dim m] -> ~ In d (vdims v);
  sk_lon : lon = false -> assoc (coords (mds m)) (lon_dim m ++ "_tmp")%string = None;
  sk_size : sz (mds m) (time_dim m) = size_of (map (sz (mds m)) (tmps m t0 lon))
}.

Ltac dist H := (* from NoDup of a literal list *)
  repeat match type of H with NoDup (_ :: _) => inversion_clear H as [|? ? ?NI ?ND]; rename ND into H end.

Lemma unstack_spec m t0 lon order_dim squeeze : stacked m t0 lon ->
  exists m', unstack m order_dim squeeze = Ok m' /\
    time_dim m' = t0 /\ stacked_time_dim m' = None /\ height_dim m' = height_dim m /\
    lat_dim m' = lat_dim m /\ lon_dim m' = lon_dim m /\
    forall k v, field (mds m) k v -> exists v', field (mds m') k v' /\
      (forall d, In d (vdims v') -> In d (vdims v) /\ d <> time_dim m \/ In (time_dim m) (vdims v) /\ In d [lat_dim m; lon_dim m; t0]) /\
      forall ix, (forall d, In d (vdims v) -> d <> time_dim m -> ix d < sz (mds m) d) ->
        (In (time_dim m) (vdims v) -> ix (lat_dim m) < sz (mds m) (lat_dim m ++ "_tmp")%string /\
           (lon = true -> ix (lon_dim m) < sz (mds m) (lon_dim m ++ "_tmp")%string) /\
           ix t0 < sz (mds m) (t0 ++ "_tmp")%string) ->
        at_ v' ix = at_ v (fun d => if String.eqb d (time_dim m) then column_of m t0 lon ix else ix d).
Proof.
  intros [Ht0 Hn Htime (hk & hv & Hhv & Hhd) Htmp Hgone Hlon Hsize].
  set (b := [height_dim m; time_dim m]).
  assert (Ib : incl b (all_dims (mds m))).
  { intros d [<-|[<-|[]]]; [|exact Htime]. apply in_dims. exists hk, hv. split; [apply in_all_vars; auto|exact Hhd]. }
  unfold unstack. rewrite Ht0. change (Some [height_dim m; time_dim m]) with (Some b). rewrite (permute_ok m (Some b) false Ib). cbn [bind].
  set (o := order_of m b false). set (x := on_ds (vtrans o) (mds m)).
  cbn [with_ds mds time_dim].
  assert (HC : forall d v, assoc (coords (mds m)) d = Some v -> vdims v = [d] ->
    assoc (coords x) d = Some (vtrans o v) /\ vdims (vtrans o v) = [d]).
  { intros d v A D. split; [unfold x, on_ds; cbn [coords]; rewrite assoc_on_vals, A; reflexivity|].
    assert (IO : In d o).
    { apply order_in; [exact Ib|]. apply in_dims. exists d, v. split; [apply in_all_vars; left; apply assoc_mem; exact A|].
      rewrite D. left. reflexivity. }
    assert (NO : NoDup o).
    { apply order_nodup; unfold b.
      - dist Hn. constructor; [|constructor; [simpl; tauto|constructor]]. simpl in *. intuition congruence.
      - dist Hn. simpl in *. intuition congruence. }
    unfold vtrans. cbn [vdims]. rewrite D. clear - IO NO.
    induction o as [|y l IH]; [destruct IO|]. inversion NO as [|? ? N1 N2]; subst. simpl.
    destruct (String.eqb y d) eqn:E.
    - apply String.eqb_eq in E. subst. simpl. f_equal.
      clear - N1. induction l as [|z l IH]; [reflexivity|]. simpl.
      destruct (String.eqb z d) eqn:E; [apply String.eqb_eq in E; subst; exfalso; apply N1; left; reflexivity|].
      simpl. apply IH. intro. apply N1. right. assumption.
    - simpl. destruct IO as [->|IO]; [rewrite String.eqb_refl in E; discriminate|]. apply IH; assumption. }
  assert (HT : forall d, In d (tmps m t0 lon) -> exists v, assoc (coords x) d = Some v /\ vdims v = [d]).
  { intros d Hd. destruct (Htmp d Hd) as ((v & A & D) & _). exists (vtrans o v). apply HC; assumption. }
  assert (Elon : has_coord x (lon_dim m ++ "_tmp")%string = lon).
  { unfold has_coord. destruct lon.
    - destruct (HT (lon_dim m ++ "_tmp")%string) as (v & -> & _); [simpl; tauto|reflexivity].
    - unfold x, on_ds. cbn [coords]. rewrite assoc_on_vals, (Hlon eq_refl). reflexivity. }
  assert (Elat : has_coord x (lat_dim m ++ "_tmp")%string = true).
  { unfold has_coord. destruct (HT (lat_dim m ++ "_tmp")%string) as (v & -> & _); [destruct lon; simpl; tauto|reflexivity]. }
  assert (Et : has_coord x (t0 ++ "_tmp")%string = true).
  { unfold has_coord. destruct (HT (t0 ++ "_tmp")%string) as (v & -> & _); [destruct lon; simpl; tauto|reflexivity]. }
  rewrite Elon, Elat, Et. cbn [andb negb]. fold (tmps m t0 lon).
  set (ds := tmps m t0 lon) in *.
  (* every field can be unstacked *)
  assert (NO : NoDup o).
  { apply order_nodup; unfold b; dist Hn; [constructor; [|constructor; [simpl; tauto|constructor]]|];
      simpl in *; intuition congruence. }
  assert (Oe : exists o', o = o' ++ [time_dim m] /\ ~ In (time_dim m) o').
  { unfold o, order_of, b, base_of. destruct (has_dim (mds m) "subcolumn") eqn:E.
    - exists (others_of m [height_dim m; time_dim m] ++ ["subcolumn"; height_dim m]).
      rewrite <- app_assoc. simpl. split; [reflexivity|].
      unfold o, order_of, b, base_of in NO. rewrite E in NO.
      replace (others_of m [height_dim m; time_dim m] ++ ["subcolumn"; height_dim m; time_dim m])
        with ((others_of m [height_dim m; time_dim m] ++ ["subcolumn"; height_dim m]) ++ [time_dim m]) in NO
        by (rewrite <- app_assoc; reflexivity).
      apply NoDup_remove_2 in NO. rewrite app_nil_r in NO. exact NO.
    - exists (others_of m [height_dim m; time_dim m] ++ [height_dim m]).
      rewrite <- app_assoc. simpl. split; [reflexivity|].
      unfold o, order_of, b, base_of in NO. rewrite E in NO.
      replace (others_of m [height_dim m; time_dim m] ++ [height_dim m; time_dim m])
        with ((others_of m [height_dim m; time_dim m] ++ [height_dim m]) ++ [time_dim m]) in NO
        by (rewrite <- app_assoc; reflexivity).
      apply NoDup_remove_2 in NO. rewrite app_nil_r in NO. exact NO. }
  destruct Oe as (o' & Oe & On).
  assert (Pre : forall v, In (time_dim m) (vdims v) ->
     exists pre, vdims (vtrans o v) = pre ++ [time_dim m] /\ ~ In (time_dim m) pre).
  { intros v H. exists (filter (fun d => memb d (vdims v)) o'). unfold vtrans. cbn [vdims]. rewrite Oe, filter_app.
    simpl. assert (M : memb (time_dim m) (vdims v) = true) by (apply memb_in; exact H). rewrite M.
    split; [reflexivity|]. rewrite filter_In. tauto. }
  assert (Un : forall v, exists v', vunstack (sz x) (time_dim m) ds (vtrans o v) = Ok v').
  { intro v. unfold vunstack. destruct (memb (time_dim m) (vdims (vtrans o v))) eqn:M; [|eauto].
    apply memb_in, trans_dims in M as [_ M]. destruct (Pre v M) as (pre & -> & _).
    rewrite last_last. unfold x, on_ds. cbn [sz]. fold ds in Hsize. rewrite Hsize, Nat.eqb_refl. eauto. }
  destruct (vunstack_all_spec (sz x) (time_dim m) ds (vars x)) as (vs & Evs & Kvs & Avs & Bvs & Cvs).
  { intros k v H. unfold x, on_ds in H. cbn [vars] in H. apply in_on_vals in H as (w & _ & ->). apply Un. }
  rewrite Evs. cbn [bind].
  set (x1 := drop_dims (time_dim m) {| sz := sz x; coords := coords x; vars := vs |}).
  set (x2 := rename (t0 ++ "_tmp")%string t0 (rename (lat_dim m ++ "_tmp")%string (lat_dim m) x1)).
  set (x3 := if lon then rename (lon_dim m ++ "_tmp")%string (lon_dim m) x2 else x2).
  set (rr := fun d => let d2 := rn (t0 ++ "_tmp")%string t0 (rn (lat_dim m ++ "_tmp")%string (lat_dim m) d) in
                      if lon then rn (lon_dim m ++ "_tmp")%string (lon_dim m) d2 else d2).
  (* the tmp names are not names of fields *)
  assert (Kx : forall d, In d ds -> ~ In d (map fst (vars x1))).
  { intros d Hd H. apply in_map_iff in H as ([k w] & <- & H). cbn [fst] in *.
    unfold x1, drop_dims in H. cbn [vars] in H. apply filter_In in H as [H _].
    apply (in_map fst) in H. rewrite Kvs in H. cbn [fst] in H.
    unfold x, on_ds, on_vals in H. cbn [vars] in H. rewrite map_map in H. cbn [fst] in H.
    destruct (Htmp k Hd) as (_ & N & _). apply N. exact H. }
  assert (F3 : forall k v1, field x1 k v1 -> exists v3, field x3 k v3 /\ vdims v3 = map rr (vdims v1) /\
                 forall ix, at_ v3 ix = at_ v1 (fun d => ix (rr d))).
  { intros k v1 H1.
    assert (N1 : ~ In (lat_dim m ++ "_tmp")%string (map fst (vars x1))) by (apply Kx; destruct lon; simpl; tauto).
    assert (N2 : ~ In (t0 ++ "_tmp")%string (map fst (vars x1))) by (apply Kx; destruct lon; simpl; tauto).
    pose proof (rename_field _ (lat_dim m) _ _ _ N1 H1) as H2.
    pose proof (rename_keys _ (lat_dim m) _ N1) as K2.
    rewrite <- K2 in N2. pose proof (rename_field _ t0 _ _ _ N2 H2) as H3.
    pose proof (rename_keys _ t0 _ N2) as K3.
    unfold x3, rr. destruct lon eqn:El.
    - assert (N3 : ~ In (lon_dim m ++ "_tmp")%string (map fst (vars x2))).
      { unfold x2. rewrite K3, K2. apply Kx. simpl. tauto. }
      pose proof (rename_field _ (lon_dim m) _ _ _ N3 H3) as H4.
      eexists. split; [exact H4|]. cbn [vdims]. split; [rewrite !map_map; reflexivity|].
      intro ix. unfold at_. cbn [vdims vat]. rewrite !map_map. reflexivity.
    - eexists. split; [exact H3|]. cbn [vdims]. split; [rewrite !map_map; reflexivity|].
      intro ix. unfold at_. cbn [vdims vat]. rewrite !map_map. reflexivity. }
  (* names *)
  assert (R : rr (lat_dim m ++ "_tmp")%string = lat_dim m /\ rr (t0 ++ "_tmp")%string = t0 /\
              (lon = true -> rr (lon_dim m ++ "_tmp")%string = lon_dim m) /\
              forall d, d <> (lat_dim m ++ "_tmp")%string -> d <> (t0 ++ "_tmp")%string ->
                (lon = true -> d <> (lon_dim m ++ "_tmp")%string) -> rr d = d).
  { clear - Hn. dist Hn. simpl in *. unfold rr. repeat split.
    - rewrite rn_same. rewrite (rn_other (t0 ++ "_tmp")%string) by intuition congruence.
      destruct lon; [apply rn_other; intuition congruence|reflexivity].
    - rewrite (rn_other (lat_dim m ++ "_tmp")%string) by intuition congruence. rewrite rn_same.
      destruct lon; [apply rn_other; intuition congruence|reflexivity].
    - intros ->. rewrite (rn_other (lat_dim m ++ "_tmp")%string) by intuition congruence.
      rewrite (rn_other (t0 ++ "_tmp")%string) by intuition congruence. apply rn_same.
    - intros d D1 D2 D3. rewrite (rn_other (lat_dim m ++ "_tmp")%string) by assumption.
      rewrite (rn_other (t0 ++ "_tmp")%string) by assumption.
      destruct lon; [apply rn_other; auto|reflexivity]. }
  destruct R as (Rlat & Rt & Rlon & Rid).
  assert (RR : forall d, In d (map rr ds) -> In d [lat_dim m; lon_dim m; t0]).
  { intros d H. apply in_map_iff in H as (y & <- & H). unfold ds, tmps in H. destruct lon; simpl in H.
    - destruct H as [<-|[<-|[<-|[]]]]; [rewrite Rlat|rewrite (Rlon eq_refl)|rewrite Rt]; simpl; auto.
    - destruct H as [<-|[<-|[]]]; [rewrite Rlat|rewrite Rt]; simpl; auto. }
  assert (Rv : forall k v d, In (k, v) (vars (mds m)) -> In d (vdims v) -> rr d = d).
  { intros k v d H D.
    assert (Q : forall c, In c ds -> d <> c).
    { intros c Hc E. subst c. destruct (Htmp d Hc) as (_ & _ & N). exact (N k v H D). }
    apply Rid; [| |intro L]; apply Q; unfold ds, tmps; [destruct lon|destruct lon|rewrite L]; simpl; tauto. }
  assert (Tds : ~ In (time_dim m) ds).
  { clear - Hn. dist Hn. unfold ds, tmps. destruct lon; simpl in *; intuition congruence. }
  (* one field, up to the renaming *)
  assert (F : forall k v, field (mds m) k v -> exists v3, field x3 k v3 /\
     (forall d, In d (vdims v3) -> In d (vdims v) /\ d <> time_dim m \/ In (time_dim m) (vdims v) /\ In d [lat_dim m; lon_dim m; t0]) /\
     (forall d, In d (vdims v) -> d <> time_dim m -> In d (vdims v3)) /\
     forall ix, (forall d, In d (vdims v) -> d <> time_dim m -> ix d < sz (mds m) d) ->
        (In (time_dim m) (vdims v) -> ix (lat_dim m) < sz (mds m) (lat_dim m ++ "_tmp")%string /\
           (lon = true -> ix (lon_dim m) < sz (mds m) (lon_dim m ++ "_tmp")%string) /\
           ix t0 < sz (mds m) (t0 ++ "_tmp")%string) ->
        at_ v3 ix = at_ v (fun d => if String.eqb d (time_dim m) then column_of m t0 lon ix else ix d)).
  { intros k v Fv. pose proof (assoc_mem _ _ _ Fv) as Iv.
    destruct (permute_field m b false k v Ib Fv) as (Fx & Dx & Ax). fold o in Fx, Dx, Ax. fold x in Fx.
    destruct (Avs k _ Fx) as (v' & Ev & Av).
    assert (Inc : incl (vdims v) o) by (intros d H; apply order_in; [exact Ib|]; eapply field_dims; eauto).
    assert (C : (In (time_dim m) (vdims v) /\ exists pre, vdims (vtrans o v) = pre ++ [time_dim m] /\
                  ~ In (time_dim m) pre /\ vdims v' = pre ++ ds) \/
                (~ In (time_dim m) (vdims v) /\ v' = vtrans o v)).
    { destruct (in_dec string_dec (time_dim m) (vdims v)) as [H|H].
      - left. split; [exact H|]. destruct (Pre v H) as (pre & P1 & P2). exists pre. split; [exact P1|].
        split; [exact P2|]. unfold vunstack in Ev.
        assert (M : memb (time_dim m) (vdims (vtrans o v)) = true)
          by (apply memb_in; rewrite P1; apply in_or_app; right; left; reflexivity).
        rewrite M, P1, removelast_last in Ev. destruct (Nat.eqb _ _); [|discriminate].
        injection Ev as <-. reflexivity.
      - right. split; [exact H|]. unfold vunstack in Ev.
        assert (M : memb (time_dim m) (vdims (vtrans o v)) = false)
          by (apply memb_out; rewrite Dx; exact H).
        rewrite M in Ev. injection Ev as <-. reflexivity. }
    assert (Dv : ~ In (time_dim m) (vdims v')).
    { destruct C as [(_ & pre & _ & P2 & ->)|(N & ->)].
      - rewrite in_app_iff. tauto.
      - rewrite Dx. exact N. }
    assert (Fx1 : field x1 k v').
    { unfold field, x1, drop_dims. cbn [vars]. apply assoc_filter; [exact Av|]. cbn [snd].
      apply memb_out in Dv. rewrite Dv. reflexivity. }
    destruct (F3 k v' Fx1) as (v3 & Fx3 & D3 & A3). exists v3. split; [exact Fx3|].
    assert (Dpre : forall pre d, vdims (vtrans o v) = pre ++ [time_dim m] -> ~ In (time_dim m) pre ->
       In d pre -> In d (vdims v) /\ d <> time_dim m).
    { intros pre d P1 P2 H. split; [apply Dx; rewrite P1; apply in_or_app; auto|]. intros ->. tauto. }
    split; [|split].
    - intros d H. rewrite D3 in H. destruct C as [(Hi & pre & P1 & P2 & Pv)|(N & Pv)].
      + rewrite Pv, map_app in H. apply in_app_or in H as [H|H]; [|right; split; [tauto|apply RR; exact H]].
        apply in_map_iff in H as (y & <- & H). destruct (Dpre pre y P1 P2 H) as (Y1 & Y2).
        rewrite (Rv k v y Iv Y1). left. auto.
      + rewrite Pv in H. apply in_map_iff in H as (y & <- & H). apply Dx in H.
        rewrite (Rv k v y Iv H). left. split; [exact H|]. intros ->. tauto.
    - intros d H Nt. rewrite D3. rewrite <- (Rv k v d Iv H). apply in_map.
      destruct C as [(_ & pre & P1 & P2 & Pv)|(N & Pv)].
      + rewrite Pv. apply in_or_app. left. apply Dx in H. rewrite P1 in H.
        apply in_app_or in H as [H|[H|[]]]; [exact H|congruence].
      + rewrite Pv. apply Dx. exact H.
    - intros ix Hix Hc. rewrite A3. destruct C as [(Hin & pre & P1 & P2 & Pv)|(N & Pv)].
      + destruct (Hc Hin) as (L1 & L2 & L3).
        destruct (at_unstack (sz x) (time_dim m) ds (vtrans o v) v' (fun d => ix (rr d)) pre P1 P2) as (_ & EA).
        { exact Hsize. }
        { intros d H. apply in_app_or in H as [H|H].
          - destruct (Dpre pre d P1 P2 H) as (Y1 & Y2). rewrite (Rv k v d Iv Y1). apply Hix; assumption.
          - unfold x, on_ds. cbn [sz]. unfold ds, tmps in H. destruct lon; simpl in H.
            + destruct H as [<-|[<-|[<-|[]]]]; [rewrite Rlat|rewrite (Rlon eq_refl)|rewrite Rt]; auto.
            + destruct H as [<-|[<-|[]]]; [rewrite Rlat|rewrite Rt]; auto. }
        { exact Ev. }
        rewrite EA, Ax. apply at_ext. intros d Hd. unfold stacked_at.
        destruct (String.eqb d (time_dim m)) eqn:E; [|rewrite (Rv k v d Iv Hd); reflexivity].
        unfold column_of, ds, tmps, x, on_ds. cbn [sz]. destruct lon; cbn [map ravel].
        * rewrite Rlat, (Rlon eq_refl), Rt. unfold size_of. cbn [map fold_right]. lia.
        * rewrite Rlat, Rt. unfold size_of. cbn [map fold_right]. lia.
      + rewrite Pv, Ax. apply at_ext. intros d Hd. rewrite (Rv k v d Iv Hd).
        destruct (String.eqb d (time_dim m)) eqn:E; [|reflexivity]. apply String.eqb_eq in E. subst. tauto. }
  (* the final ordering *)
  set (m2 := {| mds := x3; time_dim := t0; height_dim := height_dim m; lat_dim := lat_dim m;
                lon_dim := lon_dim m; stacked_time_dim := None |}).
  assert (I2 : incl [t0; height_dim m] (all_dims x3)).
  { assert (G : forall d, In d (all_dims x1) -> In (rr d) (all_dims x3)).
    { intros d H. unfold x3, rr.
      pose proof (rename_dim_in (t0 ++ "_tmp")%string t0 _ _ (rename_dim_in (lat_dim m ++ "_tmp")%string (lat_dim m) x1 d H)) as H2.
      destruct lon; [apply rename_dim_in; exact H2|exact H2]. }
    intros d [<-|[<-|[]]].
    - rewrite <- Rt. apply G. apply in_dims.
      destruct (HT (t0 ++ "_tmp")%string) as (v & A & D); [destruct lon; simpl; tauto|].
      exists (t0 ++ "_tmp")%string, v. split; [|rewrite D; left; reflexivity].
      apply in_all_vars. left. unfold x1, drop_dims. cbn [coords]. apply filter_In.
      split; [apply assoc_mem; exact A|]. cbn [snd].
      replace (memb (time_dim m) (vdims v)) with false; [reflexivity|].
      symmetry. apply memb_out. rewrite D. intros [E|[]]. apply Tds. rewrite <- E.
      unfold ds, tmps. destruct lon; simpl; tauto.
    - rewrite <- (Rv hk hv (height_dim m) Hhv Hhd). apply G. apply in_dims.
      destruct (Cvs hk (vtrans o hv)) as (v' & Ev & Iv).
      { unfold x, on_ds. cbn [vars]. apply in_on_vals. eauto. }
      assert (Ih : In (height_dim m) (vdims (vtrans o hv))).
      { apply trans_dims. split; [|exact Hhd]. apply order_in; [exact Ib|]. apply Ib. left. reflexivity. }
      assert (Nh : height_dim m <> time_dim m) by (clear - Hn; dist Hn; simpl in *; intuition congruence).
      assert (Q : In (height_dim m) (vdims v') /\ ~ In (time_dim m) (vdims v')).
      { unfold vunstack in Ev. destruct (memb (time_dim m) (vdims (vtrans o hv))) eqn:M.
        - apply memb_in, trans_dims in M as [_ M]. destruct (Pre hv M) as (pre & P1 & P2).
          rewrite P1, removelast_last in Ev. destruct (Nat.eqb _ _); [|discriminate].
          injection Ev as <-. cbn [vdims]. rewrite P1 in Ih. rewrite in_app_iff. rewrite in_app_iff in Ih.
          split; [left; destruct Ih as [?|[?|[]]]; [assumption|congruence]|].
          rewrite in_app_iff. tauto.
        - injection Ev as <-. split; [exact Ih|]. apply memb_out. exact M. }
      exists hk, v'. split; [|apply Q]. apply in_all_vars. right. unfold x1, drop_dims. cbn [vars].
      apply filter_In. split; [exact Iv|]. cbn [snd]. destruct Q as [_ Q]. apply memb_out in Q. rewrite Q. reflexivity. }
  assert (S3 : sz x3 t0 = sz (mds m) (t0 ++ "_tmp")%string /\ sz x3 "subcolumn" = sz (mds m) "subcolumn").
  { clear - Hn. dist Hn. simpl in *.
    assert (E : forall a b, a <> b -> String.eqb a b = false) by (intros ? ? N; apply String.eqb_neq; exact N).
    unfold x3, x2, x1, rename, drop_dims, x, on_ds. destruct lon; cbn [sz]; split.
    - rewrite (E t0 (lon_dim m)) by intuition congruence. rewrite String.eqb_refl.
      rewrite (E (t0 ++ "_tmp")%string (lat_dim m)) by intuition congruence. reflexivity.
    - rewrite (E "subcolumn" (lon_dim m)) by intuition congruence. rewrite (E "subcolumn" t0) by intuition congruence.
      rewrite (E "subcolumn" (lat_dim m)) by intuition congruence. reflexivity.
    - rewrite String.eqb_refl. rewrite (E (t0 ++ "_tmp")%string (lat_dim m)) by intuition congruence. reflexivity.
    - rewrite (E "subcolumn" t0) by intuition congruence.
      rewrite (E "subcolumn" (lat_dim m)) by intuition congruence. reflexivity. }
  assert (Perm : exists x4, (if order_dim then permute_dims m2 None true else Ok m2) = Ok (with_ds m2 x4) /\
     sz x4 = sz x3 /\
     forall k v3, field x3 k v3 -> exists v4, field x4 k v4 /\ (forall d, In d (vdims v4) <-> In d (vdims v3)) /\
       forall ix, at_ v4 ix = at_ v3 ix).
  { destruct order_dim.
    - exists (on_ds (vtrans (order_of m2 [t0; height_dim m] true)) x3). split.
      + exact (permute_ok m2 None true I2).
      + split; [reflexivity|]. intros k v3 H. eexists. exact (permute_field m2 [t0; height_dim m] true k v3 I2 H).
    - exists x3. split; [reflexivity|]. split; [reflexivity|]. intros k v3 H. exists v3. split; [exact H|]. split; [tauto|auto]. }
  destruct Perm as (x4 & -> & S4 & F4). cbn [bind with_ds mds].
  set (x5 := if (sz x4 t0 =? 1)%nat then on_ds (vsqueeze [t0]) x4 else x4).
  set (x6 := if (num_subcolumns x5 =? 1)%nat then on_ds (vsqueeze ["subcolumn"]) x5 else x5).
  assert (FS : forall ds0 y k v, field y k v -> field (on_ds (vsqueeze ds0) y) k (vsqueeze ds0 v)).
  { intros ds0 y k v H. unfold field, on_ds. cbn [vars]. rewrite assoc_on_vals. unfold field in H. rewrite H. reflexivity. }
  assert (DS : forall ds0 v d, In d (vdims (vsqueeze ds0 v)) -> In d (vdims v)).
  { intros ds0 v d H. apply filter_In in H. tauto. }
  exists (with_ds (with_ds m2 x4) (if squeeze then x6 else x4)).
  split; [destruct squeeze; reflexivity|]. do 5 (split; [reflexivity|]). cbn [with_ds mds].
  intros k v Fv. destruct (F k v Fv) as (v3 & Fv3 & D3 & D3' & A3). destruct (F4 k v3 Fv3) as (v4 & Fv4 & D4 & A4).
  assert (F5 : exists v5, field x5 k v5 /\ (forall d, In d (vdims v5) -> In d (vdims v4)) /\
     forall ix, (In t0 (vdims v4) -> ix t0 < sz x4 t0) -> at_ v5 ix = at_ v4 ix).
  { unfold x5. destruct (Nat.eqb_spec (sz x4 t0) 1) as [E|E].
    - exists (vsqueeze [t0] v4). split; [apply FS; exact Fv4|]. split; [apply DS|].
      intros ix H. rewrite at_squeeze. apply at_ext. intros d Hd. simpl. destruct (String.eqb_spec d t0) as [->|]; [|reflexivity].
      simpl. specialize (H Hd). lia.
    - exists v4. auto. }
  destruct F5 as (v5 & Fv5 & D5 & A5).
  assert (F6 : exists v6, field x6 k v6 /\ (forall d, In d (vdims v6) -> In d (vdims v5)) /\
     forall ix, (In "subcolumn" (vdims v5) -> ix "subcolumn" < sz x4 "subcolumn") -> at_ v6 ix = at_ v5 ix).
  { unfold x6. destruct (Nat.eqb_spec (num_subcolumns x5) 1) as [E|E].
    - exists (vsqueeze ["subcolumn"] v5). split; [apply FS; exact Fv5|]. split; [apply DS|].
      intros ix H. rewrite at_squeeze. apply at_ext. intros d Hd. unfold memb. cbn [existsb].
      destruct (String.eqb_spec d "subcolumn") as [->|]; [|reflexivity].
      cbn [orb]. specialize (H Hd). unfold num_subcolumns in E.
      replace (sz x5 "subcolumn") with (sz x4 "subcolumn") in E by (unfold x5; destruct (Nat.eqb _ 1); reflexivity).
      destruct (has_dim x5 "subcolumn"); lia.
    - exists v5. auto. }
  destruct F6 as (v6 & Fv6 & D6 & A6).
  destruct squeeze.
  - exists v6. split; [exact Fv6|]. split.
    + intros d H. apply D3, D4, D5, D6. exact H.
    + intros ix H1 H2.
      assert (Sub : "subcolumn" <> time_dim m /\ ~ In "subcolumn" [lat_dim m; lon_dim m; t0] /\ t0 <> lat_dim m)
        by (clear - Hn; dist Hn; simpl in *; intuition congruence).
      destruct (in_dec string_dec (time_dim m) (vdims v)) as [Ht|Ht].
      * destruct (H2 Ht) as (_ & _ & L). rewrite A6, A5, A4; [apply A3; assumption| |].
        -- intros _. rewrite S4. destruct S3 as [-> _]. exact L.
        -- intro Hs. apply D5, D4, D3 in Hs. rewrite S4. destruct S3 as [_ ->].
           destruct Hs as [[Hs Hs']|[_ Hs]]; [apply H1; assumption|tauto].
      * rewrite A6, A5, A4; [apply A3; assumption| |].
        -- intro Hs. apply D4 in Hs.
           apply D3 in Hs. exfalso. destruct Hs as [[Hs _]|[Hs _]]; [|tauto].
           apply (Hgone k v t0); [apply assoc_mem; exact Fv|simpl; auto|exact Hs].
        -- intro Hs. apply D5, D4, D3 in Hs. rewrite S4. destruct S3 as [_ ->].
           destruct Hs as [[Hs Hs']|[_ Hs]]; [apply H1; assumption|tauto].
  - exists v4. split; [exact Fv4|]. split; [intros d H; apply D3, D4; exact H|].
    intros ix H1 H2. rewrite A4. apply A3; assumption.
Qed.
