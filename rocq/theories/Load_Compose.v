(** Loading an E3SM file, from file to processed dataset. *)
From Verif Require Import Load_Spec Load_Facts Load_Stack Load_Loop Xds_Proofs Xds_Stack Xds_Round Xds_Ops.
Local Open Scope string_scope.
Local Open Scope list_scope.

Lemma put_in {A} (l : list (string * A)) k v a b : In (a, b) l -> a <> k -> In (a, b) (put l k v).
Proof.
  intros H N. induction l as [|[x w] l IH]; [destruct H|]. simpl. destruct H as [E|H].
  - injection E as -> ->. rewrite eqb_f by exact N. left. reflexivity.
  - destruct (String.eqb x k) eqn:Q; [right; exact H|right; apply IH; exact H].
Qed.
Lemma put_here {A} (l : list (string * A)) k v : In (k, v) (put l k v).
Proof. apply assoc_mem. apply put_same. Qed.

Section Flip.
Variable m : mobj.
Hypothesis HI : forall v, In (height_dim m, v) (coords (mds m)) -> vdims v = [height_dim m].
Hypothesis HH : In (height_dim m) (all_dims (mds m)).
Let x := mds m.
Let h := height_dim m.

Definition flipped : mobj :=
  with_ds m {| sz := sz x;
     coords := put (coords x) h {| vdims := [h]; vat := fun ix =>
        match assoc (coords x) h with Some v => vat v | None => fun ix => XF (INR (nth 0 ix 0)) end
          [sz x h - 1 - nth 0 ix 0] |};
     vars := on_vals (vflip (sz x h) h) (vars x) |}.
Lemma flip_ok : flip_height m = Ok flipped.
Proof.
  unfold flip_height. fold x h. assert (E : has_dim x h = true) by (apply has_dim_in; exact HH). rewrite E. reflexivity.
Qed.
Lemma flip_dims d : In d (all_dims (mds flipped)) <-> In d (all_dims x).
Proof.
  rewrite !in_dims. split.
  - intros (k & v & I & D). apply in_app_iff in I as [I|I].
    + apply in_put in I as [[-> ->]|I].
      * simpl in D. destruct D as [<-|[]]. apply in_dims. exact HH.
      * exists k, v. split; [apply in_app_iff; left; exact I|exact D].
    + apply in_on_vals in I as (w & I & ->). rewrite vflip_dims in D.
      exists k, w. split; [apply in_app_iff; right; exact I|exact D].
  - intros (k & v & I & D). apply in_app_iff in I as [I|I].
    + destruct (string_dec k h) as [->|N].
      * eexists h, _. split; [apply in_app_iff; left; apply put_here|].
        rewrite (HI v I) in D. exact D.
      * exists k, v. split; [apply in_app_iff; left; apply put_in; assumption|exact D].
    + exists k, (vflip (sz x h) h v). split; [|rewrite vflip_dims; exact D].
      apply in_app_iff; right. apply in_on_vals. eauto.
Qed.
Lemma flip_keys k : In k (map fst (coords (mds flipped))) -> k = h \/ In k (map fst (coords x)).
Proof. apply keys_put. Qed.
Lemma flip_field k v : field x k v -> field (mds flipped) k (vflip (sz x h) h v).
Proof. intro F. unfold field, flipped. cbn [mds with_ds vars]. rewrite assoc_on_vals. unfold field in F. rewrite F. reflexivity. Qed.
Lemma flip_wf : well_formed x -> well_formed (mds flipped).
Proof.
  intros W k v I. apply in_app_iff in I as [I|I].
  - apply in_put in I as [[-> ->]|I]; [repeat constructor; simpl; tauto|]. apply (W k). apply in_app_iff. auto.
  - apply in_on_vals in I as (w & I & ->). rewrite vflip_dims. apply (W k). apply in_app_iff. auto.
Qed.

Lemma flip_domain : domain m -> domain flipped.
Proof.
  intros [S R|L T|L T R N].
  - apply several.
    + pose proof (st_names _ _ S) as NN. constructor; cbn [flipped with_ds time_dim lat_dim lon_dim height_dim stacked_time_dim].
      * apply flip_wf. apply S.
      * apply flip_dims. apply S.
      * apply flip_dims. apply S.
      * destruct (st_height _ _ S) as (k & v & I & D). exists k, (vflip (sz x h) h v). split.
        -- apply in_on_vals. eauto.
        -- rewrite vflip_dims. exact D.
      * exact NN.
      * intros n I. destruct (st_free _ _ S n I) as [U V]. split; [intro D; apply U; apply flip_dims; exact D|].
        unfold all_vars. rewrite map_app, in_app_iff. intros [K|K].
        -- apply flip_keys in K as [->|K].
           ++ unfold h in *. clear - I NN. inversion_clear NN as [|? ? _ N2]. inversion_clear N2 as [|? ? N3 _]. simpl in I, N3. tauto.
           ++ apply V. unfold all_vars. rewrite map_app, in_app_iff. auto.
        -- cbn [mds flipped with_ds vars] in K. rewrite keys_on_vals in K. apply V.
           unfold all_vars. rewrite map_app, in_app_iff. auto.
      * intros d v I D. apply in_put in I as [[-> ->]|I]; [reflexivity|].
        apply (st_index _ _ S d v I). apply flip_dims. exact D.
      * apply S.
    + destruct R as [R|[R1 R2]]; [left; exact R|]. right. split; [apply flip_dims; exact R1|exact R2].
  - apply no_lat; cbn [flipped with_ds time_dim lat_dim]; rewrite flip_dims; assumption.
  - apply one; cbn [flipped with_ds time_dim lat_dim lon_dim height_dim]; rewrite ?flip_dims; try assumption.
    intros [Q|[Q1 Q2]]; apply R; [left; exact Q|]. right. split; [apply flip_dims; exact Q1|exact Q2].
Qed.

Lemma flip_position ix ix' : h <> lat_dim m -> h <> lon_dim m -> h <> time_dim m ->
  (forall d, d <> h -> ix' d = ix d) -> stack_position flipped ix' = stack_position m ix.
Proof.
  intros A B C E. unfold stack_position. change (lon_dim flipped) with (lon_dim m).
  destruct (in_dec string_dec (lon_dim m) (all_dims (mds flipped))) as [I|I];
  destruct (in_dec string_dec (lon_dim m) (all_dims (mds m))) as [J|J].
  1,4: cbn [flipped with_ds mds sz time_dim lat_dim lon_dim]; rewrite !E by (intro Q; symmetry in Q; tauto); reflexivity.
  - exfalso. apply J. apply (proj1 (flip_dims _)). exact I.
  - exfalso. apply I. apply (proj2 (flip_dims _)). exact J.
Qed.
End Flip.

Lemma names_facts si rain : let hs := e3sm_types si rain in
  (forall k, In k hs -> known si k) /\ NoDup (names si hs) /\ NoDup hs /\
  (forall k, In k (names si hs) -> ~ In k ("rho_a" :: p3_names ++ ["CLDICE"; "CLDRIM"; "FREQI"; "BVRIM"])) /\
  (forall k, In k (names si hs) -> ~ In k ["P0"; "hyam"; "PS"; "hybm"; "T"; "p_3d"; "zeros_cf"]) /\ In "ci" hs.
Proof.
  intro hs.
  assert (B : forall l l' : list string, forallb (fun k => negb (memb k l')) l = true -> forall k, In k l -> ~ In k l').
  { intros l l' F k I. rewrite forallb_forall in F. specialize (F k I). destruct (memb k l') eqn:Q; [discriminate|].
    apply memb_out. exact Q. }
  split; [|split; [|split; [|split; [|split]]]].
  - unfold hs. intros k I. destruct si, rain; simpl in I; repeat (destruct I as [<-|I]; [split; discriminate|]); destruct I.
  - destruct si, rain; cbn; repeat constructor; simpl; intuition discriminate.
  - destruct si, rain; cbn; repeat constructor; simpl; intuition discriminate.
  - apply B. destruct si, rain; reflexivity.
  - apply B. destruct si, rain; reflexivity.
  - destruct si, rain; simpl; auto.
Qed.

Section Load.
Variables (o : e3sm_opts) (m : mobj) (T : var).
Let si := o_single_ice o.
Let f := e3sm_fields si.
Let hs := e3sm_types si (o_rain o).
Hypothesis RN : o_range o = None.
Hypothesis DM : domain m.
Hypothesis FF : e3sm_file m f hs T.
Hypothesis P3F : o_scheme o = "P3" -> p3_file m T.

Let HN := ef_height_name _ _ _ _ FF.
Let HH : In (height_dim m) (all_dims (mds m)).
Proof. eapply field_dims; [exact (ef_T _ _ _ _ FF)|apply (ef_T_dims _ _ _ _ FF)]. Qed.
Let h := height_dim m.
Let m2 := flipped m.
Let fl := vflip (sz (mds m) h) h.

Lemma raw_field k v ix : field (mds m) k v -> raw m k ix = at_ v ix.
Proof. unfold raw, field. intros ->. reflexivity. Qed.

Theorem load_composed : exists m',
  e3sm_load o m = Ok m' /\
  (forall k v, field (mds m) k v -> ~ In k (loaded_names ++ names si hs) -> loaded m m' k (at_ v)) /\
  loaded m m' "p_3d" (pressure m) /\ loaded m m' "rho_a" (density m) /\ loaded m m' "zeros_cf" (fun _ => XF 0) /\
  (forall k, In k hs -> loaded m m' (nmN si k) ((number m) (nmN si k)) /\
                        loaded m m' (nmR si k) (fun ix => radius k (raw m (nmR si k) ix))) /\
  (o_scheme o = "P3" -> loaded m m' "in_cld_Ni" (in_cloud_number m) /\ loaded m m' "Fr" (rime_fraction m) /\
     loaded m m' "rho_r" (fun ix => if xeqb ((rime_fraction m) ix) (XF 0) then XF 0 else xdiv (raw m "CLDRIM" ix) (raw m "BVRIM" ix)) /\
     loaded m m' "qi_norm" (fun ix => xdiv (xdiv (raw m "CLDICE" ix) (raw m "FREQI" ix)) ((in_cloud_number m) ix))) /\
  (forall v, assoc (coords (mds m)) (height_dim m) = Some v -> exists v',
     assoc (coords (mds m')) (height_dim m) = Some v' /\
     forall ix, inside (mds m) ix -> at_ v' (place m ix) = at_ v ix) /\
  (forall k, In k loaded_names -> ~ In k (map fst (coords (mds m')))) /\
  (o_scheme o = "P3" -> exists D vF vR vQ, field (mds m') "Fr" vF /\ field (mds m') "rho_r" vR /\ field (mds m') "qi_norm" vQ /\
     vdims vF = D /\ vdims vR = D /\ vdims vQ = D).
Proof.
  destruct FF as [WF IX OUT HNM TNM FT (FT1 & FT2) (vP & FP & DP) (vA & FA & DA) (vB & FB & DB) (vS & FS & US) CL CO].
  destruct (names_facts si (o_rain o)) as (KN & ND & NH & DJ & DJ2 & CI).
  assert (NEQ : h <> lat_dim m /\ h <> lon_dim m /\ h <> time_dim m /\ h <> "time_lat_lon").
  { repeat split; intro Q; apply HNM; change (height_dim m) with h; rewrite Q; simpl; tauto. }
  destruct NEQ as (NQ1 & NQ2 & NQ3 & NQ4).
  pose proof (flip_domain m IX HH DM) as DM2. fold m2 in DM2.
  destruct (stack_any m2 DM2) as (m3 & g & E3 & SL).
  { intro Q. apply OUT. apply (flip_dims m IX HH). exact Q. }
  { exact HNM. }
  (* positions *)
  assert (PL : forall k v ix, field (mds m) k v -> inside (mds m) ix -> at_ (g (fl v)) (place m ix) = at_ v ix).
  { intros k v ix F I. set (ix2 := fun d => if String.eqb d h then sz (mds m) h - 1 - ix d else ix d).
    transitivity (at_ (fl v) ix2).
    - rewrite <- (sl_at _ _ _ SL k (fl v) ix2).
      + apply at_ext. intros d _. unfold place, ix2. fold h.
        destruct (string_dec d h) as [->|Nh].
        * destruct (string_dec h "time_lat_lon"); [tauto|]. rewrite String.eqb_refl. reflexivity.
        * destruct (string_dec d "time_lat_lon"); [|rewrite eqb_f by exact Nh; reflexivity].
          symmetry. apply (flip_position m IX HH); try assumption.
          intros c Nc. rewrite eqb_f by exact Nc. reflexivity.
      + apply flip_field. exact F.
      + intros d D. apply (flip_dims m IX HH) in D. specialize (I d D). unfold ix2.
        change (sz (mds m2) d) with (sz (mds m) d). destruct (String.eqb d h) eqn:Q; [|exact I].
        apply String.eqb_eq in Q. subst d. lia.
    - unfold fl. rewrite at_vflip. apply at_ext. intros d D. unfold ix2. destruct (String.eqb d h) eqn:Q; [|reflexivity].
      apply String.eqb_eq in Q. subst d. assert (ix h < sz (mds m) h); [|lia]. apply I. eapply field_dims; eauto. }
  assert (SF : forall k v, field (mds m) k v -> field (mds m3) k (g (fl v))).
  { intros k v F. unfold field. rewrite (sl_vars _ _ _ SL), assoc_on_vals.
    pose proof (flip_field m k v F) as F2. unfold field in F2. fold m2 in F2. rewrite F2. reflexivity. }
  assert (SH : forall k v, field (mds m) k v -> holds (mds m3) k (vdims (g (fl v))) (at_ (g (fl v)))).
  { intros k v F. exists (g (fl v)). auto. }
  assert (CC : forall k, In k (loaded_names ++ map fst (vars (mds m))) -> ~ In k (map fst (coords (mds m3)))).
  { intros k I J. destruct (CO k I) as [C1 C2]. apply (sl_coords _ _ _ SL) in J as [J|J].
    - apply (flip_keys m) in J as [->|J]; [apply C2; left; reflexivity|tauto].
    - apply C2. right. exact J. }
  assert (CV : forall k v, field (mds m) k v -> ~ In k (map fst (coords (mds m3)))).
  { intros k v F. apply CC. apply in_app_iff. right. apply assoc_mem in F. apply in_map_iff. exists (k, v). auto. }
  set (D := vdims (g (fl T))).
  assert (DD : forall v, vdims v = vdims T -> vdims (g (fl v)) = D).
  { intros v E. apply (sl_dims_eq _ _ _ SL). unfold fl. rewrite !vflip_dims. exact E. }
  (* derived fields *)
  destruct (pressure_ok si (mds m3) h (g (fl T)) (at_ (g (fl vP))) (at_ (g (fl vA))) (at_ (g (fl vB))) (at_ (g (fl vS)))
              (vdims (g (fl vS)))) as (x1 & E4 & O4 & Hp & Hz & Hr).
  { intros k I. simpl in I. repeat (destruct I as [<-|I]); try (eapply CV; eassumption); [|destruct I].
    apply CC. simpl. auto. }
  { apply (sl_union _ _ _ SL). intro d. unfold fl. rewrite !vflip_dims. apply US. }
  { apply SF. exact FT. }
  { pose proof (SH _ _ FP) as Z. rewrite (sl_nil _ _ _ SL) in Z; [exact Z|]. unfold fl. rewrite vflip_dims. exact DP. }
  { pose proof (SH _ _ FA) as Z. rewrite (sl_one _ _ _ SL) in Z; [exact Z|]. unfold fl. rewrite vflip_dims. exact DA. }
  { pose proof (SH _ _ FB) as Z. rewrite (sl_one _ _ _ SL) in Z; [exact Z|]. unfold fl. rewrite vflip_dims. exact DB. }
  { apply SH. exact FS. }
  set (vv := fun k : string => match assoc (vars (mds m)) k with Some v => v | None => T end).
  assert (VV : forall k v, field (mds m) k v -> vv k = v) by (unfold vv, field; intros k v ->; reflexivity).
  set (rho3 := fun ix => _) in Hr. fold D in Hp, Hz, Hr.
  assert (CF : forall k, In k hs -> field (mds m) (nmN si k) (vv (nmN si k)) /\ field (mds m) (nmR si k) (vv (nmR si k)) /\
                vdims (vv (nmN si k)) = vdims T /\ vdims (vv (nmR si k)) = vdims T).
  { intros k I. destruct (CL k I) as (nn & rn & n & r & A & B & Fn & Fr & Dn & Dr).
    unfold nmN, nmR. fold f. rewrite A, B. rewrite (VV _ _ Fn), (VV _ _ Fr). auto. }
  assert (NI : forall k, In k hs -> In (nmN si k) (names si hs) /\ In (nmR si k) (names si hs)).
  { intros k I. unfold names. rewrite !in_flat_map. split; exists k; simpl; auto. }
  assert (CX : coords x1 = coords (mds m3)) by apply O4.
  destruct (loop_ok si D rho3 (at_ (g (fl (vv "CLDICE")))) (at_ (g (fl (vv "CLDRIM"))))
              (at_ (g (fl (vv "FREQI")))) (at_ (g (fl (vv "BVRIM"))))
              (fun k => at_ (g (fl (vv (nmN si k))))) (fun k => at_ (g (fl (vv (nmR si k)))))
              (String.eqb (o_scheme o) "P3") hs x1) as (x' & E5 & O5 & A5 & B5); try assumption.
  { assert (KF : forall k v, field (mds m) k v -> ~ In k ["p_3d"; "zeros_cf"; "rho_a"] -> vdims v = vdims T ->
              holds x1 k D (at_ (g (fl v)))).
    { intros k v F N E. eapply holds_only; [exact O4|exact N|]. rewrite <- (DD v E). apply SH. exact F. }
    split; [|split; [exact Hr|split]].
    - rewrite CX. intros k [<-|I]; [apply CC; simpl; auto|]. apply in_app_iff in I as [I|I].
      + unfold names in I. apply in_flat_map in I as (c & Ic & [<-|[<-|[]]]); (eapply CV; apply (CF c Ic)).
      + destruct (String.eqb (o_scheme o) "P3") eqn:Q; [|destruct I]. apply String.eqb_eq in Q.
        destruct I as [<-|I]; [eapply CV; apply (CF "ci" CI)|].
        destruct (P3F Q k I) as (v & F & _). eapply CV. exact F.
    - intros k I. destruct (CF k I) as (Fn & Fr & Dn & Dr). destruct (NI k I) as [I1 I2].
      split; apply KF; try assumption.
      + intros [Z|[Z|[Z|[]]]].
        * apply (DJ2 _ I1). rewrite <- Z. simpl. auto 10.
        * apply (DJ2 _ I1). rewrite <- Z. simpl. auto 10.
        * apply (DJ _ I1). rewrite <- Z. simpl. auto.
      + intros [Z|[Z|[Z|[]]]].
        * apply (DJ2 _ I2). rewrite <- Z. simpl. auto 10.
        * apply (DJ2 _ I2). rewrite <- Z. simpl. auto 10.
        * apply (DJ _ I2). rewrite <- Z. simpl. auto.
    - intros Q _. apply String.eqb_eq in Q. pose proof (P3F Q) as PF.
      assert (W : forall k, In k ["CLDICE"; "CLDRIM"; "FREQI"; "BVRIM"] -> holds x1 k D (at_ (g (fl (vv k))))).
      { intros k I. destruct (PF k I) as (v & F & E). rewrite (VV _ _ F). apply KF; try assumption.
        simpl in I. intro J. simpl in J. intuition congruence. }
      repeat split; apply W; simpl; auto. }
  set (o3 := order_of (with_ds m3 x') [time_dim m3; height_dim m3] true).
  assert (Op : assoc (vars x') "p_3d" = assoc (vars x1) "p_3d").
  { destruct O5 as (_ & _ & O5). apply O5. rewrite in_app_iff. intros [I|I].
    - apply (DJ2 _ I). simpl. auto 10.
    - destruct (_ && _); [simpl in I; intuition discriminate|destruct I]. }
  destruct Hp as (pv & Fpv & Dpv & Apv).
  assert (INC : incl [time_dim m3; height_dim m3] (all_dims (mds (with_ds m3 x')))).
  { intros d [<-|[<-|[]]]; (eapply (field_dims _ "p_3d"); [unfold field; cbn [mds with_ds]; rewrite Op; exact Fpv|]);
      rewrite Dpv; unfold D.
    - apply (sl_time _ _ _ SL). unfold fl. rewrite vflip_dims. exact FT1.
    - rewrite (sl_height _ _ _ SL). apply (sl_h _ _ _ SL). unfold fl. rewrite vflip_dims. exact FT2. }
  exists (with_ds (with_ds m3 x') (on_ds (vtrans o3) x')).
  assert (FIN : forall k Dk val3 val, holds x' k Dk val3 -> (forall ix, inside (mds m) ix -> val3 (place m ix) = val ix) ->
     loaded m (with_ds (with_ds m3 x') (on_ds (vtrans o3) x')) k val).
  { intros k Dk val3 val (v & F & _ & A) E.
    destruct (permute_field (with_ds m3 x') [time_dim m3; height_dim m3] true k v INC F) as (F' & _ & A').
    eexists. split; [exact F'|]. intros ix I. rewrite A', A. apply E. exact I. }
  assert (OX : only (mds m3) x' (["p_3d"; "zeros_cf"; "rho_a"] ++ names si hs ++
                 if String.eqb (o_scheme o) "P3" && memb "ci" hs then p3_names else [])) by (eapply only_trans; eassumption).
  assert (RV : forall k ix, (exists v, field (mds m) k v) -> inside (mds m) ix -> at_ (g (fl (vv k))) (place m ix) = raw m k ix).
  { intros k ix (v & F) I. rewrite (VV _ _ F), (raw_field _ _ _ F). eapply PL; eauto. }
  assert (PV : forall k v ix, field (mds m) k v -> inside (mds m) ix -> at_ (g (fl v)) (place m ix) = raw m k ix).
  { intros k v ix F I. rewrite (raw_field _ _ _ F). eapply PL; eauto. }
  assert (RH : forall ix, inside (mds m) ix -> rho3 (place m ix) = (density m) ix).
  { intros ix I. unfold rho3, density, pressure.
    rewrite (PV _ _ _ FP I), (PV _ _ _ FA I), (PV _ _ _ FB I), (PV _ _ _ FS I), (PV _ _ _ FT I). reflexivity. }
  assert (H1 : forall k Dk val, In k ["p_3d"; "zeros_cf"; "rho_a"] -> holds x1 k Dk val -> holds x' k Dk val).
  { intros k Dk val I. apply (holds_only _ _ _ _ _ _ O5). rewrite in_app_iff. intros [J|J].
    - destruct I as [<-|[<-|[<-|[]]]]; [apply (DJ2 _ J)|apply (DJ2 _ J)|apply (DJ _ J)]; simpl; auto 10.
    - destruct (_ && _); [|destruct J]. simpl in I, J. intuition congruence. }
  assert (NE : forall k ix, In k hs -> inside (mds m) ix ->
     xmul (at_ (g (fl (vv (nmN si k)))) (place m ix)) (xdiv (rho3 (place m ix)) (XF (10 ^ 6))) = (number m) (nmN si k) ix).
  { intros k ix I J. rewrite (RH ix J), RV; [reflexivity| |exact J]. eexists. apply (CF k I). }
  split; [|split; [|split; [|split; [|split; [|split; [|split; [|split; [|split]]]]]]]].
  - unfold e3sm_load. rewrite RN. cbn [bind]. rewrite (flip_ok m HH). fold m2. cbn [bind]. rewrite E3. cbn [bind].
    fold si f. unfold f. rewrite E4. cbn [bind]. fold hs. rewrite E5. cbn [bind].
    exact (permute_ok (with_ds m3 x') None true INC).
  - intros k v F N. eapply FIN.
    + eapply holds_only; [exact OX| |apply SH; exact F]. intro J. apply N. apply in_app_iff.
      apply in_app_iff in J as [J|J]; [left; simpl in *; tauto|]. apply in_app_iff in J as [J|J]; [auto|left].
      destruct (_ && _); [unfold p3_names in J; simpl in *; tauto|destruct J].
    + intros ix I. eapply PL; eauto.
  - eapply FIN; [apply H1; [simpl; auto|exists pv; split; [exact Fpv|split; [exact Dpv|exact Apv]]]|].
    intros ix I. unfold pressure. cbv beta. rewrite (PV _ _ _ FP I), (PV _ _ _ FA I), (PV _ _ _ FB I), (PV _ _ _ FS I). reflexivity.
  - eapply FIN; [apply H1; [simpl; auto|exact Hr]|exact RH].
  - eapply FIN; [apply H1; [simpl; auto|exact Hz]|reflexivity].
  - intros k I. destruct (A5 k I) as [An Ar]. split.
    + eapply FIN; [exact An|]. intros ix J. apply NE; assumption.
    + eapply FIN; [exact Ar|]. intros ix J. cbv beta. rewrite RV; [reflexivity| |exact J]. eexists. apply (CF k I).
  - intros Q. assert (Qb : String.eqb (o_scheme o) "P3" = true) by (apply String.eqb_eq; exact Q).
    destruct (B5 Qb CI) as (W1 & W2 & W3 & W4). pose proof (P3F Q) as PF.
    assert (ex : forall k, In k ["CLDICE"; "CLDRIM"; "FREQI"; "BVRIM"] -> exists v, field (mds m) k v).
    { intros k I. destruct (PF k I) as (v & F & _). eauto. }
    assert (NC : forall ix, inside (mds m) ix ->
       xmul (xdiv (xmul (at_ (g (fl (vv (nmN si "ci")))) (place m ix)) (xdiv (rho3 (place m ix)) (XF (10 ^ 6))))
         (at_ (g (fl (vv "FREQI"))) (place m ix))) (XF (10 ^ 6)) = (in_cloud_number m) ix).
    { intros ix I. rewrite (NE "ci" ix CI I), (RV "FREQI" ix (ex "FREQI" ltac:(simpl; auto)) I). reflexivity. }
    assert (RM : forall ix, inside (mds m) ix ->
       xdiv (at_ (g (fl (vv "CLDRIM"))) (place m ix)) (at_ (g (fl (vv "CLDICE"))) (place m ix)) = (rime_fraction m) ix).
    { intros ix I. rewrite (RV "CLDRIM" ix (ex "CLDRIM" ltac:(simpl; auto)) I), (RV "CLDICE" ix (ex "CLDICE" ltac:(simpl; auto)) I). reflexivity. }
    split; [|split; [|split]].
    + eapply FIN; [exact W1|]. exact NC.
    + eapply FIN; [exact W2|]. exact RM.
    + eapply FIN; [exact W3|]. intros ix I. cbv beta. rewrite (RM ix I).
      rewrite (RV "CLDRIM" ix (ex "CLDRIM" ltac:(simpl; auto)) I), (RV "BVRIM" ix (ex "BVRIM" ltac:(simpl; auto)) I). reflexivity.
    + eapply FIN; [exact W4|]. intros ix I. cbv beta. rewrite (NC ix I).
      rewrite (RV "CLDICE" ix (ex "CLDICE" ltac:(simpl; auto)) I), (RV "FREQI" ix (ex "FREQI" ltac:(simpl; auto)) I). reflexivity.
  - intros v Hv. pose proof (IX v (assoc_mem _ _ _ Hv)) as Dv.
    set (v2 := {| vdims := [h]; vat := fun ix => vat v [sz (mds m) h - 1 - nth 0 ix 0] |}).
    assert (A2 : assoc (coords (mds m2)) (height_dim m2) = Some v2).
    { unfold m2, flipped. cbn [mds with_ds coords height_dim]. rewrite put_same. unfold v2. fold h.
      change (height_dim m) with h in Hv. rewrite Hv. reflexivity. }
    assert (A3 : exists v3, assoc (coords (mds m3)) h = Some v3 /\ forall ix, at_ v3 ix = at_ v2 ix).
    { destruct (sl_lev _ _ _ SL v2 A2 eq_refl) as [Z|Z]; [exists v2; auto|exact Z]. }
    destruct A3 as (v3 & A3 & E3').
    exists (vtrans o3 v3). cbn [mds with_ds on_ds coords]. split.
    + rewrite assoc_on_vals. destruct OX as (CX' & _). rewrite CX'. fold h. rewrite A3. reflexivity.
    + intros ix I. rewrite at_trans.
      * rewrite E3'. unfold at_, v2. cbn [vdims vat map nth]. rewrite Dv. cbn [map]. unfold place. fold h.
        destruct (string_dec h h); [|tauto]. f_equal. f_equal.
        assert (ix h < sz (mds m) h) by (apply I; exact HH). lia.
      * intros d Dd. apply order_in; [exact INC|]. apply in_dims. exists h, v3. split; [|exact Dd].
        apply in_app_iff. left. apply assoc_mem. cbn [mds with_ds]. destruct OX as (CX' & _). rewrite CX'. exact A3.
  - intros k I J. cbn [mds with_ds on_ds coords] in J. rewrite keys_on_vals in J. destruct OX as (CX' & _). rewrite CX' in J.
    apply (CC k); [apply in_app_iff; left; exact I|exact J].
  - intro Q. apply String.eqb_eq in Q. destruct (B5 Q CI) as (_ & W2 & W3 & W4).
    destruct W2 as (v2 & F2 & D2 & _). destruct W3 as (v3 & F3 & D3 & _). destruct W4 as (v4 & F4 & D4 & _).
    exists (vdims (vtrans o3 v2)), (vtrans o3 v2), (vtrans o3 v3), (vtrans o3 v4).
    pose proof (fun k v F => proj1 (permute_field (with_ds m3 x') [time_dim m3; height_dim m3] true k v INC F)) as PF.
    split; [exact (PF _ _ F2)|]. split; [exact (PF _ _ F3)|]. split; [exact (PF _ _ F4)|].
    unfold vtrans. cbn [vdims]. rewrite D2, D3, D4. auto.
Qed.
End Load.
