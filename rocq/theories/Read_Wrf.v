(** Reading WRF files. *)
From Coq Require Import Lra.
From Verif Require Import Read_Spec Xds_Round Load_Facts Load_Stack Load_Crop Load_Loop Xds_Proofs Xds_Stack Xds_Fields Xr_Facts Np_Facts Read_Cut Read_Final Read_Dharma Read_Box.
Local Open Scope string_scope.
Local Open Scope list_scope.

Lemma family_mg s : family_of s MG -> is_mg s = true.
Proof. intro H. apply memb_in. exact H. Qed.
Lemma family_nssl s : family_of s NSSL -> is_mg s = false /\ is_nssl s = true.
Proof. unfold family_of, is_mg, is_nssl. intros ->. split; reflexivity. Qed.
Lemma mg_not_nssl s : family_of s MG -> is_nssl s = false.
Proof.
  unfold family_of, is_nssl. intro H. destruct (String.eqb_spec (lower s) "nssl") as [E|]; [|reflexivity].
  rewrite E in H. simpl in H. intuition discriminate.
Qed.

Fixpoint puts {A} (d l : list (string * A)) : list (string * A) :=
  match l with [] => d | (k, v) :: l' => puts (put d k v) l' end.
Lemma puts_app {A} (l : list (string * A)) : forall d l', puts d (l ++ l') = puts (puts d l) l'.
Proof. induction l as [|[k v] l IH]; intros d l'; [reflexivity|]. apply IH. Qed.
Lemma in_puts {A} (l : list (string * A)) : forall d k v, In (k, v) (puts d l) -> In (k, v) d \/ In (k, v) l.
Proof.
  induction l as [|[a b] l IH]; intros d k v H; [auto|]. apply IH in H as [H|H]; [|simpl; auto].
  apply in_put in H as [[-> ->]|H]; simpl; auto.
Qed.
Lemma assoc_puts {A} (l : list (string * A)) : forall d k, assoc (puts d l) k = match assoc (rev l) k with Some v => Some v | None => assoc d k end.
Proof.
  induction l as [|[a b] l IH]; intros d k; [reflexivity|]. cbn [puts rev]. rewrite IH, assoc_app.
  destruct (assoc (rev l) k); [reflexivity|]. cbn [assoc]. destruct (String.eqb_spec a k) as [->|N].
  - apply put_same.
  - apply put_other. congruence.
Qed.

Section Wrf.
Variables (o : wrf_opts) (f : family) (x : xds) (z tk : var).
Hypotheses (FM : family_of (w_scheme o) f) (W : wrf_file o f x z tk).
Let fv (k : string) : var := match assoc (vars x) k with Some v => v | None => z end.
Let hs := classes f (w_graupel o).

Lemma fv_field k : In k (wrf_needed o f) -> field x k (fv k) /\ vdims (fv k) = grid4 /\ getv x k = Ok (fv k).
Proof.
  intro I. destruct (wf_fields _ _ _ _ _ W k I) as (v & F & D). assert (E : fv k = v) by (unfold fv; rewrite F; reflexivity).
  rewrite E. split; [exact F|]. split; [exact D|]. apply getv_var; [exact F|].
  intro J. apply in_map_iff in J as ((a & b) & Q & J). simpl in Q. subst a.
  apply (wf_coords _ _ _ _ _ W) in J as (_ & _ & _ & _ & J). tauto.
Qed.
Lemma fv_val k ix : In k (wrf_needed o f) -> at_ (fv k) ix = val x k ix.
Proof. intro I. destruct (fv_field k I) as (F & _). unfold val. rewrite F. reflexivity. Qed.

Let pres := vmap (fun a => xmul a (XF (/ 100))) (vbin xadd (fv "P") (fv "PB")).
Let rho := vbin xdiv (vmap (fun a => xmul a (XF 100)) pres) (vmap (xmul (XF R_d)) tk).
Lemma need k : In k ["P"; "PB"; "QVAPOR"] -> In k (wrf_needed o f).
Proof. intro I. unfold wrf_needed. rewrite in_app_iff. left. exact I. Qed.
Lemma pres_dims : vdims pres = grid4.
Proof.
  unfold pres. cbn [vmap vdims vbin]. destruct (fv_field "P") as (_ & D1 & _); [apply need; simpl; auto|].
  destruct (fv_field "PB") as (_ & D2 & _); [apply need; simpl; auto|]. rewrite D1, D2. reflexivity.
Qed.
Lemma rho_dims : vdims rho = grid4.
Proof. unfold rho. cbn [vmap vdims vbin]. rewrite pres_dims, (wf_tk _ _ _ _ _ W). reflexivity. Qed.
Lemma at_pres ix : at_ pres ix = wrf_pressure x ix.
Proof. unfold pres. rewrite at_vmap, at_vbin, !fv_val by (apply need; simpl; auto). reflexivity. Qed.
Lemma at_rho ix : at_ rho ix = wrf_rho x tk ix.
Proof. unfold rho. rewrite at_density, at_pres. reflexivity. Qed.

Definition zero_grid : var := {| vdims := grid4; vat := fun _ => XF 0 |}.
Definition frac_grid (h : string) : var :=
  if memb h ["ci"; "cl"] && w_nuwrf o then {| vdims := grid4; vat := fun ix => vat (fv "CLDFRA") ix |}
  else {| vdims := grid4; vat := fun ix => if xltb (XF (w_cutoff o)) (vat (fv (mass_field h)) ix) then XF 1 else XF 0 |}.
Definition num_grid (h : string) : var :=
  {| vdims := vdims (fv (number_field f h)); vat := fun ix => xmul (vat (fv (number_field f h)) ix) (xmul (vat rho ix) (XF (/ 10 ^ 6))) |}.
Definition entries (h : string) : list (string * var) :=
  [("conv_frac", zero_grid); (("q" ++ h ++ "c")%string, zero_grid); (("q" ++ h ++ "s")%string, fv (mass_field h));
   (("strat_" ++ h ++ "_frac")%string, frac_grid h); (number_field f h, num_grid h)]
  ++ match f with NSSL => [(radius_field h, fv (radius_field h))] | MG => [] end.

Lemma as_grid_ok g v : vdims v = grid4 -> as_grid x g v = Ok {| vdims := grid4; vat := fun ix => g (vat v ix) |}.
Proof. intro D. unfold as_grid, shape. rewrite D. destruct (list_eq_dec _ _ _); [reflexivity|tauto]. Qed.

Lemma class_tables h : In h hs ->
  dget (wrf_q o) h = Ok (mass_field h) /\ dget (wrf_N o) h = Ok (number_field f h) /\
  In (mass_field h) (wrf_needed o f) /\ In (number_field f h) (wrf_needed o f) /\
  (f = NSSL -> dget wrf_re h = Ok (radius_field h) /\ In (radius_field h) (wrf_needed o f)).
Proof.
  intro I.
  assert (M : In (mass_field h) (wrf_needed o f)).
  { unfold wrf_needed. rewrite !in_app_iff. right. left. apply in_map. exact I. }
  assert (N : In (number_field f h) (wrf_needed o f)).
  { unfold wrf_needed. rewrite !in_app_iff. right. right. left. apply in_map. exact I. }
  assert (Rd : f = NSSL -> In (radius_field h) (wrf_needed o f)).
  { intro Q. unfold wrf_needed. rewrite !in_app_iff. right. right. right. left. rewrite Q. apply in_map. unfold hs in I. rewrite Q in I. exact I. }
  split; [|split; [|split; [exact M|split; [exact N|]]]].
  - revert I. unfold hs, wrf_q, classes. destruct f.
    + rewrite (family_mg _ FM). destruct (w_graupel o); simpl; intro I; repeat (destruct I as [<-|I]; [reflexivity|]); destruct I.
    + destruct (family_nssl _ FM) as [-> _]. simpl. intro I. repeat (destruct I as [<-|I]; [reflexivity|]). destruct I.
  - revert I. unfold hs, wrf_N, classes. destruct f.
    + rewrite (family_mg _ FM). destruct (w_graupel o); simpl; intro I; repeat (destruct I as [<-|I]; [reflexivity|]); destruct I.
    + destruct (family_nssl _ FM) as [-> _]. simpl. intro I. repeat (destruct I as [<-|I]; [reflexivity|]). destruct I.
  - intro Q. split; [|exact (Rd Q)]. revert I. unfold hs, classes. rewrite Q. simpl. intro I. repeat (destruct I as [<-|I]; [reflexivity|]). destruct I.
Qed.
Lemma cldfra : w_nuwrf o = true -> In "CLDFRA" (wrf_needed o f).
Proof. intro Q. unfold wrf_needed. rewrite !in_app_iff, Q. right. right. right. right. left. left. reflexivity. Qed.

Lemma class_puts h d : In h hs -> wrf_class o x rho d h = Ok (puts d (entries h)).
Proof.
  intro I. destruct (class_tables h I) as (T1 & T2 & NM & NN & T3).
  destruct (fv_field "P") as (_ & DP & GP); [apply need; simpl; auto|].
  destruct (fv_field _ NM) as (_ & DM & GM). destruct (fv_field _ NN) as (_ & DN & GN).
  unfold wrf_class. rewrite GP. cbn [bind]. rewrite (as_grid_ok (fun _ => XF 0) _ DP). cbn [bind].
  rewrite T1. cbn [bind]. rewrite GM. cbn [bind].
  assert (FG : (if memb h ["ci"; "cl"] && w_nuwrf o then do c <- getv x "CLDFRA"; as_grid x (fun a => a) c
           else as_grid x (fun a => if xltb (XF (w_cutoff o)) a then XF 1 else XF 0) (fv (mass_field h))) = Ok (frac_grid h)).
  { unfold frac_grid. destruct (memb h ["ci"; "cl"] && w_nuwrf o) eqn:Q.
    - apply andb_prop in Q as [_ Q]. destruct (fv_field "CLDFRA" (cldfra Q)) as (_ & DC & GC). rewrite GC. cbn [bind].
      apply as_grid_ok. exact DC.
    - apply as_grid_ok. exact DM. }
  rewrite FG. cbn [bind]. rewrite T2. cbn [bind]. rewrite GN. cbn [bind].
  rewrite vpos_ok by (rewrite DN, rho_dims; reflexivity). cbn [bind].
  unfold entries, num_grid. pose proof FM as FM'. case_eq f; intro Q; rewrite Q in FM'.
  - rewrite (mg_not_nssl _ FM'). reflexivity.
  - destruct (family_nssl _ FM') as [_ ->]. destruct (T3 Q) as (T4 & NR). rewrite T4. cbn [bind].
    destruct (fv_field _ NR) as (_ & _ & GR). rewrite GR. reflexivity.
Qed.
Lemma classes_puts l : forall d, incl l hs -> wrf_classes o x rho d l = Ok (puts d (flat_map entries l)).
Proof.
  induction l as [|h l IH]; intros d I; [reflexivity|]. cbn [wrf_classes flat_map].
  rewrite class_puts by (apply I; left; reflexivity). cbn [bind]. rewrite IH by (intros y Y; apply I; right; exact Y).
  rewrite puts_app. reflexivity.
Qed.
Lemma types_eq : wrf_types o = hs.
Proof.
  unfold wrf_types, hs, classes. destruct f.
  - rewrite (family_mg _ FM). reflexivity.
  - destruct (family_nssl _ FM) as [-> ->]. reflexivity.
Qed.

Definition dens_grid (q v : string) : var := vmap finite_or_900 (vbin xdiv (fv q) (fv v)).
Definition dens_entries : list (string * var) :=
  if string_dec (w_scheme o) "nssl"
  then [("RHO_GRAUPEL", {| vdims := grid4; vat := vat (dens_grid "QGRAUP" "QVGRAUPEL") |});
        ("RHO_HAIL", {| vdims := grid4; vat := vat (dens_grid "QHAIL" "QVHAIL") |})]
  else [].
Definition all_entries : list (string * var) :=
  [("pressure", pres); ("Z", z); ("T", tk); ("rho_a", rho)] ++ flat_map entries hs ++ [("QVAPOR", fv "QVAPOR")] ++ dens_entries.
Lemma exact_nssl : w_scheme o = "nssl" -> f = NSSL.
Proof. intro Q. destruct f; [|reflexivity]. unfold family_of in FM. rewrite Q in FM. simpl in FM. intuition discriminate. Qed.
Lemma dens_needed k : w_scheme o = "nssl" -> In k ["QGRAUP"; "QVGRAUPEL"; "QHAIL"; "QVHAIL"] -> In k (wrf_needed o f).
Proof.
  intros Q I. pose proof (exact_nssl Q) as E. unfold wrf_needed. rewrite E. rewrite !in_app_iff.
  destruct (string_dec (w_scheme o) "nssl"); [|tauto].
  destruct I as [<-|[<-|[<-|[<-|[]]]]].
  - right; left. simpl. tauto.
  - do 5 right. simpl. tauto.
  - right; left. simpl. tauto.
  - do 5 right. simpl. tauto.
Qed.
Lemma dens_dims q v : In q (wrf_needed o f) -> In v (wrf_needed o f) -> vdims (dens_grid q v) = grid4.
Proof.
  intros A B. unfold dens_grid. cbn [vmap vdims vbin]. destruct (fv_field q A) as (_ & -> & _).
  destruct (fv_field v B) as (_ & -> & _). reflexivity.
Qed.

Lemma fields_ok : wrf_fields o x z tk = Ok (puts [] all_entries).
Proof.
  destruct (fv_field "P") as (_ & DP & GP); [apply need; simpl; auto|].
  destruct (fv_field "PB") as (_ & DB & GB); [apply need; simpl; auto|].
  destruct (fv_field "QVAPOR") as (_ & DV & GV); [apply need; simpl; auto|].
  unfold wrf_fields. rewrite GP. cbn [bind]. rewrite GB. cbn [bind]. fold pres. fold rho.
  assert (SC : is_mg (w_scheme o) || is_nssl (w_scheme o) = true).
  { destruct f; [rewrite (family_mg _ FM); reflexivity|]. destruct (family_nssl _ FM) as [_ ->]. apply Bool.orb_true_r. }
  rewrite SC.
  assert (NU : (if w_nuwrf o then do _ <- getv x "CLDFRA"; Ok tt else Ok tt) = Ok tt).
  { destruct (w_nuwrf o) eqn:Q; [|reflexivity]. destruct (fv_field "CLDFRA" (cldfra Q)) as (_ & _ & ->). reflexivity. }
  rewrite NU. cbn [bind]. rewrite types_eq, classes_puts by (intros y Y; exact Y). cbn [bind]. rewrite GV. cbn [bind].
  unfold all_entries. rewrite puts_app. cbn [puts put app String.eqb Ascii.eqb Bool.eqb]. rewrite !puts_app. cbn [puts].
  unfold dens_entries. destruct (string_dec (w_scheme o) "nssl") as [Q|Q].
  - rewrite Q at 1. cbn [String.eqb Ascii.eqb Bool.eqb].
    pose proof (dens_needed "QGRAUP" Q ltac:(simpl; auto)) as N1. pose proof (dens_needed "QVGRAUPEL" Q ltac:(simpl; auto)) as N2.
    pose proof (dens_needed "QHAIL" Q ltac:(simpl; auto)) as N3. pose proof (dens_needed "QVHAIL" Q ltac:(simpl; auto)) as N4.
    destruct (fv_field _ N1) as (_ & D1 & G1). destruct (fv_field _ N2) as (_ & D2 & G2).
    destruct (fv_field _ N3) as (_ & D3 & G3). destruct (fv_field _ N4) as (_ & D4 & G4).
    unfold wrf_density. rewrite G1. cbn [bind]. rewrite G2. cbn [bind]. rewrite G3. cbn [bind]. rewrite G4. cbn [bind].
    fold (dens_grid "QGRAUP" "QVGRAUPEL"). fold (dens_grid "QHAIL" "QVHAIL"). unfold shape.
    rewrite (dens_dims _ _ N1 N2), (dens_dims _ _ N3 N4), D1. destruct (list_eq_dec _ _ _); [|tauto]. reflexivity.
  - apply String.eqb_neq in Q. rewrite Q. reflexivity.
Qed.
Let D := puts [] all_entries.
Let m := wrf_obj x D.

Lemma entries_grid h k v : In h hs -> In (k, v) (entries h) -> vdims v = grid4.
Proof.
  intros I H. destruct (class_tables h I) as (_ & _ & NM & NN & T3). unfold entries in H. apply in_app_iff in H as [H|H].
  - simpl in H. destruct H as [H|[H|[H|[H|[H|[]]]]]]; injection H as _ <-; try reflexivity.
    + apply (fv_field _ NM).
    + unfold frac_grid. destruct (_ && _); reflexivity.
    + apply (fv_field _ NN).
  - revert H. case_eq f; intros Q H; [destruct H|]. destruct H as [H|[]]. injection H as _ <-. apply fv_field. apply T3. exact Q.
Qed.
Lemma all_grid k v : In (k, v) D -> vdims v = grid4.
Proof.
  intro H. apply in_puts in H as [[]|H]. unfold all_entries in H. rewrite !in_app_iff in H. destruct H as [H|[H|[H|H]]].
  - simpl in H. destruct H as [H|[H|[H|[H|[]]]]]; injection H as _ <-; [apply pres_dims|apply (wf_z _ _ _ _ _ W)|apply (wf_tk _ _ _ _ _ W)|apply rho_dims].
  - apply in_flat_map in H as (h & I & H). exact (entries_grid h k v I H).
  - destruct H as [H|[]]. injection H as _ <-. apply fv_field. apply need. simpl. auto.
  - unfold dens_entries in H. destruct (string_dec _ _); [|destruct H]. destruct H as [H|[H|[]]]; injection H as _ <-; reflexivity.
Qed.
Lemma all_names k v : In (k, v) D -> ~ In k ["time_lat_lon"; "Time_tmp"; "south_north_tmp"; "west_east_tmp"].
Proof.
  intro H. apply in_puts in H as [[]|H].
  assert (KS : In k (map fst all_entries)) by (apply in_map_iff; exists (k, v); auto). clear H.
  assert (B : forallb (fun k => negb (memb k ["time_lat_lon"; "Time_tmp"; "south_north_tmp"; "west_east_tmp"])) (map fst all_entries) = true).
  { unfold all_entries, dens_entries, hs, entries. case f; case (w_graupel o); case (string_dec (w_scheme o) "nssl"); intros; reflexivity. }
  rewrite forallb_forall in B. apply B in KS. intro I. apply memb_in in I. rewrite I in KS. discriminate.
Qed.
Lemma m_vars k v : In (k, v) (all_vars (mds m)) -> In (k, v) (coords x) \/ In (k, v) D.
Proof.
  intro H. unfold all_vars in H. apply in_app_iff in H as [H|H]; [left|right; exact H].
  cbn [m wrf_obj mds coords] in H. apply filter_In in H as [H _]. exact H.
Qed.
Lemma in_assoc_D k v : assoc D k = Some v -> In (k, v) D. Proof. apply assoc_mem. Qed.
Lemma p_field : assoc D "pressure" = Some pres.
Proof.
  unfold D. rewrite assoc_puts.
  assert (E : assoc (rev all_entries) "pressure" = Some pres); [|rewrite E; reflexivity].
  unfold all_entries, dens_entries, hs, entries. case f; case (w_graupel o); case (string_dec (w_scheme o) "nssl"); intros; reflexivity.
Qed.
Lemma m_dims d : In d (all_dims (mds m)) <-> In d grid4.
Proof.
  rewrite in_dims. split.
  - intros (k & v & I & J). apply m_vars in I as [I|I].
    + apply (wf_coords _ _ _ _ _ W k v I). exact J.
    + rewrite (all_grid k v I) in J. exact J.
  - intro I. exists "pressure", pres. split; [|rewrite pres_dims; exact I]. unfold all_vars. apply in_app_iff. right.
    apply assoc_mem. exact p_field.
Qed.
Lemma m_stackable : stackable m "time_lat_lon".
Proof.
  constructor.
  - intros k v I. apply m_vars in I as [I|I]; [apply (wf_coords _ _ _ _ _ W k v I)|]. rewrite (all_grid k v I).
    repeat constructor; simpl; intuition discriminate.
  - apply m_dims. simpl. auto.
  - apply m_dims. simpl. auto.
  - exists "pressure", pres. split; [apply assoc_mem; exact p_field|]. rewrite pres_dims. simpl. auto.
  - repeat constructor; simpl; intuition discriminate.
  - intros n I. split; [rewrite m_dims; simpl in I |- *; intuition (subst; discriminate)|].
    intro J. apply in_map_iff in J as ((k & v) & Q & J). simpl in Q. subst k.
    apply m_vars in J as [J|J].
    + destruct (wf_coords _ _ _ _ _ W n v J) as (_ & _ & _ & N & _). exact (N I).
    + apply (all_names n v J). exact I.
  - intros d v I J. cbn [m wrf_obj mds coords] in I. apply filter_In in I as [I _].
    apply (wf_coords _ _ _ _ _ W d v I). apply m_dims. exact J.
  - reflexivity.
Qed.
Lemma time_axis : ~ In "Time" (map fst (coords (mds m))) /\ assoc D "Time" = None.
Proof.
  split.
  - intro J. apply in_map_iff in J as ((k & v) & Q & J). simpl in Q. subst k. cbn [m wrf_obj mds coords] in J.
    apply filter_In in J as [_ J]. discriminate.
  - unfold D. rewrite assoc_puts.
    assert (E : assoc (rev all_entries) "Time" = None); [|rewrite E; reflexivity].
    unfold all_entries, dens_entries, hs, entries. case f; case (w_graupel o); case (string_dec (w_scheme o) "nssl"); intros; reflexivity.
Qed.
Lemma no_time : assoc (all_vars (mds m)) "Time" = None.
Proof. destruct time_axis as [A B]. unfold all_vars. rewrite assoc_app, (assoc_none _ _ A). exact B. Qed.
Lemma m_gridded : gridded m pres.
Proof.
  constructor.
  - rewrite m_dims. simpl. intuition discriminate.
  - simpl. intuition discriminate.
  - rewrite pres_dims. simpl. auto.
  - intros c A. change (time_dim m) with "Time" in A. rewrite no_time in A. discriminate.
Qed.

(** The fields of the dictionary. *)
Lemma D_at k v : assoc (rev all_entries) k = Some v -> field (mds m) k v.
Proof. intro E. unfold field. cbn [m wrf_obj mds vars]. unfold D. rewrite assoc_puts, E. reflexivity. Qed.
Lemma common_fields : field (mds m) "pressure" pres /\ field (mds m) "Z" z /\ field (mds m) "T" tk /\ field (mds m) "rho_a" rho /\
  field (mds m) "QVAPOR" (fv "QVAPOR").
Proof.
  repeat split; apply D_at; unfold all_entries, dens_entries, hs, entries;
    case f; case (w_graupel o); case (string_dec (w_scheme o) "nssl"); intros; reflexivity.
Qed.
Lemma dens_fields : w_scheme o = "nssl" ->
  field (mds m) "RHO_GRAUPEL" {| vdims := grid4; vat := vat (dens_grid "QGRAUP" "QVGRAUPEL") |} /\
  field (mds m) "RHO_HAIL" {| vdims := grid4; vat := vat (dens_grid "QHAIL" "QVHAIL") |}.
Proof.
  intro Q. split; apply D_at; unfold all_entries, dens_entries, hs, entries;
    case f; case (w_graupel o); (destruct (string_dec (w_scheme o) "nssl"); [|tauto]); reflexivity.
Qed.
Lemma class_fields h : In h hs ->
  field (mds m) "conv_frac" zero_grid /\ field (mds m) ("q" ++ h ++ "c") zero_grid /\
  field (mds m) ("q" ++ h ++ "s") (fv (mass_field h)) /\ field (mds m) ("strat_" ++ h ++ "_frac") (frac_grid h) /\
  field (mds m) (number_field f h) (num_grid h) /\ (f = NSSL -> field (mds m) (radius_field h) (fv (radius_field h))).
Proof.
  intro I.
  assert (A : assoc (rev all_entries) "conv_frac" = Some zero_grid /\ assoc (rev all_entries) ("q" ++ h ++ "c") = Some zero_grid /\
    assoc (rev all_entries) ("q" ++ h ++ "s") = Some (fv (mass_field h)) /\
    assoc (rev all_entries) ("strat_" ++ h ++ "_frac") = Some (frac_grid h) /\
    assoc (rev all_entries) (number_field f h) = Some (num_grid h) /\
    (f = NSSL -> assoc (rev all_entries) (radius_field h) = Some (fv (radius_field h)))).
  { revert I. unfold all_entries, dens_entries, hs, entries.
    case f; case (w_graupel o); case (string_dec (w_scheme o) "nssl"); intro Q; cbn [classes app In]; intro I;
      repeat (destruct I as [<-|I]; [repeat split; try reflexivity; discriminate|]); destruct I. }
  destruct A as (A1 & A2 & A3 & A4 & A5 & A6). repeat split; try (apply D_at; assumption).
  intro Q. apply D_at. exact (A6 Q).
Qed.
Lemma no_density : w_scheme o <> "nssl" -> ~ In "RHO_GRAUPEL" (map fst D) /\ ~ In "RHO_HAIL" (map fst D).
Proof.
  intro Q.
  assert (B : forallb (fun k => negb (memb k ["RHO_GRAUPEL"; "RHO_HAIL"])) (map fst all_entries) = true).
  { unfold all_entries, dens_entries, hs, entries. destruct (string_dec (w_scheme o) "nssl"); [tauto|].
    case f; case (w_graupel o); reflexivity. }
  rewrite forallb_forall in B.
  assert (Z : forall k, In k ["RHO_GRAUPEL"; "RHO_HAIL"] -> ~ In k (map fst D)).
  { intros k K J. apply in_map_iff in J as ((a & v) & E & J). simpl in E. subst a. apply in_puts in J as [[]|J].
    assert (KS : In k (map fst all_entries)) by (apply in_map_iff; exists (k, v); auto). apply B in KS.
    apply memb_in in K. rewrite K in KS. discriminate. }
  split; apply Z; simpl; auto.
Qed.

Lemma assoc_filter {A} (l : list (string * A)) (p : string -> bool) k : p k = true ->
  assoc (filter (fun c => p (fst c)) l) k = assoc l k.
Proof.
  intro P. induction l as [|[a b] l IH]; [reflexivity|]. cbn [filter assoc fst].
  destruct (String.eqb_spec a k) as [->|N].
  - rewrite P. cbn [assoc]. rewrite String.eqb_refl. reflexivity.
  - destruct (p a); [cbn [assoc]; rewrite eqb_f by exact N|]; exact IH.
Qed.
Lemma in_span a b i : In i (span a b) <-> a <= i < b.
Proof. unfold span. rewrite in_seq. lia. Qed.

Lemma wrf_cut b r lat lon : w_box o = box_of b ->
  w_range o = match r with None => None | Some (a, b) => Some (XF a, XF b) end ->
  (b <> None -> regular x lat lon) ->
  (r <> None -> exists i, i < sz x "Time" /\ in_range r (mds m) "Time" i) ->
  exists m' keep, wrf_load o x z tk = Ok m' /\
    selects (mds m) (fun d j => box_keeps b x lat lon d j /\ (d = "Time" -> in_range r (mds m) "Time" j)) keep /\
    map fst (vars (mds m')) = map fst D /\
    forall k v, field (mds m) k v -> held m keep m' k (at_ v).
Proof.
  intros EB ER RG SS. unfold wrf_load. rewrite fields_ok. cbn [bind]. fold D. fold m.
  assert (HB : exists l0, (match w_box o with None => Ok m | Some b => crop_box m "XLAT" "XLONG" b end) = Ok (cuts m l0) /\
     NoDup (map fst l0) /\ ~ In (time_dim m) (map fst l0) /\
     (forall d, In d (map fst l0) -> StronglySorted lt (keeps l0 (sz (mds m)) d) /\
        forall i, In i (keeps l0 (sz (mds m)) d) <-> i < sz (mds m) d /\ box_keeps b x lat lon d i) /\
     (forall d i, ~ In d (map fst l0) -> box_keeps b x lat lon d i)).
  { rewrite EB. destruct b as [[[[b0 b1] b2] b3]|].
    - destruct RG as (P1 & P2 & P3 & la & lo & A1 & A2 & D1 & D2 & V); [discriminate|].
      assert (G : forall k v, assoc (coords x) k = Some v -> In k ["XLAT"; "XLONG"] -> getv (mds m) k = Ok v).
      { intros k v A I. unfold getv, all_vars. rewrite assoc_app. cbn [m wrf_obj mds coords].
        rewrite (assoc_filter (coords x) (fun k => negb (memb k ["Time"; "XTIME"]))); [rewrite A; reflexivity|].
        destruct I as [<-|[<-|[]]]; reflexivity. }
      destruct (box_ok m lat lon la lo (sz x "south_north") (sz x "west_east") (sz x "Time")
        (G _ _ A1 ltac:(simpl; auto)) (G _ _ A2 ltac:(simpl; auto))
        ltac:(unfold shape; rewrite D1; reflexivity) ltac:(unfold shape; rewrite D2; reflexivity) P1 P2 P3 V b0 b1 b2 b3)
        as (i0 & i1 & i2 & i3 & E & C0 & C2 & C1 & C3).
      exists [("south_north", span i0 i2); ("west_east", span i1 i3)]. split; [exact E|].
      split; [repeat constructor; simpl; intuition discriminate|]. split; [simpl; intuition discriminate|]. split.
      + intros d [<-|[<-|[]]]; cbn [fst].
        * assert (K : keeps [("south_north", span i0 i2); ("west_east", span i1 i3)] (sz (mds m)) "south_north" = span i0 i2) by reflexivity. rewrite K. split; [apply sorted_seq|]. intro i. rewrite in_span.
          change (sz (mds m) "south_north") with (sz x "south_north"). unfold box_keeps. split.
          -- intros H. split; [destruct C2; lia|]. split; [|discriminate]. intros _. exists i0, i2. auto.
          -- intros (Hi & Q & _). destruct (Q eq_refl) as (j0 & j2 & Q0 & Q2 & Q3).
             rewrite (closest_unique _ _ _ _ _ C0 Q0), (closest_unique _ _ _ _ _ C2 Q2). exact Q3.
        * assert (K : keeps [("south_north", span i0 i2); ("west_east", span i1 i3)] (sz (mds m)) "west_east" = span i1 i3) by reflexivity. rewrite K. split; [apply sorted_seq|]. intro i. rewrite in_span.
          change (sz (mds m) "west_east") with (sz x "west_east"). unfold box_keeps. split.
          -- intros H. split; [destruct C3; lia|]. split; [discriminate|]. intros _. exists i1, i3. auto.
          -- intros (Hi & _ & Q). destruct (Q eq_refl) as (j0 & j2 & Q0 & Q2 & Q3).
             rewrite (closest_unique _ _ _ _ _ C1 Q0), (closest_unique _ _ _ _ _ C3 Q2). exact Q3.
      + intros d i N. split; intros ->; exfalso; apply N; simpl; auto.
    - exists []. split; [reflexivity|]. split; [constructor|]. split; [simpl; tauto|]. split; [simpl; tauto|]. intros; exact I. }
  destruct HB as (l0 & E & ND & NT & B1 & B2). rewrite E. cbn [bind].
  destruct (two_cuts m l0 r (box_keeps b x lat lon) pres "pressure" ND NT B1 B2 (or_intror m_stackable)
     (domain_of_stackable m m_stackable) m_gridded (proj1 common_fields) SS) as (m' & keep & E2 & SEL & KV & H).
  exists m', keep. split; [|split; [exact SEL|split; [exact KV|exact H]]].
  rewrite ER. unfold crop_opt in E2. destruct r as [[t0 t1]|]; exact E2.
Qed.
Lemma m_range r i : in_range r (mds m) "Time" i <->
  match r with None => True | Some (t0, t1) => (t0 <= INR i < t1)%R end.
Proof.
  unfold in_range, time_value. destruct r as [[t0 t1]|]; [|reflexivity]. rewrite no_time. split.
  - intros (t & [= <-] & H). exact H.
  - intro H. exists (INR i). auto.
Qed.

Lemma at_zero ix : at_ zero_grid ix = XF 0. Proof. reflexivity. Qed.
Lemma at_frac h ix : In h hs -> at_ (frac_grid h) ix = fraction o x h ix.
Proof.
  intro I. destruct (class_tables h I) as (_ & _ & NM & _ & _). destruct (fv_field _ NM) as (_ & DM & _).
  unfold frac_grid, fraction. destruct (w_nuwrf o) eqn:Q.
  - rewrite Bool.andb_true_r. cbn [andb]. destruct (memb h ["ci"; "cl"]) eqn:M.
    + apply memb_in in M. destruct (in_dec string_dec h ["cl"; "ci"]) as [_|N]; [|exfalso; apply N; simpl in *; tauto].
      rewrite <- (fv_val "CLDFRA" ix (cldfra Q)). destruct (fv_field _ (cldfra Q)) as (_ & DC & _).
      unfold at_. cbn [vdims vat]. rewrite DC. reflexivity.
    + apply memb_out in M. destruct (in_dec string_dec h ["cl"; "ci"]) as [N|_]; [exfalso; apply M; simpl in *; tauto|].
      rewrite <- (fv_val _ ix NM). unfold at_. cbn [vdims vat]. rewrite DM. reflexivity.
  - rewrite Bool.andb_false_r. cbn [andb]. rewrite <- (fv_val _ ix NM). unfold at_. cbn [vdims vat]. rewrite DM. reflexivity.
Qed.
Lemma at_num h ix : In h hs -> at_ (num_grid h) ix = per_cm3 (val x (number_field f h) ix) (wrf_rho x tk ix).
Proof.
  intro I. destruct (class_tables h I) as (_ & _ & _ & NN & _). destruct (fv_field _ NN) as (_ & DN & _).
  rewrite <- at_rho, <- (fv_val _ ix NN). unfold per_cm3, at_, num_grid. cbn [vdims vat]. rewrite DN, rho_dims. reflexivity.
Qed.
Lemma at_dens q v ix : In q (wrf_needed o f) -> In v (wrf_needed o f) ->
  at_ {| vdims := grid4; vat := vat (dens_grid q v) |} ix = particle_density (val x q ix) (val x v ix).
Proof.
  intros A B. transitivity (at_ (dens_grid q v) ix).
  - unfold at_. cbn [vdims vat]. rewrite (dens_dims q v A B). reflexivity.
  - unfold dens_grid. rewrite at_vmap, at_vbin, !fv_val by assumption. unfold particle_density, finite_or_900.
    destruct (xdiv _ _); reflexivity.
Qed.

(** The grid of the file, for saying where a column is. *)
Theorem wrf_reads b r lat lon : w_box o = box_of b ->
  w_range o = match r with None => None | Some (a, b) => Some (XF a, XF b) end ->
  (b <> None -> regular x lat lon) ->
  (forall t0 t1, r = Some (t0, t1) -> exists i, i < sz x "Time" /\ (t0 <= INR i < t1)%R) ->
  exists g m' keep, wrf_load o x z tk = Ok m' /\
    time_dim g = "Time" /\ lat_dim g = "south_north" /\ lon_dim g = "west_east" /\ sz (mds g) = sz x /\
    (forall d, In d (all_dims (mds g)) <-> In d grid4) /\
    selects (mds g) (fun d j => box_keeps b x lat lon d j /\
       (d = "Time" -> match r with None => True | Some (t0, t1) => (t0 <= INR j < t1)%R end)) keep /\
    held g keep m' "pressure" (wrf_pressure x) /\ held g keep m' "Z" (at_ z) /\ held g keep m' "T" (at_ tk) /\
    held g keep m' "rho_a" (wrf_rho x tk) /\ held g keep m' "QVAPOR" (val x "QVAPOR") /\
    (forall h, In h (classes f (w_graupel o)) ->
       held g keep m' ("q" ++ h ++ "s") (val x (mass_field h)) /\
       held g keep m' ("q" ++ h ++ "c") (fun _ => XF 0) /\ held g keep m' "conv_frac" (fun _ => XF 0) /\
       held g keep m' ("strat_" ++ h ++ "_frac") (fraction o x h) /\
       held g keep m' (number_field f h) (fun ix => per_cm3 (val x (number_field f h) ix) (wrf_rho x tk ix)) /\
       (f = NSSL -> held g keep m' (radius_field h) (val x (radius_field h)))) /\
    (w_scheme o = "nssl" ->
       held g keep m' "RHO_GRAUPEL" (fun ix => particle_density (val x "QGRAUP" ix) (val x "QVGRAUPEL" ix)) /\
       held g keep m' "RHO_HAIL" (fun ix => particle_density (val x "QHAIL" ix) (val x "QVHAIL" ix))) /\
    (w_scheme o <> "nssl" -> assoc (vars (mds m')) "RHO_GRAUPEL" = None /\ assoc (vars (mds m')) "RHO_HAIL" = None).
Proof.
  intros EB ER RG SS.
  destruct (wrf_cut b r lat lon EB ER RG) as (m' & keep & E & SEL & KV & H).
  { intro Q. destruct r as [[t0 t1]|]; [|tauto]. destruct (SS t0 t1 eq_refl) as (i & Hi & B). exists i.
    split; [exact Hi|]. apply m_range. exact B. }
  assert (HX : forall k v val0, field (mds m) k v -> (forall ix, at_ v ix = val0 ix) -> held m keep m' k val0).
  { intros k v val0 F A. destruct (H k v F) as (v' & F' & X' & A'). exists v'. split; [exact F'|]. split; [exact X'|]. intros ix I. rewrite A' by exact I. apply A. }
  destruct common_fields as (F1 & F2 & F3 & F4 & F5).
  exists m, m', keep. split; [exact E|]. do 4 (split; [reflexivity|]). split; [exact m_dims|]. split.
  { intros d I. destruct (SEL d I) as [Q1 Q2]. split; [exact Q1|]. intro i. rewrite Q2, m_range. reflexivity. }
  split; [exact (HX _ _ _ F1 at_pres)|]. split; [exact (HX _ _ _ F2 (fun _ => eq_refl))|].
  split; [exact (HX _ _ _ F3 (fun _ => eq_refl))|]. split; [exact (HX _ _ _ F4 at_rho)|].
  split; [apply (HX _ _ _ F5); intro ix; apply fv_val; apply need; simpl; auto|].
  split; [|split].
  - intros h I. destruct (class_fields h I) as (C1 & C2 & C3 & C4 & C5 & C6).
    destruct (class_tables h I) as (_ & _ & NM & NN & T3).
    split; [apply (HX _ _ _ C3); intro ix; apply fv_val; exact NM|].
    split; [exact (HX _ _ _ C2 at_zero)|]. split; [exact (HX _ _ _ C1 at_zero)|].
    split; [apply (HX _ _ _ C4); intro ix; apply at_frac; exact I|].
    split; [apply (HX _ _ _ C5); intro ix; apply at_num; exact I|].
    intro Q. apply (HX _ _ _ (C6 Q)). intro ix. apply fv_val. apply T3. exact Q.
  - intro Q. destruct (dens_fields Q) as (G1 & G2).
    split; [apply (HX _ _ _ G1)|apply (HX _ _ _ G2)]; intro ix; apply at_dens; apply dens_needed; simpl; auto.
  - intro Q. destruct (no_density Q) as [N1 N2]. rewrite <- KV in N1, N2.
    split; apply assoc_none; assumption.
Qed.
End Wrf.
