(** Sub-domains side by side. *)
From Verif Require Import App_Spec App_Names App_Strip Xds_Proofs Xds_Stack Xds_Round Xds_Fields Load_Facts.
Local Open Scope string_scope.
Local Open Scope list_scope.

Lemma sapp_inj_l p q q' : (p ++ q)%string = (p ++ q')%string -> q = q'.
Proof. induction p; simpl; intro E; [exact E|]. injection E as E. auto. Qed.
Lemma sapp_len_r p q : p = (p ++ q)%string -> q = "".
Proof. intro E. apply (sapp_inj_l p). rewrite sapp_nil. symmetry. exact E. Qed.
Lemma sapp_inj_r p p' q : (p ++ q)%string = (p' ++ q)%string -> p = p'.
Proof.
  intro E. apply (sapp_inj _ _ _ _ E). apply (f_equal String.length) in E. rewrite !slen_app in E. lia.
Qed.
Lemma last_snoc {A} (l : list A) a d : last (l ++ [a]) d = a.
Proof. induction l as [|b l IH]; [reflexivity|]. cbn [app last]. rewrite IH. destruct (l ++ [a]) eqn:E; [destruct l; discriminate|reflexivity]. Qed.

(** Which names are found. *)
Lemma bases_in sufs names b : In b (bases sufs names) <-> exists n s, In n names /\ In s sufs /\ head_at s n = Some b.
Proof.
  unfold bases.
  assert (I : forall n l sufs', In b (fold_left (fun l a => match head_at a n with
      | Some b => if memb b l then l else l ++ [b] | None => l end) sufs' l) <->
      In b l \/ exists s, In s sufs' /\ head_at s n = Some b).
  { intros n l sufs'. revert l. induction sufs' as [|s r IH]; intro l; cbn [fold_left].
    - split; [auto|]. intros [H|(s & [] & _)]. exact H.
    - rewrite IH. clear IH. split.
      + intros [H|(s' & I & H)]; [|right; exists s'; split; [right; exact I|exact H]].
        destruct (head_at s n) as [c|] eqn:E; [|auto]. destruct (memb c l) eqn:M; [auto|].
        apply in_app_or in H as [H|[<-|[]]]; [auto|]. right. exists s. split; [left; reflexivity|exact E].
      + intros [H|(s' & [<-|I] & H)].
        * left. destruct (head_at s n) as [c|]; [|exact H]. destruct (memb c l); [exact H|apply in_or_app; auto].
        * left. rewrite H. destruct (memb b l) eqn:M; [apply memb_in; exact M|apply in_or_app; right; left; reflexivity].
        * right. exists s'. auto. }
  assert (O : forall names' l, In b (fold_left (fun l n => fold_left (fun l a => match head_at a n with
      | Some b => if memb b l then l else l ++ [b] | None => l end) sufs l) names' l) <->
      In b l \/ exists n s, In n names' /\ In s sufs /\ head_at s n = Some b).
  { induction names' as [|n r IH]; intro l; cbn [fold_left].
    - split; [auto|]. intros [H|(n & s & [] & _)]. exact H.
    - rewrite IH, I. clear IH. split.
      + intros [[H|(s & J & H)]|(n' & s & J & J' & H)]; [auto|right; exists n, s; split; [left; reflexivity|auto]|].
        right. exists n', s. split; [right; exact J|auto].
      + intros [H|(n' & s & [<-|J] & J' & H)]; [auto|left; right; exists s; auto|right; exists n', s; auto]. }
  rewrite O. split; [intros [[]|H]; exact H|auto].
Qed.
Lemma bases_nodup sufs names : NoDup (bases sufs names).
Proof.
  unfold bases.
  assert (I : forall n sufs' l, NoDup l -> NoDup (fold_left (fun l a => match head_at a n with
      | Some b => if memb b l then l else l ++ [b] | None => l end) sufs' l)).
  { intros n. induction sufs' as [|s r IH]; intros l H; cbn [fold_left]; [exact H|]. apply IH.
    destruct (head_at s n) as [c|]; [|exact H]. destruct (memb c l) eqn:M; [exact H|].
    apply memb_out in M. apply NoDup_rev in H. rewrite <- (rev_involutive (l ++ [c])). apply NoDup_rev.
    rewrite rev_app_distr. constructor; [rewrite <- in_rev; exact M|exact H]. }
  assert (G : forall names' l, NoDup l -> NoDup (fold_left (fun l n => fold_left (fun l a => match head_at a n with
      | Some b => if memb b l then l else l ++ [b] | None => l end) sufs l) names' l)).
  { induction names' as [|n r IH]; intros l H; cbn [fold_left]; [exact H|]. apply IH, I, H. }
  apply G. constructor.
Qed.
Lemma head_of_cut s b : s <> "" -> cut_at s (b ++ s) b -> head_at s (b ++ s) = Some b.
Proof.
  intros N C. apply cut_iff in C. unfold cutf in C. destruct (string_dec s ""); [tauto|].
  destruct (head_at s (b ++ s)) as [t|]; [congruence|]. exfalso. apply sapp_len_r in C. tauto.
Qed.

Lemma merge_field_cons lat sufs a r x base : sufs = a :: r -> merge_field lat sufs x base =
  bind (getv x (base ++ a)%string) (fun v =>
      match shape x v with
      | [] => Raise IndexError
      | _ =>
          do (n, w) <- concat_all x (last (shape x v) 0) v (removelast (shape x v)) base r;
          if Nat.eqb n (sz x lat) then
            let x1 := setv x base {| vdims := removelast (vdims v) ++ [lat]; vat := vat w |} in
            Ok (drop_vars (map (fun a => (base ++ a)%string) sufs) x1)
          else Raise ValueError
      end).
Proof. intros ->. reflexivity. Qed.
(** Concatenation. *)
Lemma concat_ok x lat lead base sufs :
  (forall s, In s sufs -> exists v, getv x (base ++ s)%string = Ok v /\ vdims v = lead ++ [(lat ++ s)%string]) ->
  forall n acc, exists w,
    concat_all x n acc (map (sz x) lead) base sufs = Ok (n + starts x lat sufs (length sufs), w) /\
    (forall l i, i < n -> vat w (l ++ [i]) = vat acc (l ++ [i])) /\
    forall j s i v l, nth_error sufs j = Some s -> getv x (base ++ s)%string = Ok v -> i < sz x (lat ++ s)%string ->
      vat w (l ++ [n + (starts x lat sufs j + i)]) = vat v (l ++ [i]).
Proof.
  induction sufs as [|s r IH]; intros H n acc.
  - exists acc. split; [cbn; rewrite Nat.add_0_r; reflexivity|]. split; [reflexivity|]. intros [|j]; discriminate.
  - destruct (H s (or_introl eq_refl)) as (v & G & D).
    destruct (IH (fun s' I => H s' (or_intror I)) (n + sz x (lat ++ s)%string) (vconcat n acc v)) as (w & C & B & A).
    exists w. cbn [concat_all]. rewrite G. cbn [bind]. unfold shape. rewrite D, map_app. cbn [map].
    rewrite removelast_last, last_snoc. destruct (list_eq_dec Nat.eq_dec (map (sz x) lead) (map (sz x) lead)); [|tauto].
    destruct (map (sz x) lead ++ [sz x (lat ++ s)%string]) eqn:E; [destruct (map (sz x) lead); discriminate|]. clear E.
    split; [|split].
    + rewrite C. unfold starts. cbn [length firstn map]. change (list_sum (?a :: ?l)) with (a + list_sum l). rewrite Nat.add_assoc. reflexivity.
    + intros l0 i I. rewrite B by lia. unfold vconcat. cbn [vat]. rewrite last_snoc.
      destruct (Nat.ltb_spec i n); [reflexivity|lia].
    + intros [|j] s' i v' l0 J G' L.
      * cbn in J. injection J as <-. rewrite G in G'. injection G' as <-. unfold starts. cbn [firstn map list_sum fold_right Nat.add].
        rewrite B by lia. unfold vconcat. cbn [vat]. rewrite last_snoc, removelast_last.
        destruct (Nat.ltb_spec (n + i) n); [lia|]. replace (n + i - n) with i by lia. reflexivity.
      * cbn in J. specialize (A j s' i v' l0 J G' L). rewrite <- A. f_equal. f_equal. f_equal.
        unfold starts. cbn [firstn map]. change (list_sum (?a :: ?l)) with (a + list_sum l). lia.
Qed.

Section Merge.
Variables (m : mobj) (dims sufs bs : list string) (lead : string -> list string).
Hypothesis S : subdomains m dims sufs bs lead.
Let lat := lat_dim m.
Let x0 := mds m.

Lemma mg_suf s : In s sufs -> s <> "".
Proof. intros I ->. apply (proj2 (sb_sufs _ _ _ _ _ S)). exact I. Qed.
Lemma mg_appended : appended lat dims = sufs.
Proof.
  unfold appended, lat. rewrite (sb_dims _ _ _ _ _ S), map_map. rewrite <- (map_id sufs) at 2. apply map_ext.
  intro s. unfold drop_str. rewrite sub_app_r, slen_app. fold lat.
  replace (String.length lat + String.length s - String.length lat) with (String.length s) by lia. apply sub_all.
Qed.
Lemma mg_key k v : field x0 k v -> In k (map fst (all_vars x0)).
Proof. intro F. apply assoc_mem in F. apply in_map_iff. exists (k, v). split; [reflexivity|]. apply in_or_app. right. exact F. Qed.
Lemma mg_not_coord k v : field x0 k v -> assoc (coords x0) k = None.
Proof.
  intro F. apply assoc_none. intro I. pose proof (sb_keys _ _ _ _ _ S) as N. unfold all_vars in N. rewrite map_app in N.
  apply assoc_mem in F. apply (in_map fst) in F. fold x0 in N. revert I F N. cbn [fst]. generalize (map fst (coords x0)) (map fst (vars x0)).
  induction l as [|c l IH]; intros l' I F N; [destruct I|]. inversion N as [|? ? Nc N']; subst. destruct I as [->|I]; [|eapply IH; eauto].
  apply Nc. apply in_or_app. right. exact F.
Qed.
Lemma mg_unique b s b' s' : In b bs -> In s sufs -> In b' bs -> In s' sufs -> (b ++ s)%string = (b' ++ s')%string -> b = b' /\ s = s'.
Proof.
  intros B I B' I' E. destruct (sb_fields _ _ _ _ _ S b s B I) as (v & F & D & _).
  destruct (sb_fields _ _ _ _ _ S b' s' B' I') as (v' & F' & D' & _).
  rewrite <- E in F'. unfold field in F, F'. rewrite F in F'. injection F' as <-. rewrite D in D'.
  apply app_inj_tail in D' as [_ E']. apply sapp_inj_l in E'. subst s'. split; [apply (sapp_inj_r _ _ s E)|reflexivity].
Qed.
Lemma mg_bases b : In b (bases sufs (map fst (vars x0))) <-> In b bs.
Proof.
  rewrite bases_in. split.
  - intros (n & s & I & J & H). apply (sb_only _ _ _ _ _ S n s); [exact I|exact J| |].
    + destruct (head_some s n b (mg_suf s J) H) as ((q & Q) & _). exists b, q. exact Q.
    + right. split; [apply mg_suf; exact J|]. apply head_some; [apply mg_suf; exact J|exact H].
  - intro B. destruct (sb_found _ _ _ _ _ S b B) as (_ & _ & s & I & C).
    exists (b ++ s)%string, s. split; [|split; [exact I|apply head_of_cut; [apply mg_suf; exact I|exact C]]].
    destruct (sb_fields _ _ _ _ _ S b s B I) as (v & F & _). apply assoc_mem in F. apply in_map_iff. exists ((b ++ s)%string, v). auto.
Qed.

Let n := starts x0 lat sufs (length sufs).
Definition is_merged (b : string) (w : var) : Prop :=
  vdims w = lead b ++ [lat] /\
  forall j s i v l, nth_error sufs j = Some s -> field x0 (b ++ s) v -> i < sz x0 (lat ++ s)%string ->
    vat w (l ++ [starts x0 lat sufs j + i]) = vat v (l ++ [i]).
Variable x1 : xds.
Hypothesis Z : forall d, sz x1 d = if String.eqb d lat then n else sz x0 d.
Hypothesis Cx : forall k, k <> lat -> assoc (coords x1) k = assoc (coords x0) k.
Hypothesis Vx : vars x1 = vars x0.

Record merged_upto (P : list string) (x : xds) : Prop := {
  mu_sz : sz x = sz x1;
  mu_coords : forall k, assoc (coords x) k = assoc (coords x1) k;
  mu_in : forall b, In b P -> exists w, assoc (vars x) b = Some w /\ is_merged b w;
  mu_out : forall b s, In b P -> In s sufs -> assoc (vars x) (b ++ s)%string = None;
  mu_other : forall k, ~ In k P -> (forall b s, In b P -> In s sufs -> k <> (b ++ s)%string) -> assoc (vars x) k = assoc (vars x0) k
}.
Lemma mg_notname b b' s : In b bs -> In b' bs -> In s sufs -> b <> (b' ++ s)%string.
Proof.
  intros B B' I ->. destruct (sb_found _ _ _ _ _ S _ B) as (N & _). apply N.
  destruct (sb_fields _ _ _ _ _ S b' s B' I) as (v & F & _). eapply mg_key. exact F.
Qed.
Lemma merge_step P x b : incl P bs -> In b bs -> ~ In b P -> merged_upto P x ->
  exists x', merge_field lat sufs x b = Ok x' /\ merged_upto (b :: P) x'.
Proof.
  intros PB B NB [U1 U2 U3 U4 U5].
  assert (G : forall s, In s sufs -> exists v, field x0 (b ++ s) v /\ getv x (b ++ s)%string = Ok v /\ vdims v = lead b ++ [(lat ++ s)%string]).
  { intros s I. destruct (sb_fields _ _ _ _ _ S b s B I) as (v & F & D & _). exists v. split; [exact F|]. split; [|exact D].
    unfold getv, all_vars. rewrite assoc_app, U2.
    rewrite Cx; [|intros E; apply (proj2 (sb_new _ _ _ _ _ S)); fold lat; rewrite <- E; eapply mg_key; exact F].
    rewrite (mg_not_coord _ _ F). rewrite U5; [unfold x0; unfold field in F; rewrite F; reflexivity| |].
    - intro J. apply (mg_notname (b ++ s)%string b s); auto.
    - intros b' s' J J' E. destruct (mg_unique b s b' s' B I (PB _ J) J' E) as (-> & _). tauto. }
  assert (ZS : forall s, In s sufs -> sz x (lat ++ s)%string = sz x0 (lat ++ s)%string).
  { intros s I. rewrite U1, Z. destruct (String.eqb_spec (lat ++ s) lat) as [E|]; [|reflexivity].
    exfalso. apply (mg_suf s I). apply (sapp_len_r lat). symmetry. exact E. }
  assert (ST : forall r j, incl r sufs -> starts x lat r j = starts x0 lat r j).
  { intros r j I. unfold starts. f_equal. apply map_ext_in. intros s J. apply ZS, I.
    rewrite <- (firstn_skipn j r). apply in_or_app. left. exact J. }
  assert (NE : sufs <> []).
  { intro E. pose proof (sb_size _ _ _ _ _ S) as Q. rewrite E in Q. cbn in Q. lia. }
  assert (EX : exists a r, sufs = a :: r) by (clear - NE; destruct sufs; [tauto|eauto]). destruct EX as (a & r & ES).
  rewrite (merge_field_cons lat sufs a r x b ES).
  assert (Ia : In a sufs) by (rewrite ES; left; reflexivity).
  assert (Ir : incl r sufs) by (rewrite ES; intros c I; right; exact I).
  destruct (G a Ia) as (v & F & Gv & D). rewrite Gv. cbn [bind]. unfold shape. rewrite D, map_app. cbn [map].
  destruct (map (sz x) (lead b) ++ [sz x (lat ++ a)%string]) eqn:E; [destruct (map (sz x) (lead b)); discriminate|]. rewrite <- E. clear E.
  rewrite !removelast_last, last_snoc.
  destruct (concat_ok x lat (lead b) b r (fun s I => let '(ex_intro _ v (conj _ H)) := G s (Ir s I) in ex_intro _ v H)
              (sz x (lat ++ a)%string) v) as (w & C & A1 & A2).
  rewrite C. cbn [bind].
  assert (T : sz x (lat ++ a)%string + starts x lat r (length r) = sz x lat).
  { assert (SL : sz x lat = n) by (rewrite U1, Z, String.eqb_refl; reflexivity). rewrite SL.
    transitivity (starts x lat sufs (length sufs)); [rewrite ES; reflexivity|apply ST, incl_refl]. }
  rewrite T, Nat.eqb_refl. eexists. split; [reflexivity|].
  set (gone := map (fun a => (b ++ a)%string) sufs).
  assert (GN : forall k, memb k gone = true <-> exists s, In s sufs /\ k = (b ++ s)%string).
  { intro k. rewrite memb_in. unfold gone. rewrite in_map_iff. split; intros (s & H1 & H2); exists s; auto. }
  constructor.
  - cbn. exact U1.
  - intro k. unfold drop_vars. cbn [coords setv]. rewrite (assoc_filter_keys (fun k => negb (memb k gone))). destruct (memb k gone) eqn:M; cbn [negb]; [|apply U2].
    apply GN in M as (s & I & ->). destruct (G s I) as (vs & Fs & _).
    rewrite Cx; [|intros E; apply (proj2 (sb_new _ _ _ _ _ S)); fold lat; rewrite <- E; eapply mg_key; exact Fs].
    symmetry. apply (mg_not_coord _ _ Fs).
  - intros b' [<-|J].
    + exists {| vdims := lead b ++ [lat]; vat := vat w |}. split.
      * unfold drop_vars. cbn [vars setv]. rewrite (assoc_filter_keys (fun k => negb (memb k gone))). destruct (memb b gone) eqn:M; cbn [negb]; [|apply put_same].
        exfalso. apply GN in M as (s & I & E). apply (mg_notname b b s); auto.
      * split; [reflexivity|]. cbn [vat]. intros j s i v' l0 J Fv L. rewrite <- ST by apply incl_refl.
        assert (Is : In s sufs) by (eapply nth_error_In; exact J).
        rewrite <- (ZS s Is) in L.
        assert (Gs : getv x (b ++ s)%string = Ok v').
        { destruct (G s Is) as (v2 & F2 & G2 & _). unfold field in Fv, F2. rewrite Fv in F2. injection F2 as <-. exact G2. }
        rewrite ES in J |- *. destruct j as [|j].
        -- cbn in J. injection J as <-. rewrite Gv in Gs. injection Gs as <-. unfold starts. cbn [firstn map list_sum fold_right Nat.add].
           apply A1. exact L.
        -- cbn in J. specialize (A2 j s i v' l0 J Gs L). rewrite <- A2. f_equal. f_equal. f_equal.
           unfold starts. cbn [firstn map]. change (list_sum (?a :: ?l)) with (a + list_sum l). lia.
    + destruct (U3 b' J) as (w' & W & M'). exists w'. split; [|exact M'].
      unfold drop_vars. cbn [vars setv]. rewrite (assoc_filter_keys (fun k => negb (memb k gone))). destruct (memb b' gone) eqn:M; cbn [negb].
      * exfalso. apply GN in M as (s & I & E). apply (mg_notname b' b s); auto.
      * rewrite put_other; [exact W|]. intros ->. tauto.
  - intros b' s [<-|J] I; unfold drop_vars; cbn [vars setv]; rewrite (assoc_filter_keys (fun k => negb (memb k gone))).
    + replace (memb (b ++ s)%string gone) with true; [reflexivity|]. symmetry. apply GN. exists s. auto.
    + destruct (memb (b' ++ s)%string gone); [reflexivity|]. cbn [negb]. rewrite put_other; [apply U4; assumption|].
      intro E. apply (mg_notname b b' s); auto.
  - intros k N1 N2. unfold drop_vars. cbn [vars setv]. rewrite (assoc_filter_keys (fun k => negb (memb k gone))). destruct (memb k gone) eqn:M; cbn [negb].
    + exfalso. apply GN in M as (s & I & ->). apply (N2 b s); [left; reflexivity|exact I|reflexivity].
    + rewrite put_other by (intros ->; apply N1; left; reflexivity). apply U5; [intro J; apply N1; right; exact J|].
      intros b' s J I. apply N2; [right; exact J|exact I].
Qed.
Lemma merge_all : forall todo P x, incl P bs -> incl todo bs -> NoDup todo -> (forall b, In b todo -> ~ In b P) -> merged_upto P x ->
  exists x' Q, merge_fields lat sufs todo x = Ok x' /\ (forall b, In b Q <-> In b P \/ In b todo) /\ merged_upto Q x'.
Proof.
  induction todo as [|b r IH]; intros P x PB TB ND D U.
  - exists x, P. split; [reflexivity|]. split; [intro c; simpl; tauto|exact U].
  - inversion ND as [|? ? Nb ND']; subst.
    destruct (merge_step P x b PB (TB b (or_introl eq_refl)) (D b (or_introl eq_refl)) U) as (x' & E & U').
    destruct (IH (b :: P) x') as (x2 & Q & E2 & HQ & U2).
    + intros c [<-|I]; [apply TB; left; reflexivity|apply PB; exact I].
    + intros c I. apply TB. right. exact I.
    + exact ND'.
    + intros c I [<-|J]; [tauto|]. apply (D c); [right; exact I|exact J].
    + exact U'.
    + exists x2, Q. cbn [merge_fields]. rewrite E. cbn [bind]. split; [exact E2|]. split; [|exact U2].
      intro c. rewrite HQ. simpl. tauto.
Qed.
End Merge.

Theorem merge_ok m dims sufs bs lead : subdomains m dims sufs bs lead -> exists m',
  remove_appended_str true dims m = Ok m' /\
  (lat_dim m' = lat_dim m /\ lon_dim m' = lon_dim m /\ time_dim m' = time_dim m /\ height_dim m' = height_dim m) /\
  sz (mds m') (lat_dim m) = starts (mds m) (lat_dim m) sufs (length sufs) /\
  (forall d, d <> lat_dim m -> sz (mds m') d = sz (mds m) d) /\
  (exists c, assoc (coords (mds m')) (lat_dim m) = Some c /\ vdims c = [lat_dim m] /\
     forall i, vat c [i] = XF (INR i)) /\
  (forall k, k <> lat_dim m -> assoc (coords (mds m')) k = assoc (coords (mds m)) k) /\
  (forall b, In b bs -> exists w, field (mds m') b w /\ vdims w = lead b ++ [lat_dim m] /\
     forall j s i v ix, nth_error sufs j = Some s -> field (mds m) (b ++ s) v -> i < sz (mds m) (lat_dim m ++ s)%string ->
       at_ w (with_index ix (lat_dim m) (starts (mds m) (lat_dim m) sufs j + i)) =
       at_ v (with_index ix (lat_dim m ++ s)%string i)) /\
  (forall b s, In b bs -> In s sufs -> assoc (vars (mds m')) (b ++ s)%string = None) /\
  (forall k, ~ In k bs -> (forall b s, In b bs -> In s sufs -> k <> (b ++ s)%string) ->
     assoc (vars (mds m')) k = assoc (vars (mds m)) k).
Proof.
  intro S. unfold remove_appended_str. rewrite (mg_appended _ _ _ _ _ S).
  pose proof (sb_size _ _ _ _ _ S) as SZ. unfold starts in SZ at 1. rewrite firstn_all in SZ.
  destruct (Nat.eqb_spec (list_sum (map (fun a => sz (mds m) (lat_dim m ++ a)%string) sufs)) 0) as [E|_]; [lia|].
  set (n := list_sum (map (fun a => sz (mds m) (lat_dim m ++ a)%string) sufs)) in *.
  assert (NS : n = starts (mds m) (lat_dim m) sufs (length sufs)) by (unfold starts; rewrite firstn_all; reflexivity).
  unfold assign_arange.
  assert (HD : has_dim (drop_vars [lat_dim m] (mds m)) (lat_dim m) = false).
  { destruct (has_dim (drop_vars [lat_dim m] (mds m)) (lat_dim m)) eqn:E; [|reflexivity]. exfalso.
    apply has_dim_in, in_dims in E as (k & v & I & D). apply (proj1 (sb_new _ _ _ _ _ S)). apply in_dims. exists k, v. split; [|exact D].
    unfold all_vars, drop_vars in I. cbn [coords vars] in I. rewrite <- filter_app in I. apply filter_In in I. tauto. }
  rewrite HD. cbn [andb bind].
  set (x1 := {| sz := _; coords := _; vars := _ |}).
  assert (Zx : forall d, sz x1 d = if String.eqb d (lat_dim m) then starts (mds m) (lat_dim m) sufs (length sufs) else sz (mds m) d)
    by (intro d; cbn; rewrite NS; reflexivity).
  assert (Cx : forall k, k <> lat_dim m -> assoc (coords x1) k = assoc (coords (mds m)) k) by (intros k N; cbn; apply put_other; exact N).
  destruct (merge_all m dims sufs bs lead S x1 Zx Cx (bases sufs (map fst (vars (mds m)))) [] x1)
    as (x' & Q & E & HQ & U).
  { intros c []. }
  { intros c I. apply (mg_bases m dims sufs bs lead S). exact I. }
  { apply bases_nodup. }
  { intros b _ []. }
  { constructor; [reflexivity|reflexivity|intros b []|intros b s []|reflexivity]. }
  rewrite E. cbn [bind]. eexists. split; [reflexivity|]. split; [repeat split|].
  assert (HQ' : forall b, In b Q <-> In b bs).
  { intro b. rewrite HQ. rewrite (mg_bases m dims sufs bs lead S). simpl. tauto. }
  destruct U as [U1 U2 U3 U4 U5]. cbn [mds with_ds].
  split; [rewrite U1, Zx, String.eqb_refl; reflexivity|].
  split; [intros d N; rewrite U1, Zx; apply String.eqb_neq in N; rewrite N; reflexivity|].
  split. { exists {| vdims := [lat_dim m]; vat := fun ix => XF (INR (nth 0 ix 0)) |}. rewrite U2. split; [cbn; apply put_same|]. split; reflexivity. }
  split; [intros k N; rewrite U2; apply Cx, N|].
  split.
  { intros b B. apply HQ' in B. destruct (U3 b B) as (w & W & D & V). exists w. split; [exact W|]. split; [exact D|].
    intros j s i v ix J F L. apply HQ' in B. assert (Is : In s sufs) by (eapply nth_error_In; exact J).
    destruct (sb_fields _ _ _ _ _ S b s B Is) as (v2 & F2 & D2 & NL). unfold field in F, F2. rewrite F in F2. injection F2 as <-.
    unfold at_. rewrite D, D2, !map_app. cbn [map]. unfold with_index at 2 4.
    destruct (string_dec (lat_dim m) (lat_dim m)); [|tauto].
    destruct (string_dec (lat_dim m ++ s) (lat_dim m ++ s)); [|tauto].
    rewrite (V j s i v _ J F L). f_equal. f_equal. apply map_ext_in. intros d I. unfold with_index.
    destruct (string_dec d (lat_dim m)) as [->|].
    { exfalso. apply (proj1 (sb_new _ _ _ _ _ S)). eapply field_dims; [exact F|]. rewrite D2. apply in_or_app. left. exact I. }
    destruct (string_dec d (lat_dim m ++ s)) as [->|]; [exfalso; apply (NL s Is I)|reflexivity]. }
  split; [intros b s B I; apply U4; [apply HQ'; exact B|exact I]|].
  intros k N1 N2. apply U5; [rewrite HQ'; exact N1|]. intros b s B I. apply N2; [apply HQ'; exact B|exact I].
Qed.

(** No appended dimension: nothing changes. *)
Theorem merge_none m dims : (forall d, In d dims -> String.prefix (lat_dim m ++ "_") d = false) ->
  remove_appended_str true dims m = Ok m.
Proof.
  intro H. unfold remove_appended_str, appended.
  replace (filter (String.prefix (lat_dim m ++ "_")) dims) with (@nil string); [reflexivity|].
  induction dims as [|d r IH]; [reflexivity|]. cbn [filter]. rewrite H by (left; reflexivity). apply IH. intros c I. apply H. right. exact I.
Qed.
