(** The derived fields and the loop over the classes. *)
From Verif Require Import Load_Spec Load_Facts Xds_Proofs Xds_Stack Xds_Round Xds_Ops.
Local Open Scope string_scope.
Local Open Scope list_scope.

(** Field [k] has dimensions [D] and the values [val]. *)
Definition holds (x : xds) (k : string) (D : list string) (val : (string -> nat) -> xr) : Prop :=
  exists v, field x k v /\ vdims v = D /\ forall ix, at_ v ix = val ix.
(** Only the fields [ks] change. *)
Definition only (x x' : xds) (ks : list string) : Prop :=
  coords x' = coords x /\ sz x' = sz x /\ forall k, ~ In k ks -> assoc (vars x') k = assoc (vars x) k.

Lemma only_refl x ks : only x x ks.
Proof. repeat split. Qed.
Lemma only_trans x y z a b : only x y a -> only y z b -> only x z (a ++ b).
Proof.
  intros (A & B & C) (A' & B' & C'). split; [congruence|]. split; [congruence|].
  intros k N. rewrite in_app_iff in N. rewrite C', C; tauto.
Qed.
Lemma only_incl x y a b : only x y a -> incl a b -> only x y b.
Proof. intros (A & B & C) I. repeat split; auto. Qed.
Lemma only_set x k v : only x (setv x k v) [k].
Proof. repeat split. intros k' N. apply set_other. simpl in N. intuition. Qed.
Lemma holds_only x y ks k D val : only x y ks -> ~ In k ks -> holds x k D val -> holds y k D val.
Proof. intros (_ & _ & C) N (v & F & H). exists v. split; [|exact H]. unfold field. rewrite C; assumption. Qed.
Lemma holds_get x k D val : holds x k D val -> ~ In k (map fst (coords x)) ->
  exists v, getv x k = Ok v /\ vdims v = D /\ forall ix, at_ v ix = val ix.
Proof. intros (v & F & H) N. exists v. split; [apply getv_var; assumption|exact H]. Qed.
Lemma holds_ext x k D f g : (forall ix, f ix = g ix) -> holds x k D f -> holds x k D g.
Proof. intros E (v & F & H & A). exists v. repeat split; auto. intro ix. rewrite A. apply E. Qed.
Lemma filter_none v w : (forall d, In d (vdims w) -> In d (vdims v)) ->
  filter (fun d => negb (memb d (vdims v))) (vdims w) = [].
Proof.
  intro H. induction (vdims w) as [|d l IH]; [reflexivity|]. cbn [filter].
  assert (M : memb d (vdims v) = true) by (apply memb_in; apply H; left; reflexivity). rewrite M. cbn [negb].
  apply IH. intros c C. apply H. right. exact C.
Qed.
Lemma filter_all {A} (p : A -> bool) l : (forall a, In a l -> p a = true) -> filter p l = l.
Proof.
  induction l as [|a l IH]; intro H; [reflexivity|]. cbn [filter]. rewrite (H a) by (left; reflexivity).
  f_equal. apply IH. intros b B. apply H. right. exact B.
Qed.
Lemma at_map v w f ix : vdims w = vdims v -> (forall l, vat w l = f (vat v l)) -> at_ w ix = f (at_ v ix).
Proof. intros E H. unfold at_. rewrite E. apply H. Qed.

Section Loop.
Variable si : bool.
Let f := e3sm_fields si.

Lemma pressure_ok x h T P0 am bm ps (DP : list string) :
  (forall k, In k ["P0"; "hyam"; "PS"; "hybm"; "T"; "p_3d"] -> ~ In k (map fst (coords x))) ->
  (forall d, In d (vdims T) <-> In d DP \/ d = h) -> 
  field x "T" T -> holds x "P0" [] P0 -> holds x "hyam" [h] am -> holds x "hybm" [h] bm -> holds x "PS" DP ps ->
  let p ix := xdiv (xadd (xmul (P0 ix) (am ix)) (xmul (ps ix) (bm ix))) (XF 100) in
  exists x', e3sm_pressure f x = Ok x' /\ only x x' ["p_3d"; "zeros_cf"; "rho_a"] /\
    holds x' "p_3d" (vdims T) p /\ holds x' "zeros_cf" (vdims T) (fun _ => XF 0) /\
    holds x' "rho_a" (vdims T) (fun ix => xdiv (xmul (p ix) (XF 100)) (xmul (XF R_d) (at_ T ix))).
Proof.
  intros C U FT HP HA HB HS p.
  destruct (holds_get _ _ _ _ HP (C "P0" ltac:(simpl; auto 10))) as (vP & GP & DP0 & AP).
  destruct (holds_get _ _ _ _ HA (C "hyam" ltac:(simpl; auto 10))) as (vA & GA & DA & AA).
  destruct (holds_get _ _ _ _ HB (C "hybm" ltac:(simpl; auto 10))) as (vB & GB & DB & AB).
  destruct (holds_get _ _ _ _ HS (C "PS" ltac:(simpl; auto 10))) as (vS & GS & DS & AS).
  unfold e3sm_pressure. rewrite GP, GA, GS, GB. cbn [bind]. change (f_T f) with "T". change (f_p f) with "p_3d".
  rewrite (getv_var x "T" T FT (C "T" ltac:(simpl; auto 10))). cbn [bind].
  set (s := vbin xadd (vbin xmul vP vA) (vbin xmul vS vB)). set (s1 := vmap (fun a => xdiv a (XF 100)) s).
  assert (D1 : forall d, In d (vdims s1) <-> In d (vdims T)).
  { intro d. change (vdims s1) with (vdims s). unfold s. rewrite !vbin_dims, DP0, DA, DS, DB, U. simpl. intuition. }
  rewrite vtranspose_ok by (intro d; symmetry; apply D1). cbn [bind].
  set (pv := vtrans (vdims T) s1).
  assert (Dp : vdims pv = vdims T).
  { unfold pv, vtrans. cbn [vdims]. apply filter_all. intros a A. apply memb_in. apply D1. exact A. }
  assert (Ap : forall ix, at_ pv ix = p ix).
  { intro ix. unfold pv. rewrite at_trans by (intros d H; apply D1; exact H). unfold s1. rewrite at_vmap.
    unfold s. rewrite !at_vbin, AP, AA, AS, AB. reflexivity. }
  set (x1 := setv x "p_3d" pv). set (z := vmap (fun _ => XF 0) pv). set (x2 := setv x1 "zeros_cf" z).
  unfold calc_air_density. change (f_T f) with "T". change (f_p f) with "p_3d".
  assert (T2 : assoc (vars x2) "T" = Some T).
  { unfold x2. rewrite set_other by discriminate. unfold x1. rewrite set_other by discriminate. exact FT. }
  rewrite T2.
  assert (P2 : getv x2 "p_3d" = Ok pv).
  { apply getv_var; [|exact (C "p_3d" ltac:(simpl; auto 10))].
    unfold field, x2. rewrite set_other by discriminate. apply set_same. }
  rewrite P2. cbn [bind]. eexists. split; [reflexivity|].
  split; [|split; [|split]].
  - eapply (only_trans _ x2 _ ["p_3d"; "zeros_cf"] ["rho_a"]); [|apply only_set].
    eapply (only_trans _ x1 _ ["p_3d"] ["zeros_cf"]); apply only_set.
  - exists pv. split; [|split; [exact Dp|exact Ap]]. unfold field. rewrite set_other by discriminate.
    unfold x2. rewrite set_other by discriminate. apply set_same.
  - exists z. split; [|split; [exact Dp|]]. unfold field. rewrite set_other by discriminate. apply set_same.
    intro ix. reflexivity.
  - eexists. split; [apply set_same|]. split.
    + cbn [vbin vdims vmap]. rewrite Dp.
      rewrite (filter_none T T) by auto. apply app_nil_r.
    + intro ix. rewrite at_vbin, !at_vmap, Ap. reflexivity.
Qed.

Lemma vpos_hold x op v w D a b : vdims v = D -> vdims w = D -> (forall ix, at_ v ix = a ix) -> (forall ix, at_ w ix = b ix) ->
  exists u, vpos x op v w = Ok u /\ vdims u = D /\ forall ix, at_ u ix = op (a ix) (b ix).
Proof.
  intros E1 E2 A B. eexists. split; [apply vpos_ok; congruence|]. split; [exact E1|].
  intro ix. unfold at_. cbn [vdims vat]. rewrite <- A, <- B. unfold at_. rewrite E2, E1. reflexivity.
Qed.

Definition nmN h := match assoc (f_N f) h with Some k => k | None => "" end.
Definition nmR h := match assoc (f_re f) h with Some k => k | None => "" end.

Lemma class_ok x h D n r rho :
  assoc (f_N f) h <> None -> assoc (f_re f) h <> None -> nmN h <> nmR h ->
  (forall k, In k [nmN h; nmR h; "rho_a"] -> ~ In k (map fst (coords x))) ->
  holds x (nmN h) D n -> holds x (nmR h) D r -> holds x "rho_a" D rho ->
  exists x', e3sm_class f x h = Ok x' /\ only x x' [nmN h; nmR h] /\
    holds x' (nmN h) D (fun ix => xmul (n ix) (xdiv (rho ix) (XF (10 ^ 6)))) /\
    holds x' (nmR h) D (fun ix => radius h (r ix)).
Proof.
  intros AN AR NE C HN HR HO. unfold e3sm_class, dget, nmN, nmR in *.
  destruct (assoc (f_N f) h) as [nn|]; [|tauto]. destruct (assoc (f_re f) h) as [rn|]; [|tauto]. cbn [bind].
  destruct (holds_get _ _ _ _ HN (C nn ltac:(simpl; auto))) as (vn & Gn & Dn & An).
  destruct (holds_get _ _ _ _ HO (C "rho_a" ltac:(simpl; auto))) as (vo & Go & Do & Ao).
  rewrite Gn, Go. cbn [bind].
  destruct (vpos_hold x (fun a r => xmul a (xdiv r (XF (10 ^ 6)))) vn vo D _ _ Dn Do An Ao) as (u & Eu & Du & Au).
  rewrite Eu. cbn [bind].
  assert (HR1 : holds (setv x nn u) rn D r) by (eapply holds_only; [apply only_set| |exact HR]; simpl; intuition).
  destruct (holds_get _ _ _ _ HR1 (C rn ltac:(simpl; auto))) as (vr & Gr & Dr & Ar).
  rewrite Gr. cbn [bind]. eexists. split; [reflexivity|]. split; [|split].
  - eapply (only_trans _ (setv x nn u) _ [nn] [rn]); apply only_set.
  - exists u. split; [|auto]. unfold field. rewrite set_other by exact NE. apply set_same.
  - eexists. split; [apply set_same|]. split.
    + cbn [vmap vdims]. destruct (is_precip h); exact Dr.
    + intro ix. rewrite at_vmap. unfold radius. change (String.prefix "p" h) with (is_precip h). destruct (is_precip h); rewrite ?at_vmap, Ar; reflexivity.
Qed.

Definition p3_names := ["in_cld_Ni"; "Fr"; "rho_r"; "qi_norm"].
Lemma p3_ok x D n q rim fr vol :
  (forall k, In k ["NUMICE"; "CLDICE"; "CLDRIM"; "FREQI"; "BVRIM"] -> ~ In k (map fst (coords x))) ->
  holds x "NUMICE" D n -> holds x "CLDICE" D q -> holds x "CLDRIM" D rim -> holds x "FREQI" D fr -> holds x "BVRIM" D vol ->
  let ni ix := xmul (xdiv (n ix) (fr ix)) (XF (10 ^ 6)) in
  let F ix := xdiv (rim ix) (q ix) in
  exists x', e3sm_p3 f x = Ok x' /\ only x x' p3_names /\
    holds x' "in_cld_Ni" D ni /\ holds x' "Fr" D F /\
    holds x' "rho_r" D (fun ix => if xeqb (F ix) (XF 0) then XF 0 else xdiv (rim ix) (vol ix)) /\
    holds x' "qi_norm" D (fun ix => xdiv (xdiv (q ix) (fr ix)) (ni ix)).
Proof.
  intros C HN HQ HM HF HV ni F. unfold e3sm_p3, dget.
  change (assoc (f_q f) "ci") with (Some "CLDICE"). change (assoc (f_N f) "ci") with (Some "NUMICE").
  change (assoc (f_frac f) "ci") with (Some "FREQI"). cbn [bind].
  destruct (holds_get _ _ _ _ HN (C "NUMICE" ltac:(simpl; auto))) as (vn & Gn & Dn & An).
  destruct (holds_get _ _ _ _ HQ (C "CLDICE" ltac:(simpl; auto))) as (vq & Gq & Dq & Aq).
  destruct (holds_get _ _ _ _ HM (C "CLDRIM" ltac:(simpl; auto))) as (vm & Gm & Dm & Am).
  destruct (holds_get _ _ _ _ HF (C "FREQI" ltac:(simpl; auto))) as (vf & Gf & Df & Af).
  rewrite Gq, Gm, Gn, Gf. cbn [bind].
  destruct (vpos_hold x xdiv vn vf D _ _ Dn Df An Af) as (u0 & E0 & D0 & A0). rewrite E0. cbn [bind].
  set (u := vmap (fun a => xmul a (XF (10 ^ 6))) u0).
  assert (Au : forall ix, at_ u ix = ni ix) by (intro ix; unfold u; rewrite at_vmap, A0; reflexivity).
  set (x1 := setv x "in_cld_Ni" u).
  destruct (vpos_hold x xdiv vm vq D _ _ Dm Dq Am Aq) as (w0 & E1 & D1 & A1). rewrite E1. cbn [bind].
  set (w := {| vdims := vdims vn; vat := vat w0 |}).
  assert (Dw : vdims w = D) by exact Dn.
  assert (Aw : forall ix, at_ w ix = F ix).
  { intro ix. unfold F. rewrite <- A1. unfold at_. rewrite Dw, D1. reflexivity. }
  set (x2 := setv x1 "Fr" w).
  assert (O2 : only x x2 ["in_cld_Ni"; "Fr"]) by (eapply (only_trans _ x1 _ [_] [_]); apply only_set).
  assert (HV2 : holds x2 "BVRIM" D vol) by (eapply holds_only; [exact O2| |exact HV]; simpl; intuition discriminate).
  destruct (holds_get _ _ _ _ HV2 (C "BVRIM" ltac:(simpl; auto 10))) as (vv & Gv & Dv & Av).
  rewrite Gv. cbn [bind].
  destruct (vpos_hold x xdiv vm vv D _ _ Dm Dv Am Av) as (t0 & E2 & D2 & A2). rewrite E2. cbn [bind].
  destruct (vpos_hold x (fun a r => if xeqb a (XF 0) then XF 0 else r) w t0 D _ _ Dw D2 Aw A2) as (t1 & E3 & D3 & A3).
  rewrite E3. cbn [bind].
  set (t := {| vdims := vdims vn; vat := vat t1 |}). set (x3 := setv x2 "rho_r" t).
  destruct (vpos_hold x xdiv vq vf D _ _ Dq Df Aq Af) as (s0 & E4 & D4 & A4). rewrite E4. cbn [bind].
  destruct (vpos_hold x xdiv s0 u D _ _ D4 D0 A4 Au) as (s1 & E5 & D5 & A5). rewrite E5. cbn [bind].
  eexists. split; [reflexivity|].
  assert (N : forall a b : string, (if string_dec a b then False else True) -> a <> b)
    by (intros a b; destruct (string_dec a b); tauto).
  split; [|split; [|split; [|split]]].
  - eapply (only_trans _ x3 _ ["in_cld_Ni"; "Fr"; "rho_r"] [_]); [|apply only_set].
    eapply (only_trans _ x2 _ ["in_cld_Ni"; "Fr"] [_]); [exact O2|apply only_set].
  - exists u. split; [|split; [exact D0|exact Au]].
    unfold field. rewrite set_other by discriminate. unfold x3. rewrite set_other by discriminate.
    unfold x2. rewrite set_other by discriminate. apply set_same.
  - exists w. split; [|split; [exact Dw|exact Aw]].
    unfold field. rewrite set_other by discriminate. unfold x3. rewrite set_other by discriminate. apply set_same.
  - exists t. split; [|split; [exact Dn|]].
    + unfold field. rewrite set_other by discriminate. apply set_same.
    + intro ix. rewrite <- (A3 ix). unfold at_, t. cbn [vdims vat]. rewrite Dn, D3. reflexivity.
  - eexists. split; [apply set_same|]. split; [exact Dn|]. intro ix. rewrite <- (A5 ix).
    unfold at_. cbn [vdims vat]. rewrite Dn, D5. reflexivity.
Qed.

(** The names written by the loop. *)
Definition names hs := flat_map (fun h => [nmN h; nmR h]) hs.
Definition known h := assoc (f_N f) h <> None /\ assoc (f_re f) h <> None.

Section P3.
Variables (D : list string) (rho q rim fr vol : (string -> nat) -> xr) (n r : string -> (string -> nat) -> xr).
Let ready (p3 : bool) (hs : list string) (x : xds) : Prop :=
  (forall k, In k ("rho_a" :: names hs ++ if p3 then ["NUMICE"; "CLDICE"; "CLDRIM"; "FREQI"; "BVRIM"] else []) -> ~ In k (map fst (coords x))) /\
  holds x "rho_a" D rho /\
  (forall h, In h hs -> holds x (nmN h) D (n h) /\ holds x (nmR h) D (r h)) /\
  (p3 = true -> In "ci" hs ->
     holds x "CLDICE" D q /\ holds x "CLDRIM" D rim /\ holds x "FREQI" D fr /\ holds x "BVRIM" D vol).

Lemma loop_ok p3 hs : forall x, ready p3 hs x ->
  (forall h, In h hs -> known h) -> NoDup (names hs) -> NoDup hs ->
  (forall k, In k (names hs) -> ~ In k ("rho_a" :: p3_names ++ ["CLDICE"; "CLDRIM"; "FREQI"; "BVRIM"])) ->
  let N h ix := xmul (n h ix) (xdiv (rho ix) (XF (10 ^ 6))) in
  exists x', e3sm_loop f p3 hs x = Ok x' /\ only x x' (names hs ++ if p3 && memb "ci" hs then p3_names else []) /\
    (forall h, In h hs -> holds x' (nmN h) D (N h) /\ holds x' (nmR h) D (fun ix => radius h (r h ix))) /\
    (p3 = true -> In "ci" hs ->
      let ni ix := xmul (xdiv (N "ci" ix) (fr ix)) (XF (10 ^ 6)) in
      let F ix := xdiv (rim ix) (q ix) in
      holds x' "in_cld_Ni" D ni /\ holds x' "Fr" D F /\
      holds x' "rho_r" D (fun ix => if xeqb (F ix) (XF 0) then XF 0 else xdiv (rim ix) (vol ix)) /\
      holds x' "qi_norm" D (fun ix => xdiv (xdiv (q ix) (fr ix)) (ni ix))).
Proof.
  induction hs as [|h hs IH]; intros x (C & HO & HC & HP) K ND NH DJ N; cbn [e3sm_loop].
  - exists x. split; [reflexivity|]. split; [apply only_refl|]. split; [intros h []|intros _ []].
  - cbn [names flat_map app] in C, DJ, ND. fold (names hs) in C, DJ, ND.
    apply NoDup_cons_iff in ND as [N1 ND]. apply NoDup_cons_iff in ND as [N2 ND]. apply NoDup_cons_iff in NH as [N3 NH].
    destruct (K h (or_introl eq_refl)) as [K1 K2]. destruct (HC h (or_introl eq_refl)) as [Hn Hr].
    destruct (class_ok x h D (n h) (r h) rho K1 K2) as (x1 & E1 & O1 & A1 & B1); try assumption.
    { intro E. apply N1. left. congruence. }
    { intros k I. apply C. simpl in *. tauto. }
    rewrite E1. cbn [bind].
    assert (C1 : coords x1 = coords x) by apply O1.
    assert (Dj1 : forall k, In k ("rho_a" :: p3_names ++ ["CLDICE"; "CLDRIM"; "FREQI"; "BVRIM"]) -> ~ In k [nmN h; nmR h]).
    { intros k I J. apply (DJ k); [simpl in *; tauto|exact I]. }
    assert (S1 : exists x2, (if p3 && String.eqb h "ci" then e3sm_p3 f x1 else Ok x1) = Ok x2 /\
       only x1 x2 p3_names /\ (p3 && String.eqb h "ci" = false -> x2 = x1) /\
       (p3 = true -> h = "ci" ->
         let ni ix := xmul (xdiv (N "ci" ix) (fr ix)) (XF (10 ^ 6)) in
         let F ix := xdiv (rim ix) (q ix) in
         holds x2 "in_cld_Ni" D ni /\ holds x2 "Fr" D F /\
         holds x2 "rho_r" D (fun ix => if xeqb (F ix) (XF 0) then XF 0 else xdiv (rim ix) (vol ix)) /\
         holds x2 "qi_norm" D (fun ix => xdiv (xdiv (q ix) (fr ix)) (ni ix)))).
    { destruct (p3 && String.eqb h "ci") eqn:Q.
      - apply andb_prop in Q as [-> Q]. apply String.eqb_eq in Q. subst h.
        destruct (HP eq_refl (or_introl eq_refl)) as (Hq & Hm & Hf & Hv).
        destruct (p3_ok x1 D (N "ci") q rim fr vol) as (x2 & E2 & O2 & G).
        { intros k I. rewrite C1. apply C. right. right. right. rewrite !in_app_iff. auto. }
        { exact A1. }
        1,2,3,4: eapply holds_only; [exact O1| |eassumption]; apply Dj1; simpl; auto 20.
        exists x2. split; [exact E2|]. split; [exact O2|]. split; [discriminate|]. intros _ _. exact G.
      - exists x1. split; [reflexivity|]. split; [apply only_refl|]. split; [reflexivity|].
        intros -> ->. simpl in Q. discriminate. }
    destruct S1 as (x2 & E2 & O2 & Q2 & G2). rewrite E2. cbn [bind].
    assert (C2 : coords x2 = coords x) by (transitivity (coords x1); [apply O2|exact C1]).
    assert (NP : forall k, In k (nmN h :: nmR h :: names hs) -> ~ In k p3_names).
    { intros k I J. apply (DJ k I). right. apply in_app_iff. auto. }
    assert (O02 : only x x2 ([nmN h; nmR h] ++ p3_names)) by (eapply only_trans; eassumption).
    destruct (IH x2) as (x' & E & O & A & G); try assumption.
    { split; [|split; [|split]].
      - intros k I. rewrite C2. apply C. simpl in *. tauto.
      - eapply holds_only; [exact O02| |exact HO]. rewrite in_app_iff. intros [I|I].
        + apply (Dj1 "rho_a"); [left; reflexivity|exact I].
        + simpl in I. intuition discriminate.
      - intros h' I. destruct (HC h' (or_intror I)) as [Hn' Hr'].
        assert (IN : In (nmN h') (names hs) /\ In (nmR h') (names hs)).
        { unfold names. rewrite !in_flat_map. split; exists h'; simpl; auto. }
        split; (eapply holds_only; [exact O02| |eassumption]); rewrite in_app_iff; simpl; destruct IN as [I1 I2];
          intros [[Z|[Z|[]]]|Z].
        1,4: apply N1; right; rewrite Z; assumption.
        1,3: apply N2; rewrite Z; assumption.
        all: (eapply NP; [|exact Z]); simpl; auto.
      - intros -> I. destruct (HP eq_refl (or_intror I)) as (Hq & Hm & Hf & Hv).
        repeat split; (eapply holds_only; [exact O02| |eassumption]); rewrite in_app_iff; intros [Z|Z];
          try (revert Z; apply Dj1; simpl; auto 20); simpl in Z; intuition discriminate. }
    { intros h' I. apply K. right. exact I. }
    { intros k I. apply DJ. right. right. exact I. }
    assert (Os : only x2 x' (names hs ++ p3_names)).
    { eapply only_incl; [exact O|]. intro k. rewrite !in_app_iff. destruct (p3 && memb "ci" hs); simpl; tauto. }
    exists x'. split; [exact E|]. split; [|split].
    + assert (O2' : only x1 x2 (if p3 && String.eqb h "ci" then p3_names else [])).
      { destruct (p3 && String.eqb h "ci"); [exact O2|]. rewrite (Q2 eq_refl). apply only_refl. }
      eapply only_incl; [eapply only_trans; [eapply only_trans; [exact O1|exact O2']|exact O]|].
      cbn [names flat_map]. fold (names hs).
      intros k. rewrite !in_app_iff. unfold memb at 2. cbn [existsb]. fold (memb "ci" hs).
      rewrite (String.eqb_sym "ci" h). destruct p3, (String.eqb h "ci"), (memb "ci" hs); simpl; tauto.
    + intros h' [<-|I]; [|apply A; exact I].
      split; (eapply holds_only; [exact Os| |]).
      1,3: rewrite in_app_iff; intros [Z|Z]; [|eapply NP; [|exact Z]; simpl; auto].
      * apply N1. right. exact Z.
      * apply N2. exact Z.
      * eapply holds_only; [exact O2| |exact A1]. apply NP. left. reflexivity.
      * eapply holds_only; [exact O2| |exact B1]. apply NP. right. left. reflexivity.
    + intros -> [->|I]; [|apply G; auto]. cbv zeta.
      destruct (G2 eq_refl eq_refl) as (W1 & W2 & W3 & W4).
      apply memb_out in N3. rewrite N3, app_nil_r in O.
      repeat split; (eapply holds_only; [exact O| |eassumption]); intro Z; (eapply NP; [right; right; exact Z|simpl; auto 10]).
Qed.
End P3.
End Loop.
