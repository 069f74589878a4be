(** Values of the bulk (radiation scheme) method for one class. *)
From Verif Require Import Mom_Base Mom_Spec Mom_Facts Xr_Facts Sched_Model Psd_Model Lidar_Model Lidar_Spec
  Lidar_Od Lidar_Ldr Lidar_Loop Lidar_Api Lidar_Perm Lidar_Corol Class_Model Class_Spec Class_Lidar
  Radar_Model Radar_Spec Val_Spec Val_Lidar.
Local Open Scope R_scope.

Lemma real2_val e s n f a t k : real2 e s n f -> g2 s n = Ok a -> point e t k -> a t k = XF (f t k).
Proof.
  intros (b & V & H) G Hp. apply g2_ok in G. red in G, V. rewrite G in V. injection V as <-. apply H; exact Hp.
Qed.
Lemma real2_g2 e s n f : real2 e s n f -> exists a, g2 s n = Ok a /\ forall t k, point e t k -> a t k = XF (f t k).
Proof. intros (b & V & H). exists b. split; [apply g2_var; exact V|exact H]. Qed.

Lemma last_liq h : In h ["cl"; "pl"]%string -> last_is_l h = Ok true.
Proof. intros [<-|[<-|[]]]; reflexivity. Qed.
Lemma last_ice h : In h ice_classes -> last_is_l h = Ok false.
Proof. unfold ice_classes. simpl. intuition (subst; reflexivity). Qed.
Lemma ice_memb h : In h ice_classes -> memb h ice_classes = true /\ memb h ["cl"; "pl"]%string = false.
Proof. unfold ice_classes. simpl. intuition (subst; reflexivity). Qed.
Lemma liq_memb h : In h ["cl"; "pl"]%string -> memb h ice_classes = false /\ memb h ["cl"; "pl"]%string = true.
Proof. intros [<-|[<-|[]]]; split; reflexivity. Qed.

Lemma area_real (f : bool) q dp dz rho re g :
  0 < rho -> 0 < re -> 0 < g -> 0 < dz ->
  area_cell (tau_cell f (XF q) (xdiv (xabs (XF dp)) (XF g)) rho (XF re)) (XF dz)
  = XF (if f then projected_area rho re (q * Rabs dp / g / dz) else 0).
Proof.
  intros H1 H2 H3 H4. unfold area_cell, tau_cell, projected_area. cbn [xabs]. rewrite xdiv_fin by lra.
  cbn [xmul]. assert (D : 0 < 2 * rho * re * / 10 ^ 6).
  { repeat apply Rmult_lt_0_compat; lra. }
  destruct f.
  - rewrite (xdiv_fin _ (2 * rho * re * / 10 ^ 6)) by lra. rewrite xdiv_fin by lra. f_equal. field. repeat split; lra.
  - rewrite xdiv_fin by lra. f_equal. field. lra.
Qed.
Lemma layers_real e ins p z P Z t k :
  (forall t k, point e t k -> p t k = XF (P t k)) -> (forall t k, point e t k -> z t k = XF (Z t k)) ->
  point e t k -> (S k < nht e)%nat ->
  rhoa_dz e ins p t k = xdiv (xabs (XF (P t (S k) - P t k))) (XF (grav ins)) /\
  dz_top0 e z t k = XF (Z t (S k) - Z t k).
Proof.
  intros HP HZ [Ht Hk] Hs. unfold rhoa_dz, dz_top0, of_prof2.
  assert (Lp : length (prof2 e p t) = nht e) by apply length_prof2.
  assert (Lz : length (prof2 e z t) = nht e) by apply length_prof2.
  split.
  - rewrite nth_indep with (d' := xdiv (xabs XNaN) (XF (grav ins)))
      by (rewrite map_length, length_diff_append; lia).
    rewrite (map_nth (fun d => xdiv (xabs d) (XF (grav ins)))).
    rewrite nth_diff_append by lia. rewrite !nth_prof2 by lia.
    rewrite !HP by (split; lia). unfold xsub. reflexivity.
  - rewrite nth_diff_append by lia. rewrite !nth_prof2 by lia.
    rewrite !HZ by (split; lia). reflexivity.
Qed.
Lemma fluff_real f rh rb : 0 < rh -> 0 < rb -> fluff f (XF rh) rb = XF (fluffiness f rh rb).
Proof.
  intros H1 H2. unfold fluff, fluffiness. cbn [xmul].
  rewrite !xdiv_fin by lra. rewrite xpow_fin by (apply Rdiv_lt_0_compat; lra). reflexivity.
Qed.

(** The radius and density the area is computed with. *)
Lemma bulk_area_value e ins c mie p z h s l1 ar re fl rho Re :
  class_radius e ins c s h rho Re -> 0 < rho_ice ins ->
  bulk_area e ins c mie p z h no_locals s = Ok (l1, (ar, re, fl)) ->
  exists re' q, re = Some re' /\ (forall t k, point e t k -> re' t k = XF (Re t k)) /\
    g3 s (qn c h) = Ok q /\ gb s (fn c h) = Ok fl /\
    ar = (fun i t k => area_cell (tau_cell (fl i t k) (q i t k) (rhoa_dz e ins p t k) rho (re' t k)) (dz_top0 e z t k)) /\
    (In h ["cl"; "pl"]%string -> forall dl ln, lam_field e = Some dl -> assoc dl h = Some (Some ln) ->
       exists mn la mu, g2 s ln = Ok la /\ field_of (mu_field e) h = Ok mn /\ g2 s mn = Ok mu /\
         l_lammu l1 = Some (la, mu)).
Proof.
  intros (rn & re0 & Hrn & Hre & CR) Hri E. fold (re_fields e c) in Hrn. unfold bulk_area in E.
  destruct (real2_g2 _ _ _ _ Hre) as (ra & Gra & Hra).
  destruct CR as [(Hl & Hrho & ->)|(Hi & NP & -> & rh & Hrh & Hfl)].
  - rewrite (last_liq h Hl) in E. cbn [bind] in E. unfold rho_num, dict in E. rewrite Hrho in E. cbn [bind] in E.
    rewrite Hrn in E. cbn [bind] in E. rewrite Gra in E. cbn [bind] in E.
    match type of E with bind (bind ?X _) _ = _ => destruct X as [l'|] eqn:El; [|discriminate E] end.
    cbn [bind] in E. destruct (gb s (fn c h)) as [fl'|] eqn:Ef; [|discriminate E]. cbn [bind] in E.
    destruct (g3 s (qn c h)) as [q|] eqn:Eq; [|discriminate E]. cbn [bind] in E. injection E as <- <- <- <-.
    exists ra, q. do 5 (split; [auto|]). intros _ dl ln Hdl Hln. rewrite Hdl in El. rewrite Hln in El. cbn [bind] in El.
    destruct (g2 s ln) as [la|]; [|discriminate El]. cbn [bind] in El.
    destruct (field_of (mu_field e) h) as [mn|]; [|discriminate El]. cbn [bind] in El.
    destruct (g2 s mn) as [mu|] eqn:Em; [|discriminate El]. cbn [bind] in El. injection El as <-.
    exists mn, la, mu. auto.
  - rewrite (last_ice h Hi) in E. cbn [bind] in E.
    assert (N : (String.eqb h "ci" && String.eqb (rad_family e) "P3")%bool = false).
    { destruct (String.eqb_spec (rad_family e) "P3"); [contradiction|apply andb_false_r]. }
    rewrite N in E. unfold dict in E.
    match type of E with bind (bind ?X _) _ = _ => destruct X as [r|] eqn:Er; [|discriminate E] end.
    cbn [bind] in E.
    match type of E with bind (bind ?X _) _ = _ => destruct X as [rha|] eqn:Erh; [|discriminate E] end.
    cbn [bind] in E. rewrite Hrn in E. cbn [bind] in E. rewrite Gra in E. cbn [bind] in E.
    assert (Hrha : forall t k, point e t k -> rha t k = XF (rh t k)).
    { intros t k Hp. destruct Hrh as [(r0 & R1 & R2)|(v & R1 & R2 & R3)]; rewrite R1 in Er; injection Er as <-.
      - injection Erh as <-. rewrite R2. reflexivity.
      - rewrite R2 in Erh. cbn [bind] in Erh. eapply real2_val; eauto. }
    match type of E with bind (bind ?X _) _ = _ => destruct X as [re1|] eqn:Ere; [|discriminate E] end.
    cbn [bind] in E. destruct (gb s (fn c h)) as [fl'|] eqn:Ef; [|discriminate E]. cbn [bind] in E.
    destruct (g3 s (qn c h)) as [q|] eqn:Eq; [|discriminate E]. cbn [bind] in E. injection E as <- <- <- <-.
    exists re1, q. split; [reflexivity|]. split.
    { destruct (fluffy e) as [d|].
      - destruct Hfl as (f & Hf & Hv). rewrite Hf in Ere. cbn [bind] in Ere. injection Ere as <-.
        intros t k Hp. destruct (Hv t k Hp) as [Pr ->]. rewrite Hra, Hrha by exact Hp.
        rewrite fluff_real by assumption. reflexivity.
      - injection Ere as <-. subst Re. exact Hra. }
    do 3 (split; [auto|]). intros Hl. exfalso. revert Hi Hl. unfold ice_classes. simpl. intuition (subst; discriminate).
Qed.

(** The efficiencies. *)
Lemma bulk_eff_value e ins p3liq c mie p z h s l1 ar re fl l2 qe qb rho Re Qe Qb :
  class_radius e ins c s h rho Re -> 0 < rho_ice ins ->
  bulk_area e ins c mie p z h no_locals s = Ok (l1, (ar, re, fl)) ->
  class_efficiency e ins p3liq mie s h Re Qe Qb ->
  bulk_eff e ins p3liq mie h re fl l1 s = Ok (l2, (qe, qb)) ->
  forall i t k, point e t k ->
    (qe i t k = XF (Qe t k) /\ qb i t k = XF (Qb t k)) \/
    (fl i t k = false /\ qe i t k = XNaN /\ qb i t k = XNaN /\ size_table e h).
Proof.
  intros CR Hri EA (tb & Htb & CE) E i t k Hp.
  destruct (bulk_area_value _ _ _ _ _ _ _ _ _ _ _ _ _ _ CR Hri EA) as (re' & q & -> & Hre & _ & _ & _ & HL).
  clear EA. unfold bulk_eff in E. unfold bulk_table_name in Htb.
  destruct CR as (rn & re0 & Hrn & Hre0 & [(Hl & Hrho & ->)|(Hi & NP & -> & rh & Hrh & Hfl)]).
  - destruct (liq_memb h Hl) as [M1 M2]. rewrite M1 in *. rewrite M2 in *. cbn [andb negb] in E, CE.
    destruct (bulk_luts p3liq (rad_family e)) as [[ice liq]|] eqn:EL; [|discriminate E].
    cbn [bind] in E. unfold bulk_luts in EL.
    destruct (String.eqb_spec (rad_family e) "CESM") as [EC|NC].
    { injection EL as <- <-. unfold dict in E. rewrite Htb in E. cbn [bind] in E.
      rewrite EC in CE. cbn [String.eqb Ascii.eqb Bool.eqb negb] in CE.
      destruct CE as (dl & dm & ln & mn & la & mu & D1 & D2 & D3 & D4 & D5 & D6 & D7).
      destruct (HL Hl dl ln D1 D2) as (mn' & la' & mu' & G1 & G2 & G3 & G4).
      unfold field_of in G2. rewrite D4, D5 in G2. injection G2 as <-.
      cbn [orb andb] in E. rewrite G4 in E. injection E as <- <- <-.
      rewrite (real2_val _ _ _ _ _ _ _ D3 G1 Hp), (real2_val _ _ _ _ _ _ _ D6 G3 Hp).
      destruct (D7 t k Hp) as [-> ->]. destruct (fl i t k); [auto|]. right. unfold size_table. auto 12. }
    destruct (String.eqb_spec (rad_family e) "ModelE") as [EM|NM].
    { injection EL as <- <-. unfold dict in E. rewrite Htb in E. cbn [bind] in E.
      cbn [negb] in CE.
      destruct CE as (xs & qe0 & qb0 & D1 & D2 & D3 & D4 & D5 & D6 & D7 & D8).
      assert (N3 : String.eqb (rad_family e) "P3" = false) by (rewrite EM; reflexivity).
      rewrite N3 in E. cbn [orb andb negb] in E. rewrite D1, D2, D3 in E. injection E as <- <- <-.
      left. rewrite Hre by exact Hp. destruct (D8 t k Hp) as [C1 C2].
      destruct (np_interp_curve (re0 t k) xs qe0 D4 D5 D7) as (y1 & -> & K1).
      destruct (np_interp_curve (re0 t k) xs qb0 D4 D6 D7) as (y2 & -> & K2).
      rewrite (on_curve_fun _ _ _ _ _ D4 D7 C1 K1), (on_curve_fun _ _ _ _ _ D4 D7 C2 K2). auto. }
    destruct (String.eqb_spec (rad_family e) "P3") as [EP|NP]; [|discriminate EL].
    injection EL as <- <-. unfold dict in E. rewrite Htb in E. cbn [bind] in E. cbn [negb] in CE.
    destruct CE as (dl & dm & ln & mn & la & mu & D1 & D2 & D3 & D4 & D5 & D6 & D7).
    destruct (HL Hl dl ln D1 D2) as (mn' & la' & mu' & G1 & G2 & G3 & G4).
    unfold field_of in G2. rewrite D4, D5 in G2. injection G2 as <-.
    cbn [orb andb] in E. rewrite G4 in E. injection E as <- <- <-.
    rewrite (real2_val _ _ _ _ _ _ _ D3 G1 Hp), (real2_val _ _ _ _ _ _ _ D6 G3 Hp).
    destruct (D7 t k Hp) as [-> ->]. destruct (fl i t k); [auto|]. right. unfold size_table. auto 12.
  - destruct (ice_memb h Hi) as [M1 M2]. rewrite M1 in *. rewrite M2 in *. cbn [andb negb] in E, CE.
    assert (N3 : String.eqb (rad_family e) "P3" = false).
    { destruct (String.eqb_spec (rad_family e) "P3"); [contradiction|reflexivity]. }
    rewrite N3 in E.
    destruct (bulk_luts p3liq (rad_family e)) as [[ice liq]|] eqn:EL; [|discriminate E].
    cbn [bind] in E. unfold bulk_luts in EL. rewrite N3 in EL.
    assert (ET : exists a b, ice = Some (a, b) /\ assoc (bulk_table ins) (if mie then b else a) = Some tb).
    { destruct (String.eqb (rad_family e) "CESM"); [|destruct (String.eqb (rad_family e) "ModelE"); [|discriminate EL]];
        injection EL as <- <-; eexists; eexists; (split; [reflexivity|]); destruct mie; exact Htb. }
    destruct ET as (a & b & -> & ET). unfold dict in E. rewrite ET in E. cbn [bind l_reff] in E.
    destruct CE as (xs & qe0 & qb0 & D1 & D2 & D3 & D4 & D5 & D6 & D7 & D8).
    rewrite D1, D2, D3 in E. injection E as <- <- <-.
    left. rewrite Hre by exact Hp. destruct (D8 t k Hp) as [C1 C2].
    destruct (np_interp_curve (Re t k) xs qe0 D4 D5 D7) as (y1 & -> & K1).
    destruct (np_interp_curve (Re t k) xs qb0 D4 D6 D7) as (y2 & -> & K2).
    rewrite (on_curve_fun _ _ _ _ _ D4 D7 C1 K1), (on_curve_fun _ _ _ _ _ D4 D7 C2 K2). auto.
Qed.

(** Area and efficiencies of a cell. *)
Lemma bulk_cell_value e ins p3liq c mie p z h s l1 ar re fl l2 qe qb rho Re Qe Qb Q F P Z :
  class_radius e ins c s h rho Re -> 0 < rho_ice ins -> 0 < rho -> 0 < grav ins ->
  class_efficiency e ins p3liq mie s h Re Qe Qb ->
  real3 e s (qn c h) Q -> varb s (fn c h) F ->
  (forall t k, point e t k -> p t k = XF (P t k)) -> (forall t k, point e t k -> z t k = XF (Z t k)) ->
  bulk_area e ins c mie p z h no_locals s = Ok (l1, (ar, re, fl)) ->
  bulk_eff e ins p3liq mie h re fl l1 s = Ok (l2, (qe, qb)) ->
  forall i t k, cell e i t k -> (S k < nht e)%nat -> Z t k < Z t (S k) -> 0 < Re t k ->
    let A := projected_area rho (Re t k) (layer_water (grav ins) (Q i t k) (P t) (Z t) k) in
    ar i t k = XF (if F i t k then A else 0) /\
    ((qe i t k = XF (Qe t k) /\ qb i t k = XF (Qb t k)) \/
     (F i t k = false /\ qe i t k = XNaN /\ qb i t k = XNaN /\ size_table e h)).
Proof.
  intros CR Hri Hrho Hg CE (qa & Vq & HQ) VF HP HZ EA EE i t k Hc Hs Hz Hre A.
  assert (Hp : point e t k) by (destruct Hc as (? & ? & ?); split; assumption).
  pose proof (bulk_eff_value _ _ _ _ _ _ _ _ _ _ _ _ _ _ _ _ _ _ _ _ CR Hri EA CE EE i t k Hp) as HE.
  destruct (bulk_area_value _ _ _ _ _ _ _ _ _ _ _ _ _ _ CR Hri EA) as (re' & q & -> & Hre' & Gq & Gf & -> & _).
  rewrite (g3_var _ _ _ Vq) in Gq. injection Gq as <-.
  unfold gb in Gf. rewrite VF in Gf. injection Gf as <-.
  split; [|exact HE].
  destruct (layers_real e ins p z P Z t k HP HZ Hp Hs) as [-> ->].
  rewrite HQ, Hre' by assumption. rewrite area_real by lra. reflexivity.
Qed.

Section Call.
Variable Gam : R -> R.
Lemma bulk_lidar_values e ins o c hs s s1 h rho Re Qe Qb Q F P Z :
  tables_ok e c -> classes_of e (o_hyds o) hs -> o_emp o = false -> o_rad o || c = true -> ~ In "tot"%string hs ->
  (forall h, In h hs -> self_contained e h) ->
  calc_lidar_moments Gam e ins o c s = (Ok tt, s1) -> In h hs ->
  0 < grav ins -> 0 < rho_ice ins -> 0 < rho ->
  pressures e s P -> heights e s Z -> real3 e s (qn c h) Q -> varb s (fn c h) F ->
  class_radius e ins c s h rho Re -> class_efficiency e ins "CESM_liq" (o_mie o) s h Re Qe Qb ->
  forall i t k, cell e i t k -> (S k < nht e)%nat -> Z t k < Z t (S k) -> 0 < Re t k ->
    let A := projected_area rho (Re t k) (layer_water (grav ins) (Q i t k) (P t) (Z t) k) in
    value s1 (out "alpha_p" h c) i t k = XF (if F i t k then Qe t k * A else 0) /\
    value s1 (out "beta_p" h c) i t k = XF (if F i t k then Qb t k * A else 0).
Proof.
  intros Tk Hc Ee Er NT SC E Hh Hg Hri Hrho (pr' & Vp & HP) (zr' & Vz & HZ) HQ VF CR CE i t k Hcell Hs Hzz Hre A.
  destruct (lidar_leaves Gam e ins o c hs s s1 Tk) as (pr & tr & zr & Hp & Ht & Hz & HL); auto.
  { unfold not_micro. rewrite Ee. exact Er. }
  { intros; right; auto. }
  red in Hp, Vp. rewrite Hp in Vp. injection Vp as <-.
  red in Hz, Vz. rewrite Hz in Vz. injection Vz as <-.
  destruct (HL h Hh) as (al & be & Ho & Va & Vb). unfold lopt in Ho. rewrite Ee in Ho.
  unfold opt_bulk, optics_bulk in Ho.
  match type of Ho with no_loc (bind ?X _) = _ => destruct X as [[l1 [[ar re] fl]]|] eqn:EA; [|discriminate Ho] end.
  cbn [bind] in Ho.
  match type of Ho with no_loc (bind ?X _) = _ => destruct X as [[l2 [qe qb]]|] eqn:EE; [|discriminate Ho] end.
  cbn [bind no_loc] in Ho. injection Ho as <- <-.
  destruct (bulk_cell_value _ _ _ _ _ _ _ _ _ _ _ _ _ _ _ _ _ _ _ _ _ _ _ _ CR Hri Hrho Hg CE HQ VF HP HZ EA EE
              i t k Hcell Hs Hzz Hre) as [HA HE]. fold A in HA.
  unfold value. rewrite Va, Vb. unfold fill0, map3, lift2. rewrite HA.
  destruct HE as [[-> ->]|(-> & -> & -> & _)]; [destruct (F i t k)|]; simpl; split; f_equal; ring.
Qed.
End Call.
