(** Values of the bulk method for the ice of the P3 scheme. *)
From Verif Require Import Mom_Base Mom_Spec Mom_Facts Xr_Facts Sched_Model Psd_Model Lidar_Model Lidar_Spec
  Lidar_Od Lidar_Ldr Lidar_Loop Lidar_Api Lidar_Perm Lidar_Corol Class_Model Class_Spec Class_Lidar
  Radar_Model Radar_Spec Radar_Total Radar_Att Radar_Loop Radar_Api Radar_Corol Val_Spec Val_Lidar Val_Bulk Val_Radar Val_P3_Spec.
Local Open Scope R_scope.

Lemma p3_inputs_real e s x fr rr q1 ni : p3_fields e s x -> p3_inputs e s = Ok (fr, rr, q1, ni) ->
  forall t k, point e t k ->
    fr t k = XF (ps_fr x t k) /\ rr t k = XF (ps_rr x t k) /\ q1 t k = XF (ps_q1 x t k) /\ ni t k = XF (ps_n x t k).
Proof.
  intros (H1 & H2 & H3 & H4) E t k Hp. unfold p3_inputs in E.
  destruct (g2 s "Fr") as [a1|] eqn:E1; [|discriminate E]. cbn [bind] in E.
  destruct (g2 s "rho_r") as [a2|] eqn:E2; [|discriminate E]. cbn [bind] in E.
  destruct (g2 s "qi_norm") as [a3|] eqn:E3; [|discriminate E]. cbn [bind] in E.
  destruct (g2 s (p3_ni e)) as [a4|] eqn:E4; [|discriminate E]. cbn [bind] in E.
  injection E as <- <- <- <-.
  rewrite (real2_val _ _ _ _ _ _ _ H1 E1 Hp), (real2_val _ _ _ _ _ _ _ H2 E2 Hp),
    (real2_val _ _ _ _ _ _ _ H3 E3 Hp), (real2_val _ _ _ _ _ _ _ H4 E4 Hp). auto.
Qed.

Lemma p3_cell e ins p3liq c mie p z s l1 ar re fl l2 qe qb x A Qe Qb F P Z :
  rad_family e = "P3"%string -> 0 < rho_ice ins -> 0 < grav ins ->
  p3_fields e s x -> p3_area e ins c mie s x P Z A ->
  p3_gives e ins x (p3_ext_name mie) Qe -> p3_gives e ins x (p3_back_name mie) Qb -> varb s (fn c "ci") F ->
  (forall t k, point e t k -> p t k = XF (P t k)) -> (forall t k, point e t k -> z t k = XF (Z t k)) ->
  bulk_area e ins c mie p z "ci" no_locals s = Ok (l1, (ar, re, fl)) ->
  bulk_eff e ins p3liq mie "ci" re fl l1 s = Ok (l2, (qe, qb)) ->
  forall i t k, cell e i t k -> (hybrid e = 1%nat -> (S k < nht e)%nat /\ Z t k < Z t (S k)) ->
    if F i t k then ar i t k = XF (A i t k) /\ qe i t k = XF (Qe t k) /\ qb i t k = XF (Qb t k)
    else qe i t k = XNaN /\ qb i t k = XNaN.
Proof.
  intros EP Hri Hg HX HA HQe HQb VF HP HZ EA EE i t k Hc Hs.
  assert (Hp : point e t k) by (destruct Hc as (? & ? & ?); split; assumption).
  unfold bulk_area in EA. rewrite EP in EA. assert (LL : last_is_l "ci" = Ok false) by reflexivity. rewrite LL in EA. cbn [bind] in EA.
  cbn [String.eqb Ascii.eqb Bool.eqb andb] in EA.
  destruct (p3_inputs e s) as [[[[fr rr] q1] ni]|] eqn:EI; [|discriminate EA]. cbn [bind] in EA.
  destruct (p3_inputs_real e s x _ _ _ _ HX EI t k Hp) as (F1 & F2 & F3 & F4).
  assert (QE : fl = F /\ (if F i t k then qe i t k = XF (Qe t k) /\ qb i t k = XF (Qb t k)
                          else qe i t k = XNaN /\ qb i t k = XNaN)).
  { assert (EF : fl = F).
    { destruct (gb s (fn c "ci")) as [fl'|] eqn:Ef.
      - assert (fl' = F) as -> by (unfold gb in Ef; rewrite VF in Ef; congruence).
        match type of EA with bind ?X _ = _ => destruct X as [[l' [rad own]]|]; [|discriminate EA] end.
        cbn [bind] in EA. destruct rad as [[rb re0]|].
        + destruct (g3 s (qn c "ci")); [|discriminate EA]. cbn [bind] in EA. congruence.
        + destruct own; [congruence|discriminate EA].
      - match type of EA with bind ?X _ = _ => destruct X as [[l' [rad own]]|]; [|discriminate EA] end.
        discriminate EA. }
    split; [exact EF|]. subst fl. unfold bulk_eff in EE. rewrite EP in EE.
    assert (MI : memb "ci" ice_classes = true) by reflexivity. rewrite MI in EE. cbn [andb orb] in EE.
    assert (BL : bulk_luts p3liq "P3" = Ok (None, p3liq)) by reflexivity. rewrite BL in EE. cbn [bind] in EE.
    rewrite EI in EE. cbn [bind] in EE.
    specialize (HQe t k Hp). specialize (HQb t k Hp). unfold p3_ext_name in HQe. unfold p3_back_name in HQb.
    destruct mie; injection EE as <- <- <-; rewrite F1, F2, F3, HQe, HQb; destruct (F i t k); auto. }
  destruct QE as [-> QE]. destruct (F i t k) eqn:EFl; [|exact QE]. split; [|exact QE].
  destruct HA as [(Hh & A1 & HA1 & HA)|(Hh & Re1 & Q & HRe1 & (qa & Vq & HQ) & Re & PRe & HRe & HA)].
  - assert (Nh : Nat.eqb (hybrid e) 1 = false) by (destruct Hh as [->| ->]; reflexivity).
    rewrite Nh in EA. cbn [negb] in EA.
    assert (AV : (if Nat.eqb (hybrid e) 0 then Ok "A_tot_norm"%string
                  else if mie then Ok "A_tot_Mie_norm"%string
                  else if Nat.eqb (hybrid e) 2 then Ok "A_tot_eq_V_norm"%string
                  else Raise UnboundLocalError) = Ok (p3_area_name (hybrid e) mie)).
    { unfold p3_area_name. destruct Hh as [->| ->]; destruct mie; reflexivity. }
    rewrite AV in EA. cbn [bind] in EA. unfold gb in EA. rewrite VF in EA. cbn [bind] in EA.
    injection EA as <- <- <-. unfold tile. rewrite F1, F2, F3, F4, (HA1 t k Hp), HA. reflexivity.
  - rewrite Hh in EA. cbn [Nat.eqb negb] in EA.
    destruct (Hs Hh) as [Hk Hz]. unfold gb in EA. rewrite VF in EA. cbn [bind] in EA.
    rewrite (g3_var _ _ _ Vq) in EA. cbn [bind] in EA. injection EA as <- <- <-.
    destruct (layers_real e ins p z P Z t k HP HZ Hp Hk) as [-> ->].
    rewrite (HQ i t k Hc), HA, EFl.
    match goal with |- context [tau_cell _ _ _ _ ?r] => assert (ER : r = XF (Re t k)) end.
    { destruct (fluffy e).
      - destruct HRe as (Rm & HRm & HRe). rewrite F1, F2, F3, (HRe1 t k Hp), (HRm t k Hp). cbn [xmul].
        rewrite xdiv_fin by lra. f_equal. rewrite HRe. field. lra.
      - rewrite F1, F2, F3, (HRe1 t k Hp). cbn [xmul]. rewrite HRe. reflexivity. }
    rewrite ER. rewrite area_real by (auto; lra). reflexivity.
Qed.

Section Call.
Variable Gam : R -> R.
Lemma p3_bulk_lidar e ins o c hs s s1 x A Qe Qb F P Z :
  tables_ok e c -> classes_of e (o_hyds o) hs -> o_emp o = false -> o_rad o || c = true -> ~ In "tot"%string hs ->
  (forall h, In h hs -> self_contained e h) ->
  calc_lidar_moments Gam e ins o c s = (Ok tt, s1) -> In "ci"%string hs -> rad_family e = "P3"%string ->
  0 < grav ins -> 0 < rho_ice ins -> pressures e s P -> heights e s Z -> varb s (fn c "ci") F ->
  p3_fields e s x -> p3_area e ins c (o_mie o) s x P Z A ->
  p3_gives e ins x (p3_ext_name (o_mie o)) Qe -> p3_gives e ins x (p3_back_name (o_mie o)) Qb ->
  forall i t k, cell e i t k -> (hybrid e = 1%nat -> (S k < nht e)%nat /\ Z t k < Z t (S k)) ->
    value s1 (out "alpha_p" "ci" c) i t k = XF (if F i t k then Qe t k * A i t k else 0) /\
    value s1 (out "beta_p" "ci" c) i t k = XF (if F i t k then Qb t k * A i t k else 0).
Proof.
  intros Tk Hc Ee Er NT SC E Hh EP Hg Hri (pr' & Vp & HP) (zr' & Vz & HZ) VF HX HA HQe HQb i t k Hcell Hs.
  destruct (lidar_leaves Gam e ins o c hs s s1 Tk) as (pr & tr & zr & Hp & Ht & Hz & HL); auto.
  { unfold not_micro. rewrite Ee. exact Er. }
  { intros; right; auto. }
  red in Hp, Vp. rewrite Hp in Vp. injection Vp as <-.
  red in Hz, Vz. rewrite Hz in Vz. injection Vz as <-.
  destruct (HL "ci"%string Hh) as (al & be & Ho & Va & Vb). unfold lopt in Ho. rewrite Ee in Ho.
  unfold opt_bulk, optics_bulk in Ho.
  match type of Ho with no_loc (bind ?X _) = _ => destruct X as [[l1 [[ar re] fl]]|] eqn:EA; [|discriminate Ho] end.
  cbn [bind] in Ho.
  match type of Ho with no_loc (bind ?X _) = _ => destruct X as [[l2 [qe qb]]|] eqn:EE; [|discriminate Ho] end.
  cbn [bind no_loc] in Ho. injection Ho as <- <-.
  pose proof (p3_cell _ _ _ _ _ _ _ _ _ _ _ _ _ _ _ _ _ _ _ _ _ _ EP Hri Hg HX HA HQe HQb VF HP HZ EA EE
              i t k Hcell Hs) as HC.
  unfold value. rewrite Va, Vb. unfold fill0, map3, lift2.
  destruct (F i t k); [destruct HC as (-> & -> & ->)|destruct HC as (-> & ->)]; split; reflexivity.
Qed.

Lemma p3_bulk_radar e ins o c hs s s1 x A Qe Qb F P Z :
  radar_tables_ok e c -> r_emp o = false -> r_rad o || c = true -> plain hs -> classes_of e (r_hyds o) hs ->
  (forall h, In h hs -> self_contained e h) ->
  calc_radar_moments Gam e ins o c s = (Ok tt, s1) -> In "ci"%string hs -> rad_family e = "P3"%string ->
  0 < grav ins -> 0 < rho_ice ins -> 0 < k_w ins -> pressures e s P -> heights e s Z -> varb s (fn c "ci") F ->
  p3_fields e s x -> p3_area e ins c (r_mie o) s x P Z A ->
  p3_gives e ins x (p3_ext_name (r_mie o)) Qe -> p3_gives e ins x (p3_back_name (r_mie o)) Qb ->
  forall i t k, cell e i t k -> (hybrid e = 1%nat -> (S k < nht e)%nat /\ Z t k < Z t (S k)) ->
    value s1 (out "Ze" "ci" c) i t k
    = if F i t k then dBZ (backscatter_Z (wavelen ins) (k_w ins) (Qb t k * A i t k)) else XNaN.
Proof.
  intros Tk Ee Er PL Hc SC E Hh EP Hg Hri Hk (pr' & Vp & HP) (zr' & Vz & HZ) VF HX HA HQe HQb i t k Hcell Hs.
  assert (NM : not_micro_r o c = true) by (unfold not_micro_r; rewrite Ee; exact Er).
  destruct (radar_leaves Gam e ins o c hs s s1 Tk NM PL (fun h H => or_intror (SC h H)) Hc E)
    as (q & pr & tr & zr & s0 & atm & FF & El & Hq & Hp & Ht & Hz & Ea & Ha & RD & HC & L1).
  red in Hp, Vp. rewrite Hp in Vp. injection Vp as <-.
  red in Hz, Vz. rewrite Hz in Vz. injection Vz as <-.
  destruct L1 as (_ & A2 & _). destruct (A2 "ci"%string Hh) as (a & Va & Ea').
  specialize (HC "ci"%string Hh). unfold rcon in HC. rewrite Ee in HC. unfold bulk_con in HC.
  match type of HC with bind ?X _ = _ => destruct X as [[l1 [[ar re] fl]]|] eqn:EA; [|discriminate HC] end.
  cbn [bind] in HC.
  match type of HC with bind ?X _ = _ => destruct X as [[l2 [qe qb]]|] eqn:EE; [|discriminate HC] end.
  cbn [bind] in HC. destruct (g3 s (qn c (dims_of e "ci"))); [|discriminate HC]. cbn [bind] in HC. injection HC as HC.
  pose proof (p3_cell _ _ _ _ _ _ _ _ _ _ _ _ _ _ _ _ _ _ _ _ _ _ EP Hri Hg HX HA HQe HQb VF HP HZ EA EE
              i t k Hcell Hs) as HV.
  unfold value. rewrite Va, Ea', <- HC. cbn [snd]. unfold lift2, map3.
  assert (KP : 0 < k_w ins * PI ^ 5).
  { apply Rmult_lt_0_compat; [exact Hk|]. apply pow_lt, PI_RGT_0. }
  destruct (F i t k); [destruct HV as (-> & _ & ->)|destruct HV as (_ & ->); reflexivity].
  unfold ze_scale. cbn [xmul]. rewrite xdiv_fin by lra. cbn [xmul to_dBZ].
  f_equal. unfold backscatter_Z. field. pose proof PI_RGT_0. split; lra.
Qed.
End Call.
