(** Order of the classes and explicit totals of [calc_lidar_moments]. *)
From Verif Require Import Mom_Base Mom_Spec Mom_Facts Xr_Facts Sched_Model Atm_Model Psd_Model
  Lidar_Model Lidar_Spec Lidar_Od Lidar_Loop Lidar_Api.
Local Open Scope R_scope.

Lemma memb_in x l : memb x l = true <-> In x l.
Proof.
  unfold memb. rewrite existsb_exists. split.
  - intros (y & Hy & E). apply String.eqb_eq in E. subst; exact Hy.
  - intro H. exists x. split; [exact H|apply String.eqb_refl].
Qed.

(** *** Independence of the left-over locals *)
Definition no_loc {A B : Type} (r : res (A * B)) : res B :=
  match r with Ok (_, p) => Ok p | Raise x => Raise x end.
Lemma bulk_area_locals e ins c mie p z h l l0 s :
  match bulk_area e ins c mie p z h l s, bulk_area e ins c mie p z h l0 s with
  | Ok (l1, P), Ok (l1', P') =>
      P = P' /\ l_reff l1 = l_reff l /\ l_reff l1' = l_reff l0 /\
      ((exists d ln, lam_field e = Some d /\ assoc d h = Some (Some ln)) ->
       last_is_l h = Ok true -> l_lammu l1 = l_lammu l1' /\ l_lammu l1 <> None)
  | Raise _, Raise _ => True
  | _, _ => False
  end.
Proof.
  unfold bulk_area. destruct (last_is_l h) as [isl|] eqn:El; [|exact I]. cbn [bind].
  destruct isl.
  - destruct (rho_num e h) as [rb|]; [|exact I]. cbn [bind].
    destruct (dict (re_fields e c) h) as [rn|]; [|exact I]. cbn [bind].
    destruct (g2 s rn) as [re|]; [|exact I]. cbn [bind].
    destruct (lam_field e) as [d|] eqn:Ed.
    + destruct (dict d h) as [[ln|]|] eqn:Eh; [| |exact I]; cbn [bind].
      * destruct (g2 s ln) as [la|]; [|exact I]. cbn [bind].
        destruct (field_of (mu_field e) h) as [mn|]; [|exact I]. cbn [bind].
        destruct (g2 s mn) as [mu|]; [|exact I]. cbn [bind].
        destruct (gb s (fn c h)) as [fl|]; [|exact I]. cbn [bind].
        destruct (g3 s (qn c h)) as [q|]; [|exact I]. cbn [bind].
        split; [reflexivity|]. split; [reflexivity|]. split; [reflexivity|]. simpl. split; congruence.
      * destruct (gb s (fn c h)) as [fl|]; [|exact I]. cbn [bind].
        destruct (g3 s (qn c h)) as [q|]; [|exact I]. cbn [bind].
        split; [reflexivity|]. split; [reflexivity|]. split; [reflexivity|].
        intros (d' & ln & Hd & Hl) _. injection Hd as <-. apply dict_ok in Eh. congruence.
    + cbn [bind]. destruct (gb s (fn c h)) as [fl|]; [|exact I]. cbn [bind].
      destruct (g3 s (qn c h)) as [q|]; [|exact I]. cbn [bind].
      split; [reflexivity|]. split; [reflexivity|]. split; [reflexivity|].
      intros (d' & ln & Hd & Hl) _. congruence.
  - assert (K : forall r1 r2 : res (blocals * (option (R * arr2) * option arr2)),
      (forall lx P, r1 = Ok (lx, P) -> lx = l) -> (forall lx P, r2 = Ok (lx, P) -> lx = l0) ->
      no_loc r1 = no_loc r2 ->
      let f r := do br <- r;
        let '(l', (rad, own)) := br in
        do fl <- gb s (fn c h);
        match rad, own with
        | Some (rb, re), _ =>
            do q <- g3 s (qn c h);
            let rdz := rhoa_dz e ins p in
            let dz := dz_top0 e z in
            Ok (l', (fun i t k => area_cell (tau_cell (fl i t k) (q i t k) (rdz t k) rb (re t k)) (dz t k),
                     Some re, fl))
        | None, Some a => Ok (l', (tile a, None, fl))
        | None, None => Raise UnboundLocalError
        end in
      match f r1, f r2 with
      | Ok (l1, P), Ok (l1', P') => P = P' /\ l_reff l1 = l_reff l /\ l_reff l1' = l_reff l0 /\
          ((exists d ln, lam_field e = Some d /\ assoc d h = Some (Some ln)) ->
           Ok false = Ok true -> l_lammu l1 = l_lammu l1' /\ l_lammu l1 <> None)
      | Raise _, Raise _ => True
      | _, _ => False
      end).
    { intros r1 r2 H1 H2 E. cbv zeta.
      destruct r1 as [[l1 P1]|], r2 as [[l2 P2]|]; simpl in E; try discriminate; [|exact I].
      injection E as ->. rewrite (H1 _ _ eq_refl), (H2 _ _ eq_refl). cbn [bind].
      destruct P2 as [rad own]. destruct (gb s (fn c h)) as [fl|]; [|exact I]. cbn [bind].
      destruct rad as [[rb re]|].
      - destruct (g3 s (qn c h)) as [q|]; [|exact I]. cbn [bind].
        split; [reflexivity|]. split; [reflexivity|]. split; [reflexivity|]. intros _ H; discriminate H.
      - destruct own; [|exact I].
        split; [reflexivity|]. split; [reflexivity|]. split; [reflexivity|]. intros _ H; discriminate H. }
    apply K; clear K.
    1,2: intros lx P H.
    1,2: repeat match type of H with
         | bind ?x _ = Ok _ => apply res_bind_ok in H as (? & _ & H)
         | (let '(_, _) := ?x in _) = Ok _ => destruct x
         | (if ?b then _ else _) = Ok _ => destruct b
         end; congruence.
    match goal with |- no_loc (if ?b then _ else _) = _ => destruct b end.
    + destruct (p3_inputs e s) as [[[[fr rr] qn'] ni]|]; [|reflexivity]. cbn [bind].
      destruct (negb (hybrid e =? 1)%nat); [|reflexivity].
      destruct (hybrid e =? 0)%nat; [reflexivity|]. destruct mie; [reflexivity|].
      destruct (hybrid e =? 2)%nat; reflexivity.
    + destruct (dict (rho_hyd e) h) as [r|]; [|reflexivity]. cbn [bind].
      match goal with |- no_loc (bind ?x _) = _ => destruct x as [rh|] end; [|reflexivity]. cbn [bind].
      destruct (dict (re_fields e c) h) as [rn|]; [|reflexivity]. cbn [bind].
      destruct (g2 s rn) as [re|]; [|reflexivity]. cbn [bind].
      match goal with |- no_loc (bind ?x _) = _ => destruct x as [re'|] end; reflexivity.
Qed.

Lemma clpl_last h : In h ["cl"; "pl"]%string -> last_is_l h = Ok true.
Proof. simpl. intros [<-|[<-|[]]]; reflexivity. Qed.
Lemma ice_not_clpl h : In h ice_classes -> memb h ["cl"; "pl"]%string = false.
Proof. unfold ice_classes. simpl. intuition; subst; reflexivity. Qed.

Lemma bulk_eff_locals e ins p3liq mie h re fl l1 l1' s :
  self_contained e h ->
  (In h ["cl"; "pl"]%string -> (exists d ln, lam_field e = Some d /\ assoc d h = Some (Some ln)) ->
     l_lammu l1 = l_lammu l1' /\ l_lammu l1 <> None) ->
  match bulk_eff e ins p3liq mie h re fl l1 s, bulk_eff e ins p3liq mie h re fl l1' s with
  | Ok (_, P), Ok (_, P') => P = P'
  | Raise _, Raise _ => True
  | _, _ => False
  end.
Proof.
  intros Sc Hl. unfold bulk_eff.
  destruct (bulk_luts p3liq (rad_family e)) as [[ice liq]|]; [|exact I]. cbn [bind].
  destruct (memb h ice_classes && String.eqb (rad_family e) "P3") eqn:Ep.
  { destruct (String.eqb h "ci"); [|exact I].
    destruct (p3_inputs e s) as [[[[fr rr] q] ni]|]; [|exact I]. cbn [bind]. destruct mie; reflexivity. }
  match goal with |- context [bind (if memb h ice_classes then ?a else ?b) _] =>
    destruct (if memb h ice_classes then a else b) as [tb|] end; [|exact I]. cbn [bind].
  destruct Sc as [Fm|[Hi|[Hc Hd]]].
  - rewrite Fm. rewrite !andb_false_r. cbn [l_reff]. destruct re; reflexivity || exact I.
  - rewrite (ice_not_clpl h Hi). rewrite (proj2 (memb_in h _) Hi). cbn [negb andb l_reff].
    destruct re; reflexivity || exact I.
  - assert (Ni : memb h ice_classes = false) by (simpl in Hc; destruct Hc as [<-|[<-|[]]]; reflexivity).
    rewrite Ni, (proj2 (memb_in h _) Hc). cbn [negb andb].
    destruct (String.eqb (rad_family e) "CESM" || String.eqb (rad_family e) "P3").
    + destruct (Hl Hc Hd) as [E N]. rewrite E. destruct (l_lammu l1') as [[la mu]|]; [reflexivity|congruence].
    + cbn [l_reff]. destruct re; reflexivity || exact I.
Qed.

Definition opt_bulk e ins c mie p z h s := no_loc (optics_bulk e ins c mie p z h no_locals s).
Definition opt_emp e ins c p t h s := no_loc (optics_empirical e ins c p t h tt s).

Lemma bulk_hopt e ins c mie p z h l s : self_contained e h ->
  match optics_bulk e ins c mie p z h l s, opt_bulk e ins c mie p z h s with
  | Ok (_, p), Ok p' => p = p'
  | Raise _, Raise _ => True
  | _, _ => False
  end.
Proof.
  intro Sc. unfold opt_bulk, optics_bulk.
  pose proof (bulk_area_locals e ins c mie p z h l no_locals s) as HA.
  destruct (bulk_area e ins c mie p z h l s) as [[l1 P]|];
    destruct (bulk_area e ins c mie p z h no_locals s) as [[l1' P']|]; try tauto; try exact I.
  destruct HA as (-> & _ & _ & HL). cbn [bind]. destruct P' as [[ar re] fl].
  pose proof (bulk_eff_locals e ins "CESM_liq" mie h re fl l1 l1' s Sc
                (fun Hc Hd => HL Hd (clpl_last h Hc))) as HE.
  destruct (bulk_eff e ins "CESM_liq" mie h re fl l1 s) as [[l2 [qe qb]]|];
    destruct (bulk_eff e ins "CESM_liq" mie h re fl l1' s) as [[l2' [qe' qb']]|]; try tauto; try exact I.
  cbn [bind no_loc]. injection HE as -> ->. reflexivity.
Qed.
Lemma emp_hopt e ins c p t h l s :
  match optics_empirical e ins c p t h l s, opt_emp e ins c p t h s with
  | Ok (_, p), Ok p' => p = p'
  | Raise _, Raise _ => True
  | _, _ => False
  end.
Proof.
  unfold opt_emp. destruct l. destruct (optics_empirical e ins c p t h tt s) as [[[] q]|]; simpl; auto.
Qed.

(** *** The call *)
Section Call.
Variable Gam : R -> R.

Definition method_of (e : menv) (ins : inst) (o : lopts) (c : bool) (p tc z : arr2) (hs : list string) : L unit :=
  if o_emp o then calc_lidar_empirical e ins c p tc z (o_sfc o) hs
  else if o_rad o || c then calc_lidar_bulk e ins c p z (o_sfc o) hs (o_mie o)
  else calc_lidar_micro Gam e ins z (o_sfc o) hs (o_mie o) (o_sched o) (o_kw o).

(** A call is: check, molecular fields, method, attenuation. *)
Lemma moments_inv e ins o c hs s s1 :
  classes_of e (o_hyds o) hs ->
  calc_lidar_moments Gam e ins o c s = (Ok tt, s1) ->
  exists q pr tr zr s0 bm tau sm b od,
    lower (i_class ins) = "lidar"%string /\
    assoc (dvars s) (qn c "cl") = Some q /\
    var2 s (p_name e) pr /\ var2 s (t_name e) tr /\ var2 s (z_name e) zr /\
    calc_theory_beta_m e (wavelen ins) true s = (Ok tt, s0) /\
    var2 s0 "sigma_180_vol" bm /\ var2 s0 "tau" tau /\
    method_of e ins o c (fun t k => p_pa e (pr t k)) (fun t k => t_cel e (tr t k))
      (fun t k => z_met e (zr t k)) hs s0 = (Ok tt, sm) /\
    var3 sm (out "beta_p" "tot" c) b /\ var3 sm (out "OD" "tot" c) od /\
    s1 = upd sm (out "beta_att" "tot" c)
           (V3 (fun i t k => att_cell (o_eta o) (bm t k) (b i t k) (tau t k) (od i t k))).
Proof.
  intros Hc E. unfold calc_lidar_moments in E.
  apply rd_bind_inv in E as (hs' & Hs & E).
  assert (hs' = hs) as ->.
  { destruct (o_hyds o) as [l|]; simpl in *; [congruence|].
    destruct Hc as [<- N]. destruct (hyds e); congruence. }
  destruct (String.eqb (lower (i_class ins)) "lidar") eqn:El; cbn [negb] in E; [|discriminate].
  apply String.eqb_eq in El.
  apply rd_bind_inv in E as (hq & Hq & E).
  destruct hq; cbn [negb] in E; [|discriminate].
  assert (exists q, assoc (dvars s) (qn c "cl") = Some q) as (q & Hq').
  { injection Hq as Hq. unfold has in Hq. destruct (assoc (dvars s) (qn c "cl")); [eauto|discriminate]. }
  apply rd_bind_inv in E as (pr & Hp & E). apply rd_bind_inv in E as (tr & Ht & E).
  apply rd_bind_inv in E as (zr & Hz & E). cbv zeta in E.
  apply bind_inv in E as ([] & s0 & Ea & E).
  apply rd_bind_inv in E as (bm & Hb & E). apply rd_bind_inv in E as (tau & Htau & E).
  apply bind_inv in E as ([] & sm & Em & E).
  apply rd_bind_inv in E as (b & Hbt & E). apply rd_bind_inv in E as (od & Hod & E).
  rewrite assign_eq in E. injection E as <-.
  exists q, pr, tr, zr, s0, bm, tau, sm, b, od.
  repeat match goal with |- _ /\ _ => split end; auto using g2_ok, g3_ok.
Qed.
Lemma moments_run e ins o c hs s q pr tr zr s0 bm tau sm b od :
  classes_of e (o_hyds o) hs ->
  lower (i_class ins) = "lidar"%string ->
  assoc (dvars s) (qn c "cl") = Some q ->
  var2 s (p_name e) pr -> var2 s (t_name e) tr -> var2 s (z_name e) zr ->
  calc_theory_beta_m e (wavelen ins) true s = (Ok tt, s0) ->
  var2 s0 "sigma_180_vol" bm -> var2 s0 "tau" tau ->
  method_of e ins o c (fun t k => p_pa e (pr t k)) (fun t k => t_cel e (tr t k))
    (fun t k => z_met e (zr t k)) hs s0 = (Ok tt, sm) ->
  var3 sm (out "beta_p" "tot" c) b -> var3 sm (out "OD" "tot" c) od ->
  calc_lidar_moments Gam e ins o c s
  = (Ok tt, upd sm (out "beta_att" "tot" c)
           (V3 (fun i t k => att_cell (o_eta o) (bm t k) (b i t k) (tau t k) (od i t k)))).
Proof.
  intros Hc El Hq Hp Ht Hz Ea Hb Htau Em Hbt Hod. unfold calc_lidar_moments.
  rewrite (bind_rd _ _ _ hs).
  2:{ destruct (o_hyds o) as [l|]; simpl in *; [congruence|].
      destruct Hc as [<- N]. destruct (hyds e); congruence. }
  rewrite El. cbn [String.eqb Ascii.eqb Bool.eqb negb].
  rewrite (bind_rd _ _ _ true) by (unfold has; rewrite Hq; reflexivity). cbn [negb].
  rewrite (bind_rd _ _ _ pr) by (apply g2_var; exact Hp).
  rewrite (bind_rd _ _ _ tr) by (apply g2_var; exact Ht).
  rewrite (bind_rd _ _ _ zr) by (apply g2_var; exact Hz). cbv zeta.
  rewrite (bind_ok _ _ _ tt s0) by exact Ea.
  rewrite (bind_rd _ _ _ bm) by (apply g2_var; exact Hb).
  rewrite (bind_rd _ _ _ tau) by (apply g2_var; exact Htau).
  rewrite (bind_ok _ _ _ tt sm) by exact Em.
  rewrite (bind_rd _ _ _ b) by (apply g3_var; exact Hbt).
  rewrite (bind_rd _ _ _ od) by (apply g3_var; exact Hod).
  apply assign_eq.
Qed.

(** The method after the totals are zeroed. *)
Definition zeroed (c : bool) (s : dset) : dset :=
  upd (upd (upd s (out "beta_p" "tot" c) (V3 zeros3)) (out "alpha_p" "tot" c) (V3 zeros3))
      (out "OD" "tot" c) (V3 zeros3).
Lemma zero_totals_inv c s s' : zero_totals c s = (Ok tt, s') -> s' = zeroed c s /\ exists q, var3 s (qn c "cl") q.
Proof.
  unfold zero_totals. intro E. apply rd_bind_inv in E as (q & Hq & E).
  rewrite !bind_assign, assign_eq in E. injection E as <-. split; [reflexivity|]. eauto using g3_ok.
Qed.
Lemma zero_totals_run c s q : var3 s (qn c "cl") q -> zero_totals c s = (Ok tt, zeroed c s).
Proof. intro H. unfold zero_totals. rewrite (bind_rd _ _ _ q) by (apply g3_var; exact H). reflexivity. Qed.
Lemma zeroed_a c s : var3 (zeroed c s) (out "alpha_p" "tot" c) zeros3.
Proof. unfold zeroed. look. Qed.
Lemma zeroed_b c s : var3 (zeroed c s) (out "beta_p" "tot" c) zeros3.
Proof. unfold zeroed. look. Qed.
Lemma zeroed_o c s : var3 (zeroed c s) (out "OD" "tot" c) zeros3.
Proof. unfold zeroed. look. Qed.

(** Classes a permutation result applies to. *)
Definition order_free (e : menv) (o : lopts) (h : string) : Prop :=
  o_emp o = true \/ self_contained e h.

Lemma method_perm e ins o c p tc z hs1 hs2 s s1 :
  tables_ok e c -> not_micro o c = true -> Permutation hs1 hs2 -> ~ In "tot"%string hs1 ->
  (forall h, In h hs1 -> order_free e o h) ->
  method_of e ins o c p tc z hs1 s = (Ok tt, s1) ->
  exists s2, method_of e ins o c p tc z hs2 s = (Ok tt, s2) /\ same_data s1 s2.
Proof.
  intros T NM P NT HF E. unfold method_of, not_micro in *.
  assert (Hinp : forall x, inp e c x -> forall f h, x <> out f h c).
  { intros x Hx f h ->. apply (inp_not_reserved e c (out f h c) T Hx). apply out_reserved. }
  destruct (o_emp o) eqn:Ee.
  - unfold calc_lidar_empirical in *. apply bind_inv in E as ([] & s0 & Ez & E).
    rewrite (bind_ok _ _ _ tt s0) by exact Ez. apply zero_totals_inv in Ez as [-> _].
    apply (loop_perm e c z (o_sfc o) (optics_empirical e ins c p tc) (opt_emp e ins c p tc)
             (inp e c) (fun _ => True)) with (hs1 := hs1) (l1 := tt) (at0 := zeros3) (bt := zeros3) (ot := zeros3);
      auto using zeroed_a, zeroed_b, zeroed_o.
    + intros h l s' _. apply emp_hopt.
    + intros h s' t _ A. unfold opt_emp. rewrite (empirical_dep e ins c p tc h tt s' t A). reflexivity.
  - cbn [orb] in NM. rewrite NM in *. unfold calc_lidar_bulk in *.
    apply rd_bind_inv in E as (lt & Hl & E). rewrite (bind_rd _ _ _ lt) by exact Hl.
    apply bind_inv in E as ([] & s0 & Ez & E).
    rewrite (bind_ok _ _ _ tt s0) by exact Ez. apply zero_totals_inv in Ez as [-> _].
    apply (loop_perm e c z (o_sfc o) (optics_bulk e ins c (o_mie o) p z) (opt_bulk e ins c (o_mie o) p z)
             (inp e c) (self_contained e)) with (hs1 := hs1) (l1 := no_locals) (at0 := zeros3) (bt := zeros3) (ot := zeros3);
      auto using zeroed_a, zeroed_b, zeroed_o.
    + intros h l s' Sc. apply bulk_hopt; exact Sc.
    + intros h s' t _ A. unfold opt_bulk. rewrite (bulk_dep e ins c _ p z h no_locals s' t A). reflexivity.
    + intros h Hh. destruct (HF h Hh) as [H|H]; [congruence|exact H].
Qed.

Lemma same_upd s s' n a b : same_data s s' -> (forall i t k, a i t k = b i t k) ->
  same_data (upd s n (V3 a)) (upd s' n (V3 b)).
Proof.
  intros H E x. destruct (string_dec x n) as [->|N].
  - rewrite !upd_same. exact E.
  - rewrite !upd_other by exact N. apply H.
Qed.
Lemma same_var3 s s' n a : same_data s s' -> var3 s n a -> exists b, var3 s' n b /\ forall i t k, a i t k = b i t k.
Proof.
  intros H V. specialize (H n). rewrite V in H. unfold var3.
  destruct (assoc (dvars s') n) as [[|b|]|]; simpl in H; try tauto. eauto.
Qed.

Lemma moments_perm e ins o c hs1 hs2 s s1 :
  tables_ok e c -> not_micro o c = true -> Permutation hs1 hs2 -> ~ In "tot"%string hs1 ->
  (forall h, In h hs1 -> order_free e o h) ->
  calc_lidar_moments Gam e ins (with_hyds o hs1) c s = (Ok tt, s1) ->
  exists s2, calc_lidar_moments Gam e ins (with_hyds o hs2) c s = (Ok tt, s2) /\ same_data s1 s2.
Proof.
  intros T NM P NT HF E.
  apply moments_inv with (hs := hs1) in E; [|reflexivity].
  destruct E as (q & pr & tr & zr & s0 & bm & tau & sm & b & od & El & Hq & Hp & Ht & Hz & Ea & Hb & Htau & Em & Hbt & Hod & ->).
  assert (Em' : method_of e ins o c (fun t k => p_pa e (pr t k)) (fun t k => t_cel e (tr t k))
      (fun t k => z_met e (zr t k)) hs1 s0 = (Ok tt, sm)) by exact Em.
  destruct (method_perm e ins o c _ _ _ hs1 hs2 s0 sm T NM P NT HF Em') as (sm2 & Em2 & SD).
  destruct (same_var3 _ _ _ _ SD Hbt) as (b' & Hbt' & Eb).
  destruct (same_var3 _ _ _ _ SD Hod) as (od' & Hod' & Eo).
  eexists. split.
  - apply (moments_run e ins (with_hyds o hs2) c hs2 s q pr tr zr s0 bm tau sm2 b' od'); auto. reflexivity.
  - apply same_upd; [exact SD|]. intros i t k. rewrite Eb, Eo. reflexivity.
Qed.

(** Totals of a successful call. *)
Lemma method_totals e ins o c p tc z hs s s1 :
  not_micro o c = true -> NoDup hs -> ~ In "tot"%string hs ->
  method_of e ins o c p tc z hs s = (Ok tt, s1) ->
  exists at1 bt1 ot1,
    var3 s1 (out "alpha_p" "tot" c) at1 /\ var3 s1 (out "beta_p" "tot" c) bt1 /\
    var3 s1 (out "OD" "tot" c) ot1 /\
    (forall h, In h hs -> exists a b, var3 s1 (out "alpha_p" h c) a /\ var3 s1 (out "beta_p" h c) b
                                      /\ var3 s1 (out "OD" h c) (od_of e z (o_sfc o) a)) /\
    (forall i t k,
      at1 i t k = xsum (map (fun h => fillna 0 (value s1 (out "alpha_p" h c) i t k)) hs) /\
      bt1 i t k = xsum (map (fun h => fillna 0 (value s1 (out "beta_p" h c) i t k)) hs) /\
      ot1 i t k = xsum (map (fun h => fillna 0 (value s1 (out "OD" h c) i t k)) hs)).
Proof.
  intros NM ND NT E. unfold method_of, not_micro in *.
  assert (G : forall (loc : Type) (opt : string -> loc -> dset -> res (loc * (arr3 * arr3))) l s0,
    zero_totals c s = (Ok tt, s0) ->
    class_loop e c z (o_sfc o) (fun _ => lret tt) opt hs l s0 = (Ok tt, s1) ->
    exists at1 bt1 ot1,
      var3 s1 (out "alpha_p" "tot" c) at1 /\ var3 s1 (out "beta_p" "tot" c) bt1 /\
      var3 s1 (out "OD" "tot" c) ot1 /\
      (forall h, In h hs -> exists a b, var3 s1 (out "alpha_p" h c) a /\ var3 s1 (out "beta_p" h c) b
                                      /\ var3 s1 (out "OD" h c) (od_of e z (o_sfc o) a)) /\
      (forall i t k,
        at1 i t k = xsum (map (fun h => fillna 0 (value s1 (out "alpha_p" h c) i t k)) hs) /\
        bt1 i t k = xsum (map (fun h => fillna 0 (value s1 (out "beta_p" h c) i t k)) hs) /\
        ot1 i t k = xsum (map (fun h => fillna 0 (value s1 (out "OD" h c) i t k)) hs))).
  { intros loc opt l s0 Ez El. apply zero_totals_inv in Ez as [-> _].
    destruct (loop_totals e c z (o_sfc o) opt hs l _ s1 zeros3 zeros3 zeros3 ND NT
                (zeroed_a c s) (zeroed_b c s) (zeroed_o c s) El)
      as (at1 & bt1 & ot1 & V1 & V2 & V3 & VC & Tt).
    exists at1, bt1, ot1. do 4 (split; [assumption|]). intros i t k. destruct (Tt i t k) as (-> & -> & ->).
    unfold zeros3. rewrite !xadd_0_l. auto. }
  destruct (o_emp o).
  - unfold calc_lidar_empirical in E. apply bind_inv in E as ([] & s0 & Ez & E). eapply G; eauto.
  - cbn [orb] in NM. rewrite NM in E. unfold calc_lidar_bulk in E.
    apply rd_bind_inv in E as (lt & Hl & E). apply bind_inv in E as ([] & s0 & Ez & E). eapply G; eauto.
Qed.
End Call.
