(** The shipped instruments. *)
From Coq Require Import Reals Lra Lia ZArith.
From Verif Require Import Inst_Spec Xr_Facts Class_Lidar Xds_Proofs.
Local Open Scope string_scope.
Local Open Scope list_scope.
Local Open Scope R_scope.

(** *** Table files *)
Definition all_files (t : tables) : list (string * string) := t_mie t ++ t_scat t ++ t_bulk t.
Definition all_shipped (t : tables) : bool := forallb (fun p => memb (snd p) shipped_files) (all_files t).
Definition cold_liquid (d : device) (sc : bool) : bool :=
  match d with RL | HSRL | CALIOP => false | _ => sc end.
Lemma construct_files d site sc extra : known_site d site ->
  construct d (lead d site sc ++ extra) = load_files (inst_str d) (PB sc) extra.
Proof.
  intro K. destruct d; try reflexivity; unfold known_site in K; unfold construct; cbn [sites lead app];
  (rewrite (proj2 (memb_in _ _) K); reflexivity).
Qed.
Lemma files_ok d sc extra : exists t, load_files (inst_str d) (PB sc) extra = Ok t /\
  map fst (t_mie t) = ["cl"; "pl"; "ci"; "pi"] /\ map fst (t_scat t) = ["E3_ice"; "CESM_ice"; "p3_ice"] /\
  map fst (t_bulk t) = ["E3_ice"; "E3_liq"; "mie_ice_E3_PSD"; "CESM_ice"; "CESM_liq"; "mie_ice_CESM_PSD"; "p3_ice"; "p3_liq"; "mie_ice_P3_PSD"] /\
  (forall n f, In (n, f) (all_files t) -> In f shipped_files) /\
  (forall n, In n ["cl"; "pl"] -> assoc (t_mie t) n =
     Some ("mie_tables/Mie" ++ inst_str d ++ (if cold_liquid d sc then "_liq_c.dat" else "_liq.dat"))%string) /\
  assoc (t_bulk t) "E3_liq" =
     Some ("bulk_c6_tables/bulk_" ++ inst_str d ++ (if cold_liquid d sc then "_C6PSD_mie_liq_c.dat" else "_C6PSD_mie_liq.dat"))%string /\
  (forall n, In n ["CESM_liq"; "p3_liq"] -> assoc (t_bulk t) n =
     Some ("bulk_mDAD_tables/bulk_" ++ inst_str d ++ (if cold_liquid d sc then "_mDAD_mie_liq_c.nc" else "_mDAD_mie_liq.nc"))%string) /\
  assoc (t_mie t) "pi" =
     Some ("mie_tables/Mie" ++ inst_str d ++ (if existsb is_dharma extra then "_pi1.dat" else "_pi.dat"))%string.
Proof.
  assert (S : forall t, all_shipped t = true -> forall n f, In (n, f) (all_files t) -> In f shipped_files).
  { intros t H n f I. unfold all_shipped in H. rewrite forallb_forall in H. apply memb_in. apply (H (n, f) I). }
  unfold load_files. destruct (existsb is_dharma extra), sc, d;
  (eexists; split; [reflexivity|]; split; [reflexivity|]; split; [reflexivity|]; split; [reflexivity|];
   split; [apply S; vm_compute; reflexivity|]; split; [intros n [<-|[<-|[]]]; reflexivity|]; split; [reflexivity|];
   split; [intros n [<-|[<-|[]]]; reflexivity|reflexivity]).
Qed.
Lemma dharma_in extra : existsb is_dharma extra = true <-> In (PS "DHARMA") extra.
Proof.
  rewrite existsb_exists. split.
  - intros (a & I & E). destruct a; try discriminate. apply String.eqb_eq in E. subst s. exact I.
  - intro I. exists (PS "DHARMA"). split; [exact I|reflexivity].
Qed.
Lemma bad_site d site args ok : sites d = Some ok -> ~ In (lower site) ok -> construct d (PS site :: args) = Raise ValueError.
Proof.
  intros E N. unfold construct. rewrite E. destruct (memb (lower site) ok) eqn:M; [|reflexivity].
  apply memb_in in M. tauto.
Qed.
Lemma string_switch d s args : sites d = None -> construct d (PS s :: args) = Raise TypeError.
Proof. destruct d; intro E; try discriminate; reflexivity. Qed.

(** *** Thresholds *)
Lemma log10_le a b : 0 < a -> a <= b -> log10 a <= log10 b.
Proof.
  intros H [L| ->]; [|lra]. unfold log10. apply Rmult_le_compat_r.
  - left. apply Rinv_0_lt_compat. rewrite <- ln_1. apply ln_increasing; lra.
  - left. apply ln_increasing; assumption.
Qed.
Lemma log10_mul a b : 0 < a -> 0 < b -> log10 (a * b) = log10 a + log10 b.
Proof. intros. unfold log10. rewrite ln_mult by assumption. unfold Rdiv. ring. Qed.
Section Order.
Let A := log10 (2 / 10 ^ 5). Let B := log10 (2 / 10 ^ 6). Let C := log10 (5 / 10 ^ 7). Let D := log10 (9 / 10 ^ 6).
Let E := log10 1. Let F := log10 (141421 / 10 ^ 9). Let G := log10 (1 / 10 ^ 3).
Lemma levels : C <= B /\ B <= D /\ D <= A /\ A <= F /\ F <= G /\ G <= E /\ 2 * F <= A + G.
Proof.
  repeat split; try (apply log10_le; lra).
  unfold F, A, G. rewrite <- log10_mul by lra. replace (2 * log10 (141421 / 10 ^ 9)) with (log10 (141421 / 10 ^ 9 * (141421 / 10 ^ 9))).
  - apply log10_le; lra.
  - rewrite log10_mul by lra. ring.
Qed.
Lemma shipped_ok : Forall thr_ok [th_ice; th_undef2; th_undef1; th_liquid].
Proof.
  assert (P : forall th, th_ldr th <> [] -> length (th_beta th) = length (th_ldr th) -> Forall (fun b => 0 < b) (th_beta th) ->
    (forall j, (S j < length (th_ldr th))%nat -> nth j (th_ldr th) 0 < nth (S j) (th_ldr th) 0) -> thr_ok th).
  { intros th H1 H2 H3 H4. repeat split; assumption. }
  repeat (apply Forall_cons; [apply P; [discriminate|reflexivity|
    cbn [th_beta th_ice th_undef2 th_undef1 th_liquid]; repeat (apply Forall_cons; [lra|]); apply Forall_nil|
    cbn [th_ldr th_ice th_undef2 th_undef1 th_liquid]; intros j Hj;
    do 5 (destruct j as [|j]; [cbn [nth ldr4 ldr5 ldr6]; first [lra | exfalso; cbn in Hj; lia]|]); exfalso; cbn in Hj; lia]|]).
  apply Forall_nil.
Qed.
Ltac cases H := destruct H as [[?K ->]|[[?K ->]|(?j & ?Hj & ?K & ->)]];
  repeat match goal with j : nat |- _ => destruct j; try (exfalso; cbn in *; lia) end; cbn in *.
(** Two lines that are ordered at both ends of an interval are ordered on it. *)
Lemma seg_le x p q u v u' v' : p < q -> p <= x <= q -> u <= u' -> v <= v' ->
  u + (x - p) * (v - u) / (q - p) <= u' + (x - p) * (v' - u') / (q - p).
Proof.
  intros H Hx Hu Hv. assert (I : 0 < / (q - p)) by (apply Rinv_0_lt_compat; lra).
  assert (T : 0 <= (x - p) * / (q - p) <= 1).
  { split; [apply Rmult_le_pos; lra|]. apply Rmult_le_reg_r with (q - p); [lra|]. rewrite Rmult_assoc, Rinv_l by lra. lra. }
  replace ((x - p) * (v - u) / (q - p)) with ((x - p) * / (q - p) * (v - u)) by (unfold Rdiv; ring).
  replace ((x - p) * (v' - u') / (q - p)) with ((x - p) * / (q - p) * (v' - u')) by (unfold Rdiv; ring).
  set (t := (x - p) * / (q - p)) in *. nra.
Qed.
Lemma ice_undef2 x y y' : on_curve (th_ldr th_ice) (map log10 (th_beta th_ice)) x y ->
  on_curve (th_ldr th_undef2) (map log10 (th_beta th_undef2)) x y' -> y <= y'.
Proof.
  destruct levels as (L1 & L2 & L3 & L4 & L5 & L6 & L7). unfold A, B, C, D, E, F, G in *.
  cbn [th_ice th_undef2 th_undef1 th_liquid th_ldr th_beta ldr4 ldr5 ldr6 map].
  set (a := log10 (2 / 10 ^ 5)) in *. set (b := log10 (2 / 10 ^ 6)) in *. set (c := log10 (5 / 10 ^ 7)) in *.
  set (d := log10 (9 / 10 ^ 6)) in *. set (e := log10 1) in *.
  set (f := log10 (141421 / 10 ^ 9)) in *. set (g := log10 (1 / 10 ^ 3)) in *.
  clearbody a b c d e f g. intros H1 H2. cases H1; cases H2; try lra.
  - apply seg_le; lra.
  - replace (c + (x - 2 / 10) * (c - c) / (1 - 2 / 10)) with (c + (x - 2 / 10) * (c - c) / (200001 / (10 * (10 * (10 * (10 * (10 * (10 * 1)))))) - 2 / 10)) by field.
    apply seg_le; lra.
Qed.
Lemma undef2_undef1 x y y' : on_curve (th_ldr th_undef2) (map log10 (th_beta th_undef2)) x y ->
  on_curve (th_ldr th_undef1) (map log10 (th_beta th_undef1)) x y' -> y <= y'.
Proof.
  destruct levels as (L1 & L2 & L3 & L4 & L5 & L6 & L7). unfold A, B, C, D, E, F, G in *.
  cbn [th_ice th_undef2 th_undef1 th_liquid th_ldr th_beta ldr4 ldr5 ldr6 map].
  set (a := log10 (2 / 10 ^ 5)) in *. set (b := log10 (2 / 10 ^ 6)) in *. set (c := log10 (5 / 10 ^ 7)) in *.
  set (d := log10 (9 / 10 ^ 6)) in *. set (e := log10 1) in *.
  set (f := log10 (141421 / 10 ^ 9)) in *. set (g := log10 (1 / 10 ^ 3)) in *.
  clearbody a b c d e f g. intros H1 H2. cases H1; cases H2; try lra.
  all: apply seg_le; lra.
Qed.
Lemma undef1_liquid x y y' : on_curve (th_ldr th_undef1) (map log10 (th_beta th_undef1)) x y ->
  on_curve (th_ldr th_liquid) (map log10 (th_beta th_liquid)) x y' -> y <= y'.
Proof.
  destruct levels as (L1 & L2 & L3 & L4 & L5 & L6 & L7). unfold A, B, C, D, E, F, G in *.
  cbn [th_ice th_undef2 th_undef1 th_liquid th_ldr th_beta ldr4 ldr5 ldr6 map].
  set (a := log10 (2 / 10 ^ 5)) in *. set (b := log10 (2 / 10 ^ 6)) in *. set (c := log10 (5 / 10 ^ 7)) in *.
  set (d := log10 (9 / 10 ^ 6)) in *. set (e := log10 1) in *.
  set (f := log10 (141421 / 10 ^ 9)) in *. set (g := log10 (1 / 10 ^ 3)) in *.
  clearbody a b c d e f g. intros H1 H2. cases H1; cases H2; try lra.
  - replace (a + (x - 0) * (g - a) / (2 / 10 - 0)) with
      (a + (x - 0) * ((a + 1 / 10 * (g - a) / (2 / 10)) - a) / (1 / 10 - 0)) by field.
    apply seg_le; lra.
  - set (m := 100001 / (10 * (10 * (10 * (10 * (10 * (10 * 1))))))) in *.
    replace (a + (x - 0) * (g - a) / (2 / 10 - 0)) with
      ((a + 1 / 10 * (g - a) / (2 / 10)) + (x - 1 / 10) * ((a + m * (g - a) / (2 / 10)) - (a + 1 / 10 * (g - a) / (2 / 10))) / (m - 1 / 10))
      by (field; unfold m; lra).
    apply seg_le; unfold m in *; lra.
  - set (m := 100001 / (10 * (10 * (10 * (10 * (10 * (10 * 1))))))) in *.
    replace (a + (x - 0) * (g - a) / (2 / 10 - 0)) with
      ((a + m * (g - a) / (2 / 10)) + (x - m) * (g - (a + m * (g - a) / (2 / 10))) / (2 / 10 - m))
      by (field; unfold m; lra).
    apply seg_le; unfold m in *; lra.
Qed.
End Order.

Lemma curve_ex th x : thr_ok th -> exists y, on_curve (th_ldr th) (map log10 (th_beta th)) x y.
Proof.
  intros (Hn & Hl & Hp & Hm).
  destruct (np_interp_curve x (th_ldr th) (map log10 (th_beta th)) Hn) as (y & _ & Hy);
    [rewrite map_length; exact Hl|exact Hm|]. exists y. exact Hy.
Qed.
Lemma reach_below th th' l b : thr_ok th ->
  (forall x y y', on_curve (th_ldr th) (map log10 (th_beta th)) x y ->
     on_curve (th_ldr th') (map log10 (th_beta th')) x y' -> y <= y') ->
  reaches th' l b -> reaches th l b.
Proof.
  intros O H (x & r & y' & -> & -> & Hr & Hy' & L). destruct (curve_ex th x O) as [y Hy].
  exists x, r, y. repeat split; try assumption. specialize (H x y y' Hy Hy'). lra.
Qed.
Lemma reach_more th x r r' : r <= r' -> reaches th (XF x) (XF r) -> reaches th (XF x) (XF r').
Proof.
  intros H (x0 & r0 & y & [= <-] & [= <-] & Hr & Hy & L). exists x, r', y. repeat split; try assumption; try lra.
  pose proof (log10_le r r' Hr H). lra.
Qed.
Lemma last_cases l b v : last_class [th_ice; th_undef2; th_undef1; th_liquid] l b v ->
  (v = 0%nat /\ ~ reaches th_ice l b /\ ~ reaches th_undef2 l b /\ ~ reaches th_undef1 l b /\ ~ reaches th_liquid l b) \/
  (v = 2%nat /\ reaches th_ice l b /\ ~ reaches th_undef2 l b /\ ~ reaches th_undef1 l b /\ ~ reaches th_liquid l b) \/
  (v = 4%nat /\ reaches th_undef2 l b /\ ~ reaches th_undef1 l b /\ ~ reaches th_liquid l b) \/
  (v = 3%nat /\ reaches th_undef1 l b /\ ~ reaches th_liquid l b) \/
  (v = 1%nat /\ reaches th_liquid l b).
Proof.
  intros [[-> N]|(pre & th & post & E & R & -> & N)].
  - left. repeat split; apply N; simpl; tauto.
  - destruct pre as [|? [|? [|? [|? pre]]]]; injection E as; subst; simpl in N.
    + right; left. split; [reflexivity|]. split; [exact R|]. repeat split; apply N; tauto.
    + right; right; left. split; [reflexivity|]. split; [exact R|]. repeat split; apply N; tauto.
    + right; right; right; left. split; [reflexivity|]. split; [exact R|]. apply N; tauto.
    + right; right; right; right. split; [reflexivity|]. exact R.
    + exfalso. match goal with H : [] = _ ++ _ |- _ => destruct pre; discriminate H end.
Qed.
Lemma class_strength d x r r' : ultraviolet_visible d -> r <= r' ->
  exists v v', phase_cell (thresholds d) (XF x) (XF r) = XF (INR v) /\ phase_cell (thresholds d) (XF x) (XF r') = XF (INR v') /\
    In v [0; 1; 2; 3; 4]%nat /\ (strength v <= strength v')%nat.
Proof.
  intros U H. assert (T : thresholds d = [th_ice; th_undef2; th_undef1; th_liquid]).
  { destruct U as [ <- | [ <- | [ <- | [] ] ] ]; reflexivity. }
  rewrite T. destruct (phase_cell_spec _ (XF x) (XF r) shipped_ok I I) as (v & Ev & Hv).
  destruct (phase_cell_spec _ (XF x) (XF r') shipped_ok I I) as (v' & Ev' & Hv').
  exists v, v'. split; [exact Ev|]. split; [exact Ev'|].
  apply last_cases in Hv, Hv'.
  pose proof (reach_more th_ice x r r' H) as R1. pose proof (reach_more th_undef2 x r r' H) as R2.
  pose proof (reach_more th_undef1 x r r' H) as R3. pose proof (reach_more th_liquid x r r' H) as R4.
  destruct Hv as [Hv|[Hv|[Hv|[Hv|Hv]]]], Hv' as [Hv'|[Hv'|[Hv'|[Hv'|Hv']]]];
    decompose [and] Hv; decompose [and] Hv'; subst v v'; (split; [simpl; tauto|]); try (simpl; lia); exfalso; tauto.
Qed.
Lemma class_seen d x r : ultraviolet_visible d ->
  (phase_cell (thresholds d) (XF x) (XF r) <> XF 0 <-> reaches th_ice (XF x) (XF r)) /\
  (phase_cell (thresholds d) (XF x) (XF r) = XF 1 <-> reaches th_liquid (XF x) (XF r)).
Proof.
  intros U. assert (T : thresholds d = [th_ice; th_undef2; th_undef1; th_liquid]).
  { destruct U as [ <- | [ <- | [ <- | [] ] ] ]; reflexivity. }
  rewrite T. destruct (phase_cell_spec _ (XF x) (XF r) shipped_ok I I) as (v & Ev & Hv). rewrite Ev.
  pose proof shipped_ok as O. inversion O as [|? ? O1 O']; subst. inversion O' as [|? ? O2 O'']; subst.
  inversion O'' as [|? ? O3 _]; subst.
  pose proof (reach_below th_ice th_undef2 (XF x) (XF r) O1 ice_undef2) as B1.
  pose proof (reach_below th_undef2 th_undef1 (XF x) (XF r) O2 undef2_undef1) as B2.
  pose proof (reach_below th_undef1 th_liquid (XF x) (XF r) O3 undef1_liquid) as B3.
  apply last_cases in Hv.
  assert (Z : forall n m, XF (INR n) = XF (INR m) <-> n = m).
  { intros n m. split; [intros [= Q]; apply INR_eq; exact Q|congruence]. }
  change (XF 0) with (XF (INR 0)). change (XF 1) with (XF (INR 1)). rewrite !Z.
  destruct Hv as [Hv|[Hv|[Hv|[Hv|Hv]]]]; decompose [and] Hv; subst v; split; split; intro Q; try lia; try tauto; try discriminate;
    exfalso; tauto.
Qed.
Lemma thresholds_ordered d i j th th' x y y' : (i < j)%nat ->
  nth_error (thresholds d) i = Some th -> nth_error (thresholds d) j = Some th' ->
  on_curve (th_ldr th) (map log10 (th_beta th)) x y -> on_curve (th_ldr th') (map log10 (th_beta th')) x y' -> y <= y'.
Proof.
  assert (T : forall i j, (i < j)%nat ->
    nth_error [th_ice; th_undef2; th_undef1; th_liquid] i = Some th -> nth_error [th_ice; th_undef2; th_undef1; th_liquid] j = Some th' ->
    on_curve (th_ldr th) (map log10 (th_beta th)) x y -> on_curve (th_ldr th') (map log10 (th_beta th')) x y' -> y <= y').
  { clear i j. intros i j L A B C D.
    pose proof shipped_ok as O. inversion O as [|? ? O1 O']; subst. inversion O' as [|? ? O2 O'']; subst.
    inversion O'' as [|? ? O3 _]; subst.
    destruct (curve_ex th_undef2 x O2) as [y2 H2]. destruct (curve_ex th_undef1 x O3) as [y3 H3].
    destruct i as [|[|[|[|i]]]]; try (destruct i; discriminate); injection A as <-;
    destruct j as [|[|[|[|j]]]]; try lia; try (destruct j; discriminate); injection B as <-;
    first [ exact (ice_undef2 _ _ _ C D) | exact (undef2_undef1 _ _ _ C D) | exact (undef1_liquid _ _ _ C D)
          | pose proof (ice_undef2 _ _ _ C H2); pose proof (undef2_undef1 _ _ _ H2 D); lra
          | pose proof (undef2_undef1 _ _ _ C H3); pose proof (undef1_liquid _ _ _ H3 D); lra
          | pose proof (ice_undef2 _ _ _ C H2); pose proof (undef2_undef1 _ _ _ H2 H3); pose proof (undef1_liquid _ _ _ H3 D); lra ]. }
  destruct d; cbn [thresholds]; try (intros ? A; destruct i; discriminate A); apply T.
Qed.

Lemma tables_shipped d site cold extra : known_site d site ->
  exists t, construct d (lead d site cold ++ extra) = Ok t /\
  map fst (t_mie t) = ["cl"; "pl"; "ci"; "pi"] /\ map fst (t_scat t) = ["E3_ice"; "CESM_ice"; "p3_ice"] /\
  map fst (t_bulk t) = ["E3_ice"; "E3_liq"; "mie_ice_E3_PSD"; "CESM_ice"; "CESM_liq"; "mie_ice_CESM_PSD"; "p3_ice"; "p3_liq"; "mie_ice_P3_PSD"] /\
  (forall n f, In (n, f) (t_mie t ++ t_scat t ++ t_bulk t) -> In f shipped_files).
Proof.
  intro K. rewrite construct_files by exact K. destruct (files_ok d cold extra) as (t & A & B & C & D & E & _).
  exists t. auto 6.
Qed.
Lemma tables_choice d site cold extra t : known_site d site ->
  construct d (lead d site cold ++ extra) = Ok t ->
  exists c pi, (c = true <-> cold = true /\ ~ ultraviolet_visible d) /\ (pi = true <-> In (PS "DHARMA") extra) /\
  (forall n, In n ["cl"; "pl"] -> assoc (t_mie t) n =
     Some ("mie_tables/Mie" ++ inst_str d ++ (if c then "_liq_c.dat" else "_liq.dat"))%string) /\
  assoc (t_bulk t) "E3_liq" =
     Some ("bulk_c6_tables/bulk_" ++ inst_str d ++ (if c then "_C6PSD_mie_liq_c.dat" else "_C6PSD_mie_liq.dat"))%string /\
  (forall n, In n ["CESM_liq"; "p3_liq"] -> assoc (t_bulk t) n =
     Some ("bulk_mDAD_tables/bulk_" ++ inst_str d ++ (if c then "_mDAD_mie_liq_c.nc" else "_mDAD_mie_liq.nc"))%string) /\
  assoc (t_mie t) "pi" = Some ("mie_tables/Mie" ++ inst_str d ++ (if pi then "_pi1.dat" else "_pi.dat"))%string.
Proof.
  intros K E. rewrite construct_files in E by exact K. destruct (files_ok d cold extra) as (t' & A & _ & _ & _ & _ & R).
  rewrite E in A. injection A as <-. exists (cold_liquid d cold), (existsb is_dharma extra).
  split; [|split; [apply dharma_in|exact R]].
  unfold ultraviolet_visible. destruct d; simpl; intuition discriminate.
Qed.
Lemma tables_default d site : known_site d site ->
  construct d (match d with KAZR | WACR => [PS site] | _ => [] end) = construct d (lead d site true).
Proof. intro K. destruct d; reflexivity. Qed.
Lemma site_unknown d site args : In d [KAZR; WACR] -> ~ known_site d site -> construct d (PS site :: args) = Raise ValueError.
Proof.
  intros [ <- | [ <- | [] ] ] N; eapply bad_site; try reflexivity; exact N.
Qed.
Lemma string_first d s args : ~ In d [KAZR; WACR] -> construct d (PS s :: args) = Raise TypeError.
Proof. intro N. apply string_switch. destruct d; try reflexivity; exfalso; apply N; simpl; auto. Qed.

Lemma tables_choice_named d s site cold extra t : In (d, s) table_names -> known_site d site ->
  construct d (lead d site cold ++ extra) = Ok t ->
  exists c pi, (c = true <-> cold = true /\ ~ ultraviolet_visible d) /\ (pi = true <-> In (PS "DHARMA") extra) /\
  (forall n, In n ["cl"; "pl"] -> assoc (t_mie t) n =
     Some ("mie_tables/Mie" ++ s ++ (if c then "_liq_c.dat" else "_liq.dat"))%string) /\
  assoc (t_bulk t) "E3_liq" =
     Some ("bulk_c6_tables/bulk_" ++ s ++ (if c then "_C6PSD_mie_liq_c.dat" else "_C6PSD_mie_liq.dat"))%string /\
  (forall n, In n ["CESM_liq"; "p3_liq"] -> assoc (t_bulk t) n =
     Some ("bulk_mDAD_tables/bulk_" ++ s ++ (if c then "_mDAD_mie_liq_c.nc" else "_mDAD_mie_liq.nc"))%string) /\
  assoc (t_mie t) "pi" = Some ("mie_tables/Mie" ++ s ++ (if pi then "_pi1.dat" else "_pi.dat"))%string.
Proof.
  intro I. assert (E : inst_str d = s) by (unfold table_names in I; simpl in I; repeat (destruct I as [I|I]; [injection I as <- <-; reflexivity|]); destruct I).
  rewrite <- E. exact (tables_choice d site cold extra t).
Qed.
