(** Displays of every subcolumn, CFADs and the saved dataset. *)
From Coq Require Import Reals Lra ZArith Lia.
From Verif Require Import Xr_Facts Disp_Stat Disp_Prof Disp_Crop Xds_Proofs Xds_Stack Xds_Fields Load_Facts Curt_Facts Curt_Time Curt_Thm Curt_Regrid Every_Model Every_Spec Every_Facts.
Local Open Scope string_scope.
Local Open Scope list_scope.

Section Model.
Context (m : mobj) (zname : string) (col : Z) (n nt nl k0 : nat) (c : nat -> R) (h : nat -> nat -> R) (CM : columns_model m zname col n nt nl k0 c h).
Ltac start := destruct (positions_ok m zname col n nt nl k0 c h CM) as (q & Q & E1 & E2 & E3 & E4 & P).

Theorem signal_ok ze be radar lidar w : field_of m "sub_col_Ze_att_tot" ze -> field_of m "sub_col_beta_att_tot" be -> k_max w = None ->
  exists x' p1 p2, every_signal m zname col radar lidar w = (x', Ok [p1; p2]) /\
    every_shows p1 n nt nl c h (fun s t j => without (missing 20) (ze s t j k0)) /\ limited p1 false (XF (-50)) (XF 10) /\
    every_shows p2 n nt nl c h (fun s t j => without (missing 40) (be s t j k0)) /\ limited p2 true (XF (1 / 10 ^ 8)) (XF (1 / 10 ^ 3)).
Proof.
  intros F1 F2 W. start. destruct (field4_ok m zname col n nt nl k0 c h CM q _ ze E1 E2 E3 E4 F1) as (v & V1 & _ & _ & _ & V2).
  destruct (field4_ok m zname col n nt nl k0 c h CM q _ be E1 E2 E3 E4 F2) as (u & U1 & _ & _ & _ & U2).
  unfold every_signal. rewrite Q. cbn [then_]. rewrite V1. cbn [then_]. rewrite U1. cbn [then_]. rewrite W. cbn [given then_].
  destruct (epaint_ok n nt nl c h q (fun j k => blank (tiny 20) (plane q v j k)) false (XF (-50)) (XF 10) (fun s t j => without (missing 20) (ze s t j k0)) E1 E2 E3 P) as (p1 & -> & S1 & L1).
  { intros t s j T S J. unfold blank, without. rewrite V2, tiny20 by exact S. reflexivity. }
  destruct (epaint_ok n nt nl c h q (fun j k => blank (tiny 40) (plane q u j k)) true (XF (1 / 10 ^ 8)) (XF (1 / 10 ^ 3)) (fun s t j => without (missing 40) (be s t j k0)) E1 E2 E3 P) as (p2 & -> & S2 & L2).
  { intros t s j T S J. unfold blank, without. rewrite U2, tiny40 by exact S. reflexivity. }
  cbn [then_]. do 3 eexists. split; [reflexivity|]. tauto.
Qed.
Theorem signal_vmax_fails ze be radar lidar w : field_of m "sub_col_Ze_att_tot" ze -> field_of m "sub_col_beta_att_tot" be -> k_max w <> None ->
  every_signal m zname col radar lidar w = (mds m, Raise KeyError).
Proof.
  intros F1 F2 W. start. destruct (field4_ok m zname col n nt nl k0 c h CM q _ ze E1 E2 E3 E4 F1) as (v & V1 & _).
  destruct (field4_ok m zname col n nt nl k0 c h CM q _ be E1 E2 E3 E4 F2) as (u & U1 & _).
  unfold every_signal. rewrite Q. cbn [then_]. rewrite V1. cbn [then_]. rewrite U1. cbn [then_]. destruct (k_max w); [reflexivity|congruence].
Qed.
Theorem nonatt_ok ze be radar lidar w : field_of m "sub_col_Ze_tot" ze -> field_of m "sub_col_beta_p_tot" be -> k_min w = None -> k_max w = None ->
  exists x' p1 p2, every_nonatt m zname col radar lidar w = (x', Ok [p1; p2]) /\
    every_shows p1 n nt nl c h (fun s t j => without (missing 20) (ze s t j k0)) /\ limited p1 false (fst radar) (snd radar) /\
    every_shows p2 n nt nl c h (fun s t j => without (missing 40) (be s t j k0)) /\ limited p2 true (fst lidar) (snd lidar).
Proof.
  intros F1 F2 W1 W2. start. destruct (field4_ok m zname col n nt nl k0 c h CM q _ ze E1 E2 E3 E4 F1) as (v & V1 & _ & _ & _ & V2).
  destruct (field4_ok m zname col n nt nl k0 c h CM q _ be E1 E2 E3 E4 F2) as (u & U1 & _ & _ & _ & U2).
  unfold every_nonatt. rewrite Q. cbn [then_]. rewrite V1. cbn [then_]. rewrite U1. cbn [then_]. rewrite W1, W2. cbn [given orb then_].
  destruct (epaint_ok n nt nl c h q (fun j k => blank (tiny 20) (plane q v j k)) false (fst radar) (snd radar) (fun s t j => without (missing 20) (ze s t j k0)) E1 E2 E3 P) as (p1 & -> & S1 & L1).
  { intros t s j T S J. unfold blank, without. rewrite V2, tiny20 by exact S. reflexivity. }
  destruct (epaint_ok n nt nl c h q (fun j k => blank (tiny 40) (plane q u j k)) true (fst lidar) (snd lidar) (fun s t j => without (missing 40) (be s t j k0)) E1 E2 E3 P) as (p2 & -> & S2 & L2).
  { intros t s j T S J. unfold blank, without. rewrite U2, tiny40 by exact S. reflexivity. }
  cbn [then_]. do 3 eexists. split; [reflexivity|]. tauto.
Qed.
Theorem nonatt_keywords_fail ze be radar lidar w : field_of m "sub_col_Ze_tot" ze -> field_of m "sub_col_beta_p_tot" be -> k_min w <> None \/ k_max w <> None ->
  snd (every_nonatt m zname col radar lidar w) = Raise TypeError.
Proof.
  intros F1 F2 W. start. destruct (field4_ok m zname col n nt nl k0 c h CM q _ ze E1 E2 E3 E4 F1) as (v & V1 & _).
  destruct (field4_ok m zname col n nt nl k0 c h CM q _ be E1 E2 E3 E4 F2) as (u & U1 & _).
  unfold every_nonatt. rewrite Q. cbn [then_]. rewrite V1. cbn [then_]. rewrite U1. cbn [then_].
  destruct (k_min w), (k_max w); destruct W; try congruence; reflexivity.
Qed.
Theorem SR_ok tot mol w nc : k0 < nc ->
  exists p, every_SR m zname (array4 n nt nl nc tot) (array4 n nt nl nc mol) col w = Ok p /\
    every_shows p n nt nl c h (fun s t j => without (missing 40) (xdiv (tot s t j k0) (mol s t j k0))) /\
    limited p false (match k_min w with Some a => a | None => XF 0 end) (match k_max w with Some a => a | None => XF 0 end).
Proof.
  intro K. start. unfold every_SR. rewrite Q. cbn [bind]. unfold array_of. cbn [array4 ash]. rewrite E1, E2, E3, E4, !Nat.eqb_refl.
  destruct (Nat.ltb_spec k0 nc); [|lia]. cbn [andb bind].
  apply (epaint_ok n nt nl c h q _ _ _ _ _ E1 E2 E3 P). intros t s j T S J. unfold blank, without, plane4. cbn [array4 aat].
  rewrite E1, E4, cell_div, cell_mod by exact S. cbn [nth]. rewrite tiny40. reflexivity.
Qed.
(** The dataset after blanking: unchanged with several subcolumns. *)
Lemma then_fst {A} (x : xds) (r : res A) k : (forall a, r = Ok a -> fst (k a) = x) -> fst (then_ x r k) = x.
Proof. destruct r as [a|e]; [intro H; apply H; reflexivity|reflexivity]. Qed.
Lemma blank_keeps test q name v x : c_n q <> 1 -> blank_field test q name v x = x.
Proof. intro N. unfold blank_field. destruct (Nat.eqb_spec (c_n q) 1); [contradiction|reflexivity]. Qed.
Lemma blank_once test q name v x : c_n q = 1 -> blank_field test q name v x =
  setv x name {| vdims := vdims v; vat := fun ix => if Nat.eqb (nth 3 ix 0) (c_col q) then blank test (vat v ix) else vat v ix |}.
Proof. intro N. unfold blank_field. rewrite N. reflexivity. Qed.
End Model.

Lemma positions_n m zname col q : cell_positions m zname col = Ok q -> c_n q = sz (mds m) "subcolumn".
Proof.
  unfold cell_positions. destruct (negb _); [discriminate|]. destruct (vector (mds m) (time_dim m)) as [[nt t]|]; cbn [bind]; [|discriminate].
  destruct (Nat.ltb nt 2 || Nat.eqb (sz (mds m) "subcolumn") 0); [discriminate|]. destruct (getv (mds m) zname) as [v|]; cbn [bind]; [|discriminate].
  destruct (shape (mds m) v) as [|a [|b [|e [|]]]]; try discriminate. destruct (position e col); cbn [bind]; [|discriminate].
  destruct (Nat.eqb a nt && Nat.eqb b (sz (mds m) "lev")); [|discriminate]. intro E. injection E as <-. reflexivity.
Qed.
Lemma four_keeps q lo hi l x : c_n q <> 1 -> fst (four q lo hi l x) = x.
Proof.
  intro N. induction l as [|[name v] l IH]; [reflexivity|]. cbn [four]. rewrite blank_keeps by exact N. apply then_fst. intros p _.
  destruct (four q lo hi l x) as [x2 ps]. cbn [fst] in IH |- *. exact IH.
Qed.
Theorem data_kept m zname col : sz (mds m) "subcolumn" <> 1 -> forall radar lidar w,
  fst (every_signal m zname col radar lidar w) = mds m /\ fst (every_nonatt m zname col radar lidar w) = mds m /\ fst (every_mixing m zname col w) = mds m.
Proof.
  intros N radar lidar w. split; [|split].
  - unfold every_signal. apply then_fst. intros q Q. pose proof (positions_n _ _ _ _ Q) as E. apply then_fst. intros ze _. apply then_fst. intros be _. apply then_fst. intros _ _.
    rewrite blank_keeps by congruence. apply then_fst. intros p1 _. rewrite blank_keeps by congruence. apply then_fst. reflexivity.
  - unfold every_nonatt. apply then_fst. intros q Q. pose proof (positions_n _ _ _ _ Q) as E. apply then_fst. intros ze _. apply then_fst. intros be _. 
    rewrite blank_keeps by congruence. apply then_fst. intros _ _. apply then_fst. intros p1 _. rewrite blank_keeps by congruence. apply then_fst. reflexivity.
  - unfold every_mixing. apply then_fst. intros q Q. pose proof (positions_n _ _ _ _ Q) as E. apply then_fst. intros vs _. apply four_keeps. congruence.
Qed.

Section Mixing.
Context (m : mobj) (zname : string) (col : Z) (n nt nl k0 : nat) (c : nat -> R) (h : nat -> nat -> R) (CM : columns_model m zname col n nt nl k0 c h).
Context (qf : string -> nat -> nat -> nat -> nat -> xr) (QF : forall name, In name q_fields -> field_of m name (qf name)).
Lemma fields_ok q l : c_n q = n -> c_nt q = nt -> c_nl q = nl -> c_col q = k0 -> (forall name, In name l -> field_of m name (qf name)) ->
  exists vs, fields4 (mds m) q l = Ok (map (fun name => (name, vs name)) l) /\
    forall name, In name l -> assoc (all_vars (mds m)) name = Some (vs name) /\ vdims (vs name) = ["subcolumn"; time_dim m; "lev"; "ncol"] /\
      (forall s t j k, vat (vs name) [s; t; j; k] = qf name s t j k) /\ forall t s j, s < n -> plane q (vs name) j (t * n + s) = qf name s t j k0.
Proof.
  intros E1 E2 E3 E4. set (vs := fun name => match assoc (all_vars (mds m)) name with Some v => v | None => {| vdims := []; vat := fun _ => XNaN |} end).
  intro H. exists vs. induction l as [|name l IH].
  - split; [reflexivity|]. intros ? [].
  - destruct IH as [F G]; [intros k K; apply H; right; exact K|].
    destruct (field4_ok m zname col n nt nl k0 c h CM q name (qf name) E1 E2 E3 E4 (H name (or_introl eq_refl))) as (v & V & A & D & V4 & PL).
    assert (W : vs name = v) by (unfold vs; rewrite A; reflexivity).
    split. + cbn [fields4 map]. rewrite V. cbn [bind]. rewrite F. cbn [bind]. rewrite W. reflexivity.
    + intros k [<-|K]; [rewrite W; auto|apply G; exact K].
Qed.
Lemma four_ok q lo hi vs l x : c_n q = n -> c_nt q = nt -> c_nl q = nl ->
  (forall t s, t < nt -> s < n -> c_x q (t * n + s) = XF (cell_time c n t s) /\ forall j, j < nl -> c_y q j (t * n + s) = XF (h t j)) ->
  (forall name, In name l -> forall t s j, s < n -> plane q (vs name) j (t * n + s) = qf name s t j k0) ->
  exists x' ps, four q lo hi (map (fun name => (name, vs name)) l) x = (x', Ok ps) /\
    Forall2 (fun name p => every_shows p n nt nl c h (fun s t j => xmul (without not_positive (qf name s t j k0)) (XF 1000)) /\ limited p false lo hi) l ps.
Proof.
  intros E1 E2 E3 P. revert x. induction l as [|name l IH]; intros x V.
  - exists x, []. split; [reflexivity|constructor].
  - cbn [map four].
    destruct (epaint_ok n nt nl c h q (fun j k => xmul (blank at_most_zero (plane q (vs name) j k)) (XF 1000)) false lo hi (fun s t j => xmul (without not_positive (qf name s t j k0)) (XF 1000)) E1 E2 E3 P) as (p & E & S & L).
    { intros t s j T S J. unfold blank, without. rewrite (V name (or_introl eq_refl)), nonpos_not by exact S. reflexivity. }
    rewrite E. cbn [then_]. destruct (IH (blank_field at_most_zero q name (vs name) x)) as (x' & ps & F & G); [intros k K; apply V; right; exact K|].
    rewrite F. exists x', (p :: ps). split; [reflexivity|]. constructor; [split; assumption|exact G].
Qed.
Theorem mixing_ok w : exists x' ps, every_mixing m zname col w = (x', Ok ps) /\
  Forall2 (fun name p => every_shows p n nt nl c h (fun s t j => xmul (without not_positive (qf name s t j k0)) (XF 1000)) /\
    limited p false (match k_min w with Some a => a | None => XF 0 end) (match k_max w with Some a => a | None => XF (1 / 10) end)) q_fields ps.
Proof.
  destruct (positions_ok m zname col n nt nl k0 c h CM) as (q & Q & E1 & E2 & E3 & E4 & P).
  destruct (fields_ok q q_fields E1 E2 E3 E4 QF) as (vs & F & V). unfold every_mixing. rewrite Q. cbn [then_]. rewrite F. cbn [then_].
  apply four_ok; [exact E1|exact E2|exact E3|exact P|]. intros name I. apply V. exact I.
Qed.
Theorem cloud_precip_ok w : exists p r, every_cloud_precip m zname col w = Ok [p; r] /\
  every_shows p n nt nl c h (fun s t j => xmul (without negative (xadd (qf "strat_q_subcolumns_cl" s t j k0) (qf "strat_q_subcolumns_ci" s t j k0))) (XF 1000)) /\
  limited p false (match k_min w with Some a => a | None => XF 0 end) (match k_max w with Some a => a | None => XF (1 / 10) end) /\
  every_shows r n nt nl c h (fun s t j => xmul (without negative (xadd (qf "strat_q_subcolumns_pl" s t j k0) (qf "strat_q_subcolumns_pi" s t j k0))) (XF 1000)) /\
  limited r false (XF 0) (XF (1 / 10)).
Proof.
  destruct (positions_ok m zname col n nt nl k0 c h CM) as (q & Q & E1 & E2 & E3 & E4 & P).
  destruct (fields_ok q q_fields E1 E2 E3 E4 QF) as (vs & F & V). unfold every_cloud_precip. rewrite Q. cbn [bind]. rewrite F. cbn [bind q_fields map].
  assert (S : forall a b, In a q_fields -> In b q_fields -> forall t s j, t < nt -> s < n -> j < nl ->
    xmul (blank below_zero (xadd (plane q (vs a) j (t * n + s)) (plane q (vs b) j (t * n + s)))) (XF 1000) = xmul (without negative (xadd (qf a s t j k0) (qf b s t j k0))) (XF 1000)).
  { intros a b A B t s j T S J. destruct (V a A) as (_ & _ & _ & VA). destruct (V b B) as (_ & _ & _ & VB). unfold blank, without. rewrite VA, VB, neg_negative by exact S. reflexivity. }
  destruct (epaint_ok n nt nl c h q (fun j k => xmul (blank below_zero (xadd (plane q (vs "strat_q_subcolumns_cl") j k) (plane q (vs "strat_q_subcolumns_ci") j k))) (XF 1000)) false (match k_min w with Some a => a | None => XF 0 end) (match k_max w with Some a => a | None => XF (1 / 10) end) (fun s t j => xmul (without negative (xadd (qf "strat_q_subcolumns_cl" s t j k0) (qf "strat_q_subcolumns_ci" s t j k0))) (XF 1000)) E1 E2 E3 P
    (S "strat_q_subcolumns_cl" "strat_q_subcolumns_ci" ltac:(cbn; auto) ltac:(cbn; auto))) as (p & EP & SP & LP).
  destruct (epaint_ok n nt nl c h q (fun j k => xmul (blank below_zero (xadd (plane q (vs "strat_q_subcolumns_pl") j k) (plane q (vs "strat_q_subcolumns_pi") j k))) (XF 1000)) false (XF 0) (XF (1 / 10)) (fun s t j => xmul (without negative (xadd (qf "strat_q_subcolumns_pl" s t j k0) (qf "strat_q_subcolumns_pi" s t j k0))) (XF 1000)) E1 E2 E3 P
    (S "strat_q_subcolumns_pl" "strat_q_subcolumns_pi" ltac:(cbn; auto) ltac:(cbn; auto))) as (r & ER & SR & LR).
  unfold or_else. cbv zeta. rewrite EP. cbn [bind]. rewrite ER. cbn [bind]. exists p, r. split; [reflexivity|]. tauto.
Qed.
(** With one subcolumn the fields of the model are written to. *)
Lemma setv_assoc x name v k : assoc (all_vars (setv x name v)) k = match assoc (coords x) k with Some u => Some u | None => if String.eqb name k then Some v else assoc (vars x) k end.
Proof.
  unfold all_vars, setv. cbn [coords vars]. rewrite Xds_Round.assoc_app. destruct (assoc (coords x) k); [reflexivity|].
  destruct (String.eqb_spec name k) as [->|N]; [apply put_same|apply put_other; congruence].
Qed.
Lemma four_writes q lo hi vs l x : c_n q = 1 -> NoDup l ->
  (forall name, In name l -> assoc (coords x) name = None) -> forall x' ps, four q lo hi (map (fun name => (name, vs name)) l) x = (x', Ok ps) ->
  coords x' = coords x /\ forall name, In name l -> assoc (vars x') name = Some {| vdims := vdims (vs name);
    vat := fun ix => if Nat.eqb (nth 3 ix 0) (c_col q) then blank at_most_zero (vat (vs name) ix) else vat (vs name) ix |} /\ forall k, ~ In k l -> assoc (vars x') k = assoc (vars x) k.
Proof.
  intros N. revert x. induction l as [|a l IH]; intros x ND C x' ps E.
  - cbn in E. injection E as <- _. split; [reflexivity|]. intros ? [].
  - cbn [map four] in E. rewrite blank_once in E by exact N. inversion ND as [|? ? NI ND']; subst. destruct (epaint q 1000 _ false lo hi); cbn [then_] in E; [|discriminate].
    set (x1 := setv x a _) in E. destruct (four q lo hi (map (fun name => (name, vs name)) l) x1) as [x2 ps2] eqn:F. destruct ps2 as [ps2|]; [|discriminate].
    injection E as <- _. destruct (IH x1 ND') with (x' := x2) (ps := ps2) as [C2 H]; [intros k K; apply C; right; exact K|exact F|].
    split; [exact C2|].
    assert (A1 : assoc (vars x1) a = Some {| vdims := vdims (vs a); vat := fun ix => if Nat.eqb (nth 3 ix 0) (c_col q) then blank at_most_zero (vat (vs a) ix) else vat (vs a) ix |}) by (apply put_same).
    assert (KEEP : forall k, ~ In k l -> assoc (vars x2) k = assoc (vars x1) k).
    { intros k K. destruct l as [|b l']; [cbn in F; injection F as <- _; reflexivity|]. destruct (H b (or_introl eq_refl)) as [_ G]. apply G, K. }
    intros name [<-|I].
    + split; [rewrite KEEP by exact NI; exact A1|]. intros k K. rewrite KEEP by (intro J; apply K; right; exact J). unfold x1, setv. cbn [vars]. apply put_other. intros ->. apply K. left. reflexivity.
    + destruct (H name I) as [G1 G2]. split; [exact G1|]. intros k K. rewrite G2 by (intro J; apply K; right; exact J). unfold x1, setv. cbn [vars]. apply put_other. intros ->. apply K. left. reflexivity.
Qed.
Theorem mixing_writes w : n = 1 -> (forall name, In name q_fields -> assoc (coords (mds m)) name = None) ->
  forall name, In name q_fields -> exists v, assoc (vars (fst (every_mixing m zname col w))) name = Some v /\ vdims v = ["subcolumn"; time_dim m; "lev"; "ncol"] /\
    forall t j k, vat v [0; t; j; k] = if Nat.eqb k k0 && not_positive (qf name 0 t j k) then XNaN else qf name 0 t j k.
Proof.
  intros N1 C name I. destruct (mixing_ok w) as (x' & ps & E & _). rewrite E. cbn [fst].
  destruct (positions_ok m zname col n nt nl k0 c h CM) as (q & Q & E1 & E2 & E3 & E4 & P).
  destruct (fields_ok q q_fields E1 E2 E3 E4 QF) as (vs & F & V). unfold every_mixing in E. rewrite Q in E. cbn [then_] in E. rewrite F in E. cbn [then_] in E.
  assert (ND : NoDup q_fields) by (repeat constructor; cbn; intuition discriminate).
  destruct (four_writes q _ _ vs q_fields (mds m) ltac:(congruence) ND C x' ps E) as [_ H].
  destruct (H name I) as [G _]. destruct (V name I) as (_ & D & V4 & _). eexists. split; [exact G|]. cbn [vdims vat]. split; [exact D|].
    intros t j k. cbn [nth]. rewrite E4, V4. unfold blank. rewrite nonpos_not. destruct (Nat.eqb k k0); reflexivity.
Qed.
End Mixing.

Section Signal.
Context (m : mobj) (zname : string) (col : Z) (n nt nl k0 : nat) (c : nat -> R) (h : nat -> nat -> R) (CM : columns_model m zname col n nt nl k0 c h).
Theorem signal_writes ze be radar lidar w : n = 1 -> field_of m "sub_col_Ze_att_tot" ze -> field_of m "sub_col_beta_att_tot" be -> k_max w = None ->
  let x' := fst (every_signal m zname col radar lidar w) in
  exists v u, assoc (vars x') "sub_col_Ze_att_tot" = Some v /\ assoc (vars x') "sub_col_beta_att_tot" = Some u /\
    forall t j k, vat v [0; t; j; k] = (if Nat.eqb k k0 && missing 20 (ze 0 t j k) then XNaN else ze 0 t j k) /\
      vat u [0; t; j; k] = (if Nat.eqb k k0 && missing 40 (be 0 t j k) then XNaN else be 0 t j k).
Proof.
  intros N F1 F2 W. cbv zeta. destruct (positions_ok m zname col n nt nl k0 c h CM) as (q & Q & E1 & E2 & E3 & E4 & P).
  destruct (field4_ok m zname col n nt nl k0 c h CM q _ ze E1 E2 E3 E4 F1) as (v & V1 & _ & _ & V4 & V2).
  destruct (field4_ok m zname col n nt nl k0 c h CM q _ be E1 E2 E3 E4 F2) as (u & U1 & _ & _ & U4 & U2).
  unfold every_signal. rewrite Q. cbn [then_]. rewrite V1. cbn [then_]. rewrite U1. cbn [then_]. rewrite W. cbn [given then_].
  destruct (epaint_ok n nt nl c h q (fun j k => blank (tiny 20) (plane q v j k)) false (XF (-50)) (XF 10) (fun s t j => without (missing 20) (ze s t j k0)) E1 E2 E3 P) as (p1 & -> & _).
  { intros t s j T S J. unfold blank, without. rewrite V2, tiny20 by exact S. reflexivity. }
  destruct (epaint_ok n nt nl c h q (fun j k => blank (tiny 40) (plane q u j k)) true (XF (1 / 10 ^ 8)) (XF (1 / 10 ^ 3)) (fun s t j => without (missing 40) (be s t j k0)) E1 E2 E3 P) as (p2 & -> & _).
  { intros t s j T S J. unfold blank, without. rewrite U2, tiny40 by exact S. reflexivity. }
  cbn [then_ fst]. rewrite !blank_once by congruence. cbn [setv vars].
  do 2 eexists. split; [rewrite put_other by discriminate; apply put_same|]. split; [apply put_same|].
  intros t j k. cbn [vat nth]. rewrite E4, V4, U4. unfold blank. rewrite tiny20, tiny40. split; destruct (Nat.eqb k k0); reflexivity.
Qed.
End Signal.

(** CFADs. *)
Theorem cfad_ok edges grid a lo hi bins (e : nat -> R) : length edges = S bins -> (forall i, i < S bins -> nth i edges XNaN = XF (e i)) ->
  ash a = [length grid; bins] ->
  exists p, cfad edges grid a (Ok (lo, hi)) = Ok p /\ p_edges p = true /\ p_rows p = length grid /\ p_cols p = bins /\
    (forall i, i <= bins -> p_x p i = XF (e i)) /\ (forall k, p_y p k = XF (INR k * (48 / 100))) /\
    (forall k i, p_val p k i = aat a [k; i]) /\ p_lo p = Some lo /\ p_hi p = Some hi.
Proof.
  intros L E S. unfold cfad. cbn [bind]. unfold pcolormesh. rewrite S, L.
  rewrite (all_finite (Datatypes.S bins) (fun i => nth i edges XNaN) e E), (all_finite _ (fun i => XF (INR i * (48 / 100))) (fun i => INR i * (48 / 100))%R) by reflexivity.
  cbn [andb negb]. destruct (Nat.eqb_spec (Datatypes.S bins) bins); [lia|]. cbn [andb]. rewrite !Nat.eqb_refl. cbn [andb bind fst snd]. eexists. split; [reflexivity|]. cbn.
  repeat split; auto. intros i I. apply E. lia.
Qed.
Theorem cfad_same_grid edges grid grid' a lim : length grid = length grid' -> cfad edges grid a lim = cfad edges grid' a lim.
Proof. intro L. unfold cfad. rewrite L. reflexivity. Qed.

(** The saved dataset. *)
Lemma add_var_get x name dims a x' : add_var x name dims a = Ok x' ->
  coords x' = coords x /\ assoc (vars x') name = Some {| vdims := dims; vat := aat a |} /\ (forall k, k <> name -> assoc (vars x') k = assoc (vars x) k).
Proof.
  unfold add_var. destruct (fits x dims (ash a)); [|discriminate]. intro E. injection E as <-. cbn [coords vars]. split; [reflexivity|]. split; [apply put_same|].
  intros k K. apply put_other. congruence.
Qed.
Theorem save_holds x bins cf cz cs x' : save_cfads x bins cf cz cs = Ok x' ->
  field x' "CFAD_Radar" {| vdims := ["cosp_ht"; "cosp_ze"]; vat := aat cz |} /\
  field x' "CFAD_SR" {| vdims := ["cosp_ht"; "cosp_sr"]; vat := aat cs |} /\
  field x' "cloud_fraction" {| vdims := ["time"; "cosp_ht"; "ncol"]; vat := aat cf |} /\
  coords x' = coords x /\ forall k, ~ In k ["CFAD_Radar"; "CFAD_SR"; "cloud_fraction"] -> assoc (vars x') k = assoc (vars x) k.
Proof.
  unfold save_cfads. destruct (add_var x _ _ cz) as [a|] eqn:A; cbn [bind]; [|discriminate]. destruct (add_var a _ _ cs) as [b|] eqn:B; cbn [bind]; [|discriminate].
  intro C. destruct (add_var_get _ _ _ _ _ A) as (A1 & A2 & A3). destruct (add_var_get _ _ _ _ _ B) as (B1 & B2 & B3). destruct (add_var_get _ _ _ _ _ C) as (C1 & C2 & C3).
  unfold field. split; [rewrite C3, B3 by discriminate; exact A2|]. split; [rewrite C3 by discriminate; exact B2|]. split; [exact C2|]. split; [congruence|].
  intros k K. rewrite C3, B3, A3; [reflexivity| | |]; intros ->; apply K; cbn; auto.
Qed.
