From Verif Require Import Driver_Model Spec_Common Gen_Facts Conv_Proofs Strat_Spec Strat_Level Strat_Api Precip_Api Strat_Corol QN_Spec QN_Proofs QN_Api QN_Corol Driver_Spec History_Spec History_Model History_Proofs.
From Coq Require Import ZifyBool Lqa.
Local Open Scope nat_scope.

Lemma flags_kept outs m m' x g : unchanged_except outs m m' -> ~ In x outs -> flags m x g -> flags m' x g.
Proof. intros (_ & _ & _ & U) Hx Hf. unfold flags. rewrite U by exact Hx. exact Hf. Qed.

Lemma values_kept outs m m' x g : unchanged_except outs m m' -> ~ In x outs -> values m x g -> values m' x g.
Proof. intros (_ & _ & _ & U) Hx Hf. unfold values. rewrite U by exact Hx. exact Hf. Qed.

Lemma kinds_differ a b : frac_out true a <> frac_out false b.
Proof. intro E. discriminate. Qed.

Section Complete.
Context (m : mdl) (T H : nat) (hs : list string) (F : bool -> bool -> string -> list (list Q))
        (Qv : bool -> string -> list (list Q)) (Nf : string -> list (list Q)).
Hypothesis Hco : complete m T H hs F Qv Nf.

(** Input fields survive any change of outputs. *)
Local Notation only_outputs := (only_outputs m).

Lemma only_refl : only_outputs m.
Proof. repeat split. Qed.

Lemma only_step outs m1 m2 : only_outputs m1 -> unchanged_except outs m1 m2 -> (forall x, In x outs -> out_name x) -> only_outputs m2.
Proof.
  intros (A & B & C & D) (A' & B' & C' & D') Ho.
  split; [congruence|]. split; [congruence|]. split; [congruence|].
  intros x Hx. rewrite D'; [apply D, Hx|]. intro Hin. apply Hx, Ho, Hin.
Qed.

Lemma field_kept m' d h g : only_outputs m' -> In d (dicts m) -> field m d h g -> field m' d h g.
Proof.
  intros (_ & _ & _ & U) Hd (x & A & B). exists x. split; [exact A|]. rewrite U; [exact B|].
  intros (h' & c & Hx). destruct (co_names _ _ _ _ _ _ _ Hco h' c) as (N1 & N2 & N3).
  destruct Hx as [->|[->| ->]]; [apply (N1 d h Hd A)|apply (N2 d h Hd A)|apply (N3 d h Hd A)].
Qed.

Lemma frac_dict_in c r : In (frac_dict m c r) (dicts m).
Proof. unfold frac_dict, dicts. destruct c, r; simpl; tauto. Qed.
Lemma q_dict_in c : In (q_dict m c) (dicts m).
Proof. unfold q_dict, dicts. destruct c; simpl; tauto. Qed.
Lemma n_dict_in : In (n_field (nm m)) (dicts m).
Proof. unfold dicts; simpl; tauto. Qed.

Lemma frac_dict_nm m' c r : nm m' = nm m -> frac_dict m' c r = frac_dict m c r.
Proof. intro E. unfold frac_dict. rewrite E. reflexivity. Qed.
Lemma q_dict_nm m' c : nm m' = nm m -> q_dict m' c = q_dict m c.
Proof. intro E. unfold q_dict. rewrite E. reflexivity. Qed.

Lemma frac_input_kept m' c r h : only_outputs m' -> In h hs -> frac_input m' c r T H (F c r) (Qv c) h.
Proof.
  intros Ho Hh. destruct (co_frac _ _ _ _ _ _ _ Hco c r h Hh) as (A & B & C). destruct (co_q _ _ _ _ _ _ _ Hco c h Hh) as (D & E).
  assert (Hn : nm m' = nm m) by apply Ho. unfold frac_input. rewrite frac_dict_nm, q_dict_nm by exact Hn.
  split; [apply field_kept; [exact Ho|apply frac_dict_in|exact A]|]. split; [exact B|]. split; [exact C|].
  intros _. split; [|exact E]. apply field_kept; [exact Ho|apply q_dict_in|exact D].
Qed.

Lemma flags_step N rad sch d : 2 <= N -> good_sched sch ->
  draws_ok (d_strat d) -> draws_ok (d_precip d) -> draws_ok (d_conv d) ->
  exists m', driver_flags (Some N) rad sch d m = (Ok tt, m') /\ dim_sub m' = Some N /\ only_outputs m' /\
    (forall h, In h hs -> flags_for m' T H N false h) /\
    (process_conv m = true -> forall h, In h hs -> flags_for m' T H N true h) /\
    (exists gl, flags m' (frac_out false "cl") gl /\ shape3 T H N gl /\
       forall t j i, t < T -> j < H -> flagged (at2 [] gl t j) i -> (0 < at2 0%Q (F false rad "cl"%string) t j)%Q).
Proof.
  intros HN Hs Hd1 Hd2 Hd3. unfold driver_flags. rewrite bind_get.
  assert (HT : 1 <= T /\ ntime m = T /\ unset m) by apply Hco. destruct HT as (HT & Hnt & Hns).
  assert (Hc : hs = classes m /\ NoDup hs) by apply Hco. destruct Hc as [Hcl Hnd]. rewrite <- Hcl.
  destruct (co_cloud _ _ _ _ _ _ _ Hco) as [Icl Ici].
  (* convective *)
  assert (S1 : exists m1 r1, (if process_conv m then mapMM (fun h => set_convective h (Some N) rad default_thr) hs else ret []) m = (Ok r1, m1) /\
     only_outputs m1 /\ (process_conv m = true -> dim_sub m1 = Some N) /\ (process_conv m = false -> m1 = m) /\
     (process_conv m = true -> forall h, In h hs -> flags_for m1 T H N true h)).
  { destruct (process_conv m) eqn:Epc.
    - destruct (convective_all m (Some N) rad default_thr N T H hs (F true rad) (Qv true) HN) as (m1 & E & D & U & P).
      + left; auto.
      + exact Hnd.
      + intros h Hh. destruct (co_frac _ _ _ _ _ _ _ Hco true rad h Hh) as (A & B & C).
        destruct (co_frac _ _ _ _ _ _ _ Hco true false h Hh) as (A0 & B0 & C0).
        destruct (co_q _ _ _ _ _ _ _ Hco true h Hh) as (A1 & B1).
        split; [|split; [exact C|apply (co_names _ _ _ _ _ _ _ Hco h true)]].
        split; [exact B|]. split; [exact Hnt|]. split.
        * exists (F true false h). split; [exact A0|]. intros ->. reflexivity.
        * intros ->. split; [exact A|]. split; [exact A1|exact B1].
      + exists m1. eexists. split; [exact E|]. split.
        { eapply only_step; [exact only_refl|exact U|]. intros x Hx. apply in_map_iff in Hx as (h & <- & _). exists h, true. left; reflexivity. }
        split. { intros _. apply D. intro X. rewrite X in Icl. destruct Icl. }
        split; [discriminate|]. intros _ h Hh. destruct (P h Hh) as (g & G1 & G2 & _). exists g. split; assumption.
    - exists m. eexists. split; [reflexivity|]. split; [apply only_refl|]. split; [discriminate|]. split; [reflexivity|discriminate]. }
  destruct S1 as (m1 & r1 & E1 & O1 & D1 & Eq1 & P1). unfold mbind at 1. rewrite E1.
  assert (Hpc1 : process_conv m1 = process_conv m) by apply O1.
  assert (Hnm1 : nm m1 = nm m) by apply O1.
  assert (Hnt1 : ntime m1 = T) by (destruct O1 as (X & _); congruence).
  (* stratiform *)
  assert (R1 : strat_ready m1 (Some N) rad N T H (F false rad) (Qv false)).
  { split; [exact HN|]. split; [exact HT|]. split; [exact Hnt1|]. split.
    { destruct (process_conv m) eqn:Epc.
      - left. split; [congruence|]. split; [apply D1; reflexivity|]. split; [intro X; injection X; lia|].
        intros h Hh. apply (P1 eq_refl). destruct Hh as [<-|[<-|[]]]; assumption.
      - right. split; [congruence|]. split; [reflexivity|]. split; [left; rewrite (Eq1 eq_refl); exact Hns|].
        exists (F false false "cl"%string). destruct (co_frac _ _ _ _ _ _ _ Hco false false "cl"%string Icl) as (A & B & _).
        split; [|exact B]. rewrite (Eq1 eq_refl). exact A. }
    split.
    - intros h Hh. assert (Hh' : In h hs) by (destruct Hh as [<-|[<-|[]]]; assumption).
      pose proof (frac_input_kept m1 false rad h O1 Hh') as (A & B & C & D). auto.
    - exists (F false true "cl"%string). destruct (co_frac _ _ _ _ _ _ _ Hco false true "cl"%string Icl) as (A & _).
      rewrite Hnm1. apply (field_kept m1 (frac_dict m false true)); [exact O1|apply frac_dict_in|exact A]. }
  destruct (set_stratiform_ok m1 (Some N) rad sch default_thr (d_strat d) N T H _ _ R1 Hs Hd1)
    as (m2 & gl & gi & E2 & G1 & G2 & Sh1 & Sh2 & D2 & U2 & Top & _).
  destruct (strat_count_all m1 (Some N) rad sch default_thr (d_strat d) N T H _ _ R1 Hs Hd1)
    as (m2' & gl' & gi' & E2' & G1' & G2' & Cnt).
  rewrite E2 in E2'. injection E2' as <-. unfold flags in G1', G2'. rewrite G1 in G1'. rewrite G2 in G2'. injection G1' as <-. injection G2' as <-.
  unfold mbind at 1. rewrite E2.
  assert (O2 : only_outputs m2).
  { eapply only_step; [exact O1|exact U2|]. intros x [<-|[<-|[]]]; [exists "cl"%string, false|exists "ci"%string, false]; left; reflexivity. }
  (* stratiform precipitation *)
  set (ps := precip_classes m).
  assert (Hps : forall h, In h ps <-> In h hs /\ h <> "cl"%string /\ h <> "ci"%string).
  { intro h. unfold ps, precip_classes. rewrite filter_In, <- Hcl.
    destruct (String.eqb_spec h "cl"), (String.eqb_spec h "ci"); simpl; intuition congruence. }
  assert (R2 : precip_ready m2 false rad N T H ps (F false rad) (Qv false) gi gl).
  { split; [exact HN|]. split; [exact HT|]. split; [destruct O2; congruence|]. split; [exact D2|].
    split; [apply NoDup_filter; rewrite <- Hcl; exact Hnd|]. split.
    { destruct (co_precip _ _ _ _ _ _ _ Hco) as (h & A). intro X. assert (Y : In h ps) by (apply Hps; exact A). rewrite X in Y. destruct Y. }
    split; [exact G2|]. split; [exact Sh2|]. split; [exact G1|]. split; [exact Sh1|].
    intros h Hh. apply frac_input_kept; [exact O2|]. apply Hps, Hh. }
  destruct (set_precip_ok m2 false rad sch default_thr (d_precip d) N T H ps _ _ gi gl R2 Hs Hd2)
    as (m3 & G & E3 & D3 & U3 & P3 & _).
  unfold mbind at 1. rewrite E3.
  assert (Ho3 : forall x, In x (map (frac_out false) ps) -> out_name x).
  { intros x Hx. apply in_map_iff in Hx as (h & <- & _). exists h, false. left; reflexivity. }
  assert (O3 : only_outputs m3) by (eapply only_step; eassumption).
  assert (Ncl : ~ In (frac_out false "cl") (map (frac_out false) ps)).
  { intro X. apply in_map_iff in X as (h & X & Y). apply frac_out_inj in X. apply Hps in Y. tauto. }
  assert (Nci : ~ In (frac_out false "ci") (map (frac_out false) ps)).
  { intro X. apply in_map_iff in X as (h & X & Y). apply frac_out_inj in X. apply Hps in Y. tauto. }
  assert (K3 : forall h, In h hs -> flags_for m3 T H N false h).
  { intros h Hh. destruct (string_dec h "cl") as [->|]; [exists gl; split; [eapply flags_kept; [exact U3|exact Ncl|exact G1]|exact Sh1]|].
    destruct (string_dec h "ci") as [->|]; [exists gi; split; [eapply flags_kept; [exact U3|exact Nci|exact G2]|exact Sh2]|].
    exists (G h). apply P3. apply Hps. auto. }
  assert (C3 : process_conv m = true -> forall h, In h hs -> flags_for m3 T H N true h).
  { intros Epc h Hh. destruct (P1 Epc h Hh) as (g & X & Y). exists g. split; [|exact Y].
    eapply flags_kept; [exact U3| |eapply flags_kept; [exact U2| |exact X]].
    - intro Z. apply in_map_iff in Z as (h' & Z & _). symmetry in Z. apply kinds_differ in Z. exact Z.
    - intros [Z|[Z|[]]]; symmetry in Z; apply (kinds_differ _ _ Z). }
  assert (L3 : flags m3 (frac_out false "cl") gl) by (eapply flags_kept; [exact U3|exact Ncl|exact G1]).
  assert (Pos : forall t j i, t < T -> j < H -> flagged (at2 [] gl t j) i -> (0 < at2 0%Q (F false rad "cl"%string) t j)%Q).
  { intros t j i Ht Hj Hi. destruct (Nat.eq_dec (S j) H) as [Ej|Ej].
    { destruct (Top t j Ht Ej) as [X _]. rewrite X in Hi. unfold flagged in Hi. rewrite nth_repeat_bool in Hi. discriminate. }
    assert (Hj' : S j < H) by lia.
    destruct (co_frac _ _ _ _ _ _ _ Hco false rad "cl"%string Icl) as (_ & Sf & Pf).
    destruct (co_frac _ _ _ _ _ _ _ Hco false rad "ci"%string Ici) as (_ & Sf' & Pf').
    pose proof (proportions_at T H _ 0%Q t j Sf Pf Ht Hj) as Hp. pose proof (proportions_at T H _ 0%Q t j Sf' Pf' Ht Hj) as Hp'.
    destruct (requested_exists rad default_thr (at2 0%Q (Qv false "cl"%string) t j) _ N Hp) as (kl & Rl & Hkl & _).
    destruct (requested_exists rad default_thr (at2 0%Q (Qv false "ci"%string) t j) _ N Hp') as (ki & Ri & Hki & _).
    apply Qnot_le_lt. intro X.
    assert (Z0 : kl = 0%Z).
    { destruct Rl as [(_ & _ & Y)|[_ Y]]; [exact Y|].
      eapply rounded_unique; [exact Y|]. split.
      - assert (Z : (at2 0%Q (F false rad "cl"%string) t j == 0)%Q) by lra. rewrite Z.
        setoid_replace (0 * inject_Z (Z.of_nat N) - inject_Z 0)%Q with 0%Q by (change (inject_Z 0) with 0%Q; ring). discriminate.
      - reflexivity. }
    destruct (conv_here_exists m1 (Some N) N T H t j) as (cv & Hcv); [apply R1|exact Ht|exact Hj|].
    assert (Na : exists a, number_of (fun i => i < N /\ ~ convective m1 t j i) a).
    { eexists. eapply number_of_ext; [|apply (avail_number N cv), Hcv]. intro i'. destruct Hcv as [_ Hcv]. rewrite Hcv. tauto. }
    assert (Nb : exists b, number_of (fun i => flagged (at2 [] gl t (S j)) i /\ flagged (at2 [] gi t (S j)) i /\ ~ convective m1 t j i) b).
    { eexists. apply (number_of_filter N (fun i => nth i (at2 [] gl t (S j)) false && nth i (at2 [] gi t (S j)) false && negb (nth i cv false))).
      intro i'. destruct Hcv as [_ Hcv]. rewrite <- Hcv. unfold flagged. rewrite !andb_true_iff, negb_true_iff, not_true_iff_false.
      split; [intros (A & B & C); repeat split; auto|tauto].
      apply flagged_lt in A. rewrite (shape3_cell T H N gl t (S j) Sh1 Ht Hj') in A. exact A. }
    destruct Na as (a & Na). destruct Nb as (b & Nb).
    destruct (Cnt t j Ht Hj' kl ki a b Rl Ri Na Nb) as [_ Q1].
    destruct Q1 as [Q1 _]; [intros [Y _]; lia|].
    assert (Ho : occ (at2 [] gl t j) = 0).
    { rewrite Z0 in Q1. destruct (_ && _ && _); lia. }
    assert (Hpos : 1 <= occ (at2 [] gl t j)).
    { clear - Hi. revert i Hi. induction (at2 [] gl t j) as [|x l IH]; intros i Hi; [destruct i; discriminate|].
      rewrite cnt_cons. destruct i; [unfold flagged in Hi; simpl in Hi; subst x; lia|]. specialize (IH i Hi). lia. }
    lia. }
  (* convective precipitation *)
  destruct (process_conv m) eqn:Epc.
  2:{ exists m3. split; [reflexivity|]. split; [exact D3|]. split; [exact O3|]. split; [exact K3|]. split; [discriminate|]. exists gl. auto. }
  destruct (C3 eq_refl "cl"%string Icl) as (cc & X1 & X2). destruct (C3 eq_refl "ci"%string Ici) as (ci & Y1 & Y2).
  destruct (co_conv _ _ _ _ _ _ _ Hco Epc) as [Ipl Ipi].
  assert (R3 : precip_ready m3 true rad N T H ["pl"; "pi"]%string (F true rad) (Qv true) ci cc).
  { split; [exact HN|]. split; [exact HT|]. split; [destruct O3; congruence|]. split; [exact D3|].
    split. { constructor; [intros [Z|[]]; discriminate|]. constructor; [intros []|constructor]. }
    split; [discriminate|]. split; [exact Y1|]. split; [exact Y2|]. split; [exact X1|]. split; [exact X2|].
    intros h Hh. apply frac_input_kept; [exact O3|]. destruct Hh as [<-|[<-|[]]]; assumption. }
  destruct (set_precip_ok m3 true rad sch default_thr (d_conv d) N T H _ _ _ ci cc R3 Hs Hd3) as (m4 & G4 & E4 & D4 & U4 & P4 & _).
  exists m4. split; [exact E4|]. split; [exact D4|]. split.
  { eapply only_step; [exact O3|exact U4|]. intros x Hx. apply in_map_iff in Hx as (h & <- & _). exists h, true. left; reflexivity. }
  assert (Nf4 : forall h, ~ In (frac_out false h) (map (frac_out true) ["pl"; "pi"]%string)).
  { intros h Z. apply in_map_iff in Z as (h' & Z & _). apply (kinds_differ _ _ Z). }
  split. { intros h Hh. destruct (K3 h Hh) as (g & Z1 & Z2). exists g. split; [eapply flags_kept; [exact U4|apply Nf4|exact Z1]|exact Z2]. }
  split.
  - intros _ h Hh. destruct (in_dec string_dec h ["pl"; "pi"]%string) as [Hin|Hin]; [exists (G4 h); apply P4, Hin|].
    destruct (C3 eq_refl h Hh) as (g & Z1 & Z2). exists g. split; [|exact Z2]. eapply flags_kept; [exact U4| |exact Z1].
    intro Z. apply in_map_iff in Z as (h' & Z & Hh'). apply frac_out_inj in Z. subst h'. contradiction.
  - exists gl. split; [eapply flags_kept; [exact U4|apply Nf4|exact L3]|]. auto.
Qed.

Lemma q_n_frac c h c' h' : q_out c h <> frac_out c' h' /\ n_out h <> frac_out c' h'.
Proof. destruct c, c'; split; intro E; discriminate. Qed.

Lemma q_out_inj c a b : q_out c a = q_out c b -> a = b.
Proof. destruct c; apply (append_inj "conv_q_subcolumns_") || apply (append_inj "strat_q_subcolumns_"). Qed.
Lemma n_out_inj a b : n_out a = n_out b -> a = b.
Proof. apply (append_inj "strat_n_subcolumns_"). Qed.

(** State during the loop over the classes. *)
Definition ready_state N rad (mm : mdl) : Prop :=
  dim_sub mm = Some N /\ only_outputs mm /\
  (forall h, In h hs -> flags_for mm T H N false h) /\
  (process_conv m = true -> forall h, In h hs -> flags_for mm T H N true h) /\
  (exists gl, flags mm (frac_out false "cl") gl /\ shape3 T H N gl /\
       forall t j i, t < T -> j < H -> flagged (at2 [] gl t j) i -> (0 < at2 0%Q (F false rad "cl"%string) t j)%Q).

Lemma qn_keeps N rad mm h c qc rad' sch thr perm gam : ready_state N rad mm ->
  dim_sub (snd (set_q_n h c qc rad' sch thr perm gam mm)) = Some N ->
  ready_state N rad (snd (set_q_n h c qc rad' sch thr perm gam mm)) /\
  (forall x g, ~ In x (q_out c h :: if c then [] else [n_out h]) -> values mm x g -> values (snd (set_q_n h c qc rad' sch thr perm gam mm)) x g).
Proof.
  intros (D & O & A & B & (gl & C1 & C2 & C3)) Hd.
  pose proof (call_changes_only (QN h c qc rad' sch thr perm gam) mm) as U. cbn [run_call writes] in U.
  set (m2 := snd (set_q_n h c qc rad' sch thr perm gam mm)) in *.
  assert (Hf : forall c' h', ~ In (frac_out c' h') (q_out c h :: (if c then [] else [n_out h]))).
  { intros c' h' [X|X]; [apply (proj1 (q_n_frac c h c' h')), X|]. destruct c; [destruct X|]. destruct X as [X|[]].
    apply (proj2 (q_n_frac false h c' h')), X. }
  assert (K : forall c' h', flags_for mm T H N c' h' -> flags_for m2 T H N c' h').
  { intros c' h' (g & X & Y). exists g. split; [|exact Y]. eapply flags_kept; [exact U|apply Hf|exact X]. }
  split.
  - split; [exact Hd|]. split.
    { eapply only_step; [exact O|exact U|]. intros x [<-|X]; [exists h, c; right; left; reflexivity|].
      destruct c; [destruct X|]. destruct X as [<-|[]]. exists h, false. right; right; reflexivity. }
    split; [auto|]. split; [auto|]. exists gl. split; [|auto]. eapply flags_kept; [exact U|apply Hf|exact C1].
  - intros x g Hx Hv. eapply values_kept; [exact U|exact Hx|exact Hv].
Qed.

(** Conditions on the liquid class when it is spread variably. *)
Definition variable_ok (mm : mdl) rad sch (d : drng) : Prop :=
  rad = true \/
  ((sch = Serial \/ sch = Parallel None) /\ perms_ok (d_perm d) /\
   (forall gl, flags mm (frac_out false "cl") gl -> gammas_ok T H gl (d_gam d)) /\
   forall t j, t < T -> j < H -> (0 < at2 0%Q (F false false "cl"%string) t j)%Q -> (default_thr < at2 0%Q (Qv false "cl"%string) t j)%Q).

Lemma mk_qn_ready N rad mm c h fl : ready_state N rad mm -> 2 <= N -> In h hs -> flags mm (frac_out c h) fl -> shape3 T H N fl ->
  qn_ready mm c rad N T H h (F c rad h) (Qv c h) (Nf h) fl.
Proof.
  intros (D & O & _) HN Hh Hfl Sfl.
  destruct (co_frac _ _ _ _ _ _ _ Hco c rad h Hh) as (A1 & A2 & _). destruct (co_q _ _ _ _ _ _ _ Hco c h Hh) as (B1 & B2).
  destruct (co_n _ _ _ _ _ _ _ Hco h Hh) as (C1 & C2).
  assert (Hn : nm mm = nm m) by apply O. assert (HT : 1 <= T /\ ntime m = T /\ unset m) by apply Hco.
  unfold qn_ready. rewrite frac_dict_nm, q_dict_nm, Hn by exact Hn.
  split; [lia|]. split; [apply HT|]. split; [destruct O as (X & _); rewrite X; apply HT|]. split; [exact D|].
  split; [apply field_kept; [exact O|apply frac_dict_in|exact A1]|]. split; [exact A2|].
  split; [apply field_kept; [exact O|apply q_dict_in|exact B1]|]. split; [exact B2|].
  split; [intros _; split; [apply field_kept; [exact O|apply n_dict_in|exact C1]|exact C2]|]. split; assumption.
Qed.

Lemma qn_strat_step N rad sch d mm h : ready_state N rad mm -> 2 <= N -> In h hs -> variable_ok mm rad sch d ->
  exists m2, set_q_n h false (String.eqb h "cl") rad sch default_thr (d_perm d) (d_gam d) mm = (Ok tt, m2) /\
    dim_sub m2 = Some N /\ values_for m2 T H N (q_out false h) /\ values_for m2 T H N (n_out h).
Proof.
  intros R HN Hh Hv. assert (R' := R). destruct R' as (D & O & A & B & (gl & C1 & C2 & C3)).
  destruct (A h Hh) as (fl & Hfl & Sfl).
  pose proof (mk_qn_ready N rad mm false h fl R HN Hh Hfl Sfl) as Q.
  assert (Hc : (String.eqb h "cl" = false \/ rad = true \/ false = true) \/ (h = "cl"%string /\ rad = false)).
  { destruct (String.eqb_spec h "cl"); [|auto]. destruct rad; auto. }
  destruct Hc as [Hu|[-> ->]].
  - destruct (set_q_n_uniform mm false rad _ sch default_thr (d_perm d) (d_gam d) N T H h _ _ _ fl Q HN Hu) as (m2 & qv & E & D2 & _ & V & S & _ & P).
    destruct (P eq_refl) as (nv & V1 & V2 & _).
    exists m2. split; [exact E|]. split; [exact D2|]. split; [exists qv; split; assumption|exists nv; split; assumption].
  - destruct Hv as [Hv|(Hs & Hp & Hg & Hq)]; [discriminate|].
    unfold flags in Hfl, C1. rewrite Hfl in C1. injection C1 as <-.
    assert (Hpw : present_where_fraction T H (F false false "cl"%string) fl) by (intros t j i Ht Hj; apply C3; assumption).
    assert (Ht0 : (0 <= default_thr)%Q) by discriminate.
    change (String.eqb "cl" "cl") with true.
    destruct (variable_returns mm N T H "cl" _ _ _ fl default_thr (d_perm d) (d_gam d) Q HN Hp (Hg fl Hfl) Hpw Ht0 sch Hs) as [_ Hok].
    destruct Hok as (m2 & E).
    { intros t j Ht Hj Ho. apply Hq; [assumption..|]. destruct (occ_flagged (at2 [] fl t j)) as (i & Hi); [lia|]. apply (Hpw t j i Ht Hj Hi). }
    destruct (variable_conserves mm N T H "cl" _ _ _ fl default_thr (d_perm d) (d_gam d) Q HN Hp (Hg fl Hfl) Hpw Ht0 sch m2 Hs E) as (qv & V & S & _).
    destruct (number_values mm false true sch default_thr (d_perm d) (d_gam d) N T H "cl" _ _ _ fl Q HN m2 E) as (nv & V2 & S2 & _).
    { intros _ _. auto using (Hg fl Hfl). }
    exists m2. split; [exact E|]. split; [|split; [exists qv; auto|exists nv; auto]].
    pose proof (history_dim [QN "cl" false true false sch default_thr (d_perm d) (d_gam d)] mm) as X. unfold history in X. cbn [fold_left run_call] in X. rewrite E in X. cbn [snd] in X.
    rewrite X; [exact D|]. unfold num_sub. rewrite D. lia.
Qed.

Lemma qn_conv_step N rad sch d mm h : ready_state N rad mm -> 2 <= N -> In h hs -> process_conv m = true ->
  exists m2, set_q_n h true false rad sch default_thr (d_perm d) (d_gam d) mm = (Ok tt, m2) /\
    dim_sub m2 = Some N /\ values_for m2 T H N (q_out true h).
Proof.
  intros R HN Hh Hpc. assert (R' := R). destruct R' as (D & O & A & B & _).
  destruct (B Hpc h Hh) as (fl & Hfl & Sfl).
  pose proof (mk_qn_ready N rad mm true h fl R HN Hh Hfl Sfl) as Q.
  destruct (set_q_n_uniform mm true rad false sch default_thr (d_perm d) (d_gam d) N T H h _ _ _ fl Q HN ltac:(auto)) as (m2 & qv & E & D2 & _ & V & S & _).
  exists m2. split; [exact E|]. split; [exact D2|]. exists qv; split; assumption.
Qed.

Definition done (mm : mdl) N (h : string) : Prop :=
  values_for mm T H N (q_out false h) /\ values_for mm T H N (n_out h) /\
  (process_conv m = true -> values_for mm T H N (q_out true h)).

Lemma variable_ok_kept mm m2 N rad sch d h c qc rad' sch' thr perm gam : ready_state N rad mm ->
  m2 = snd (set_q_n h c qc rad' sch' thr perm gam mm) -> variable_ok mm rad sch d -> variable_ok m2 rad sch d.
Proof.
  intros R -> [Hv|(Hs & Hp & Hg & Hq)]; [left; exact Hv|right].
  split; [exact Hs|]. split; [exact Hp|]. split; [|exact Hq]. intros gl Hgl. apply Hg.
  pose proof (call_changes_only (QN h c qc rad' sch' thr perm gam) mm) as (_ & _ & _ & U). cbn [run_call writes] in U.
  unfold flags in *. rewrite U in Hgl; [exact Hgl|].
  intros [X|X]; [apply (proj1 (q_n_frac c h false "cl")), X|]. destruct c; [destruct X|]. destruct X as [X|[]].
  apply (proj2 (q_n_frac false h false "cl")), X.
Qed.

Lemma values_step N rad sch d l : 2 <= N -> NoDup l -> (forall h, In h l -> In h hs) -> forall mm,
  ready_state N rad mm -> variable_ok mm rad sch d -> forall m0, process_conv m0 = process_conv m ->
  exists r m', mapMM (driver_qn m0 rad sch d) l mm = (Ok r, m') /\ ready_state N rad m' /\
    (forall h, In h l -> done m' N h) /\
    (forall h, ~ In h l -> done mm N h -> done m' N h).
Proof.
  intros HN Hnd Hin. induction l as [|h l IH]; intros mm R V m0 Hm0; cbn [mapMM].
  { exists [], mm. split; [reflexivity|]. split; [exact R|]. split; [intros h []|auto]. }
  inversion_clear Hnd as [|? ? Hh Hnd'].
  assert (Hh' : In h hs) by (apply Hin; left; reflexivity).
  destruct (qn_strat_step N rad sch d mm h R HN Hh' V) as (m2 & E2 & D2 & (qv & V1 & S1) & (nv & V2 & S2)).
  assert (X2 : m2 = snd (set_q_n h false (String.eqb h "cl") rad sch default_thr (d_perm d) (d_gam d) mm)) by (rewrite E2; reflexivity).
  destruct (qn_keeps N rad mm h false (String.eqb h "cl") rad sch default_thr (d_perm d) (d_gam d) R) as [R2 K2]; [rewrite <- X2; exact D2|].
  rewrite <- X2 in R2, K2.
  pose proof (variable_ok_kept mm m2 N rad sch d _ _ _ _ _ _ _ _ R X2 V) as W2.
  assert (Diff : forall h', h' <> h -> forall c', ~ In (q_out c' h') [q_out false h; n_out h] /\ ~ In (n_out h') [q_out false h; n_out h] /\
       ~ In (q_out c' h') [q_out true h] /\ ~ In (n_out h') [q_out true h]).
  { intros h' Hne c'. assert (Q1 : q_out c' h' <> q_out false h) by (destruct c'; [discriminate|intro X; apply q_out_inj in X; contradiction]).
    assert (Q2 : q_out c' h' <> q_out true h) by (destruct c'; [intro X; apply q_out_inj in X; contradiction|discriminate]).
    assert (Q3 : q_out c' h' <> n_out h) by (destruct c'; discriminate).
    assert (Q4 : n_out h' <> q_out false h) by discriminate. assert (Q5 : n_out h' <> q_out true h) by discriminate.
    assert (Q6 : n_out h' <> n_out h) by (intro X; apply n_out_inj in X; contradiction).
    simpl. intuition congruence. }
  assert (S3 : exists m3, (if process_conv m0 then set_q_n h true false rad sch default_thr (d_perm d) (d_gam d) else ret tt) m2 = (Ok tt, m3) /\
     ready_state N rad m3 /\ variable_ok m3 rad sch d /\ done m3 N h /\ (forall h', h' <> h -> done m2 N h' -> done m3 N h')).
  { rewrite Hm0. destruct (process_conv m) eqn:Epc.
    - destruct (qn_conv_step N rad sch d m2 h R2 HN Hh' Epc) as (m3 & E3 & D3 & V3).
      assert (X3 : m3 = snd (set_q_n h true false rad sch default_thr (d_perm d) (d_gam d) m2)) by (rewrite E3; reflexivity).
      destruct (qn_keeps N rad m2 h true false rad sch default_thr (d_perm d) (d_gam d) R2) as [R3 K3]; [rewrite <- X3; exact D3|].
      rewrite <- X3 in R3, K3. exists m3. split; [exact E3|]. split; [exact R3|].
      split; [eapply variable_ok_kept; [exact R2|exact X3|exact W2]|]. split.
      + split; [exists qv; split; [apply K3; [intros [X|[]]; discriminate|exact V1]|exact S1]|].
        split; [exists nv; split; [apply K3; [intros [X|[]]; discriminate|exact V2]|exact S2]|]. intros _. exact V3.
      + intros h' Hne ((g1 & A1 & A2) & (g2 & B1 & B2) & C). destruct (Diff h' Hne false) as (_ & _ & F1 & F2). destruct (Diff h' Hne true) as (_ & _ & F3 & _).
        split; [exists g1; split; [apply K3; assumption|exact A2]|]. split; [exists g2; split; [apply K3; assumption|exact B2]|].
        intro Z. destruct (C Z) as (g3 & C1 & C2). exists g3. split; [apply K3; assumption|exact C2].
    - exists m2. split; [reflexivity|]. split; [exact R2|]. split; [exact W2|]. split; [|auto].
      split; [exists qv; auto|]. split; [exists nv; auto|]. intro X; congruence. }
  destruct S3 as (m3 & E3 & R3 & W3 & Dn & Kd).
  destruct (IH Hnd' (fun h0 X => Hin h0 (or_intror X)) m3 R3 W3 m0 Hm0) as (r & m' & E & R' & Dl & Dk).
  exists (tt :: r), m'. split.
  { unfold driver_qn at 1. rewrite bind_assoc. unfold mbind at 1. rewrite E2. unfold mbind at 1. rewrite E3. unfold mbind at 1. rewrite E. reflexivity. }
  split; [exact R'|]. split.
  - intros h' [<-|Hl]; [apply Dk; [exact Hh|exact Dn]|apply Dl, Hl].
  - intros h' Hn Hd'. assert (Hne : h' <> h) by (intros ->; apply Hn; left; reflexivity).
    apply Dk; [intro X; apply Hn; right; exact X|]. apply Kd; [exact Hne|].
    destruct Hd' as ((g1 & A1 & A2) & (g2 & B1 & B2) & C). destruct (Diff h' Hne false) as (F1 & F2 & _). destruct (Diff h' Hne true) as (F3 & _).
    split; [exists g1; split; [apply K2; assumption|exact A2]|]. split; [exists g2; split; [apply K2; assumption|exact B2]|].
    intro Z. destruct (C Z) as (g3 & C1 & C2). exists g3. split; [apply K2; assumption|exact C2].
Qed.

Lemma driver_runs N rad sch d : 2 <= N -> good_sched sch ->
  draws_ok (d_strat d) -> draws_ok (d_precip d) -> draws_ok (d_conv d) ->
  exists ms, driver_flags (Some N) rad sch d m = (Ok tt, ms) /\
    (forall h, In h hs -> flags_for ms T H N false h /\ (process_conv m = true -> flags_for ms T H N true h)) /\
    (variable_ok ms rad sch d ->
     exists m', driver_subcolumns (Some N) rad sch d m = (Ok tt, m') /\ dim_sub m' = Some N /\ only_outputs m' /\
       forall h, In h hs ->
         flags_for m' T H N false h /\ values_for m' T H N (q_out false h) /\ values_for m' T H N (n_out h) /\
         (process_conv m = true -> flags_for m' T H N true h /\ values_for m' T H N (q_out true h))).
Proof.
  intros HN Hs Hd1 Hd2 Hd3. destruct (flags_step N rad sch d HN Hs Hd1 Hd2 Hd3) as (ms & E & D & O & A & B & C).
  exists ms. split; [exact E|]. split; [auto|]. intro V.
  assert (R : ready_state N rad ms) by (split; [exact D|split; [exact O|auto]]).
  assert (Hc : hs = classes m /\ NoDup hs) by apply Hco. destruct Hc as [Hcl Hnd].
  destruct (values_step N rad sch d hs HN Hnd (fun h X => X) ms R V ms) as (r & m' & E2 & (D' & O' & A' & B' & _) & Dn & _).
  { apply O. }
  exists m'. split.
  { unfold driver_subcolumns. unfold mbind at 1. rewrite E. unfold driver_values. rewrite bind_get.
    assert (X : classes ms = hs) by (unfold classes; destruct O as (_ & _ & -> & _); symmetry; exact Hcl).
    rewrite X. unfold mbind at 1. rewrite E2. reflexivity. }
  split; [exact D'|]. split; [exact O'|]. intros h Hh. destruct (Dn h Hh) as (X1 & X2 & X3). auto 8.
Qed.
End Complete.
