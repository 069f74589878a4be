(** Consequences of [QN_Api] in the form used by the property theorems. *)
From Verif Require Import Gen_Facts Strat_Api Precip_Api Strat_Corol QN_Spec QN_Proofs QN_Api.
From Coq Require Import Lqa ZifyBool ZifyNat.
Local Open Scope nat_scope.

Lemma cell_values fl v N i : length fl = N -> i < N ->
  (flagged fl i -> nth i (spread fl v) NaN = nan0 v) /\ (~ flagged fl i -> nth i (spread fl v) NaN = Fin 0).
Proof.
  intros L Hi. rewrite nth_spread by lia. unfold flagged. destruct (nth i fl false); split; intro X; try reflexivity; [exfalso; apply X; reflexivity|discriminate].
Qed.

Lemma uniform_values m is_conv rad qc sch thr perm gam N T H h f q nf fl :
  qn_ready m is_conv rad N T H h f q nf fl -> 2 <= N ->
  (qc = false \/ rad = true \/ is_conv = true) ->
  exists m' qv, set_q_n h is_conv qc rad sch thr perm gam m = (Ok tt, m') /\ dim_sub m' = Some N /\
    unchanged_except (if is_conv then [q_out is_conv h] else [q_out is_conv h; n_out h]) m m' /\
    values m' (q_out is_conv h) qv /\ shape3 T H N qv /\
    forall t j i, t < T -> j < H -> i < N ->
      (flagged (at2 [] fl t j) i -> in_cloud thr (at2 0%Q q t j) (at2 0%Q f t j) (nth i (at2 [] qv t j) NaN)) /\
      (~ flagged (at2 [] fl t j) i -> nth i (at2 [] qv t j) NaN = Fin 0).
Proof.
  intros Hr HN Hu.
  destruct (set_q_n_uniform m is_conv rad qc sch thr perm gam N T H h f q nf fl Hr HN Hu) as (m' & qv & E & D & U & V & S & P & _).
  exists m', qv. do 5 (split; [assumption|]). intros t j i Ht Hj Hi. rewrite P by assumption.
  destruct Hr as (_ & _ & _ & _ & _ & _ & _ & _ & _ & _ & Hfl).
  destruct (cell_values (at2 [] fl t j) (q_incloud thr (at2 0%Q q t j) (at2 0%Q f t j)) N i) as [A B];
    [apply (shape3_cell T H N); assumption|exact Hi|].
  split; [|exact B]. intro X. rewrite A by exact X. apply q_incloud_spec.
Qed.

Lemma spread_sum fl v : sums_to (spread fl (Fin v)) (v * inject (occ fl)).
Proof.
  induction fl as [|b fl (qs & E & Sm)].
  - exists []. split; [reflexivity|]. rewrite cnt_nil. change (inject 0) with 0%Q. simpl. ring.
  - unfold spread in *. cbn [map]. rewrite E. destruct b; cbn [nan0 isnan].
    + exists (v :: qs). split; [reflexivity|]. simpl. rewrite Sm. rewrite cnt_cons. unfold inject.
      rewrite Nat2Z.inj_add, inject_Z_plus. change (inject_Z (Z.of_nat 1)) with 1%Q. ring.
    + exists (0%Q :: qs). split; [reflexivity|]. simpl. rewrite Sm. rewrite cnt_cons. simpl. ring.
Qed.

Lemma sums_to_eq l s s' : (s == s')%Q -> sums_to l s -> sums_to l s'.
Proof. intros E (qs & A & B). exists qs. split; [exact A|]. rewrite B. exact E. Qed.

Lemma uniform_mass m is_conv rad qc sch thr perm gam N T H h f q nf fl :
  qn_ready m is_conv rad N T H h f q nf fl -> 2 <= N ->
  (qc = false \/ rad = true \/ is_conv = true) ->
  exists m' qv, set_q_n h is_conv qc rad sch thr perm gam m = (Ok tt, m') /\
    values m' (q_out is_conv h) qv /\
    forall t j, t < T -> j < H -> exists s,
      (~ (at2 0%Q f t j == 0)%Q -> sums_to (at2 [] qv t j) s) /\
      (~ (at2 0%Q f t j == 0)%Q -> (thr < at2 0%Q q t j)%Q ->
         (s * at2 0%Q f t j == at2 0%Q q t j * inject (occ (at2 [] fl t j)))%Q) /\
      (~ (at2 0%Q f t j == 0)%Q -> (thr < at2 0%Q q t j)%Q ->
         (at2 0%Q f t j * inject N == inject (occ (at2 [] fl t j)))%Q -> (s / inject N == at2 0%Q q t j)%Q) /\
      ((at2 0%Q q t j <= thr)%Q -> sums_to (at2 [] qv t j) 0%Q).
Proof.
  intros Hr HN Hu.
  destruct (set_q_n_uniform m is_conv rad qc sch thr perm gam N T H h f q nf fl Hr HN Hu) as (m' & qv & E & D & U & V & S & P & _).
  exists m', qv. do 2 (split; [assumption|]). intros t j Ht Hj. rewrite P by assumption.
  set (qq := at2 0%Q q t j). set (ff := at2 0%Q f t j). set (o := at2 [] fl t j).
  exists (pos_mean thr qq ff * inject (occ o))%Q. unfold q_incloud, pos_mean.
  pose proof (inject_pos N ltac:(lia)) as HNp.
  destruct (above_thr thr qq) eqn:Ea.
  - apply above_thr_iff in Ea. split; [|split; [|split]].
    + intro Hf. rewrite xdiv_fin by exact Hf. apply spread_sum.
    + intros Hf _. field. exact Hf.
    + intros Hf _ Hw. rewrite <- Hw. field. split; first [exact Hf|lra].
    + intro; lra.
  - apply above_thr_false in Ea. split; [|split; [|split]].
    + intro Hf. apply spread_sum.
    + intros; lra.
    + intros; lra.
    + intros _. eapply sums_to_eq; [|apply spread_sum]. ring.
Qed.

Lemma number_values m rad qc sch thr perm gam N T H h f q nf fl :
  qn_ready m false rad N T H h f q nf fl -> 2 <= N ->
  forall m', set_q_n h false qc rad sch thr perm gam m = (Ok tt, m') ->
  (qc = true -> rad = false -> perms_ok perm /\ gammas_ok T H fl gam /\ present_where_fraction T H f fl /\ (0 <= thr)%Q /\
     (sch = Serial \/ sch = Parallel None)) ->
  exists nv, values m' (n_out h) nv /\ shape3 T H N nv /\
    forall t j i, t < T -> j < H -> i < N ->
      (flagged (at2 [] fl t j) i -> in_cloud_n rad thr (at2 0%Q q t j) (at2 0%Q f t j) (at2 0%Q nf t j) (nth i (at2 [] nv t j) NaN)) /\
      (~ flagged (at2 [] fl t j) i -> nth i (at2 [] nv t j) NaN = Fin 0).
Proof.
  intros Hr HN m' Em Hv.
  assert (W : exists nv, values m' (n_out h) nv /\ shape3 T H N nv /\
    forall t j, t < T -> j < H -> at2 [] nv t j =
         spread (at2 [] fl t j) (xdiv (Fin (at2 0%Q nf t j)) (Fin (eff rad thr (at2 0%Q q t j) (at2 0%Q f t j))))).
  { assert (Hc : (qc = true /\ rad = false) \/ (qc = false \/ rad = true \/ false = true)) by (destruct qc, rad; auto).
    destruct Hc as [[-> ->]|Hu].
    2:{ destruct (set_q_n_uniform m false rad qc sch thr perm gam N T H h f q nf fl Hr HN Hu) as (m1 & qv & E & _ & _ & _ & _ & _ & P).
        destruct (P eq_refl) as (nv & A & B & C). exists nv. rewrite E in Em. injection Em as <-. auto. }
    destruct (Hv eq_refl eq_refl) as (Hp & Hg & Hf & Ht & Hs).
    destruct (set_q_n_variable m N T H h f q nf fl thr perm gam Hr HN Hp Hg Hf Ht) as (colv & _ & nv & Sn & Vn & P).
    destruct Hr as (_ & HT & _).
    destruct (P sch (seq 0 T)) as [P1 P2].
    { apply qn_order_plain, Hs. } { destruct T; [lia|discriminate]. } { intros t Hin; apply in_seq in Hin; lia. }
    exists nv. split; [|split; [exact Sn|]].
    - destruct P2 as [_ P2].
      { intros t j Hin Hst. rewrite P1 in Em by eauto. discriminate. }
      destruct (P2 (seq_length _ _)) as (m1 & E & _ & _ & _ & V). rewrite E in Em. injection Em as <-. exact V.
    - exact Vn. }
  destruct W as (nv & V & S & P). exists nv. split; [exact V|]. split; [exact S|].
  intros t j i Ht Hj Hi. rewrite P by assumption.
  destruct Hr as (_ & _ & _ & _ & _ & _ & _ & _ & _ & _ & Hfl).
  edestruct (cell_values (at2 [] fl t j)) as [A B]; [apply (shape3_cell T H N); eassumption|exact Hi|].
  split; [|exact B]. intro X. rewrite A by exact X. apply n_spec.
Qed.

Section Var.
Context (m : mdl) (N T H : nat) (h : string) (f q nf : list (list Q))
        (fl : list (list (list bool))) (thr : Q) (perm : nat -> nat -> nat -> list nat) (gam : gdraws).
Hypothesis Hr : qn_ready m false false N T H h f q nf fl.
Hypothesis HN : 2 <= N.
Hypothesis Hp : perms_ok perm.
Hypothesis Hg : gammas_ok T H fl gam.
Hypothesis Hf : present_where_fraction T H f fl.
Hypothesis Ht : (0 <= thr)%Q.

Lemma nth_map_fin qs i : i < length qs -> nth i (map Fin qs) NaN = Fin (nth i qs 0%Q).
Proof. intro Hi. rewrite (nth_indep _ NaN (Fin 0%Q)) by (rewrite map_length; exact Hi). apply map_nth. Qed.

Lemma variable_conserves sch m' : sch = Serial \/ sch = Parallel None ->
  set_q_n h false true false sch thr perm gam m = (Ok tt, m') ->
  exists qv, values m' (q_out false h) qv /\ shape3 T H N qv /\
    forall t j, t < T -> j < H ->
      (forall i, i < N -> (exists v, nth i (at2 [] qv t j) NaN = Fin v /\ (0 <= v)%Q) /\
                 (~ flagged (at2 [] fl t j) i -> nth i (at2 [] qv t j) NaN = Fin 0)) /\
      ((at2 0%Q q t j <= thr)%Q -> sums_to (at2 [] qv t j) 0%Q) /\
      ((thr < at2 0%Q q t j)%Q ->
         sums_to (at2 [] qv t j) (at2 0%Q q t j / at2 0%Q f t j * inject (occ (at2 [] fl t j)))%Q).
Proof.
  intros Hs Em.
  destruct (set_q_n_variable m N T H h f q nf fl thr perm gam Hr HN Hp Hg Hf Ht) as (colv & G & nv & Sn & Vn & P).
  assert (HT : 1 <= T) by apply Hr.
  destruct (P sch (seq 0 T)) as [P1 P2].
  { apply qn_order_plain, Hs. } { destruct T; [lia|discriminate]. } { intros t Hin; apply in_seq in Hin; lia. }
  assert (Hns : forall t j, In t (seq 0 T) -> ~ stuck T H q fl thr t j).
  { intros t j Hin Hst. rewrite P1 in Em by eauto. discriminate. }
  destruct (P2 Hns) as [_ P3]. destruct (P3 (seq_length _ _)) as (m1 & E & _ & _ & V & _).
  rewrite E in Em. injection Em as <-.
  exists (map colv (seq 0 T)). split; [exact V|].
  assert (Hnth : forall t, t < T -> nth t (map colv (seq 0 T)) [] = colv t).
  { intros t Ht'. rewrite (nth_indep _ [] (colv 0)) by (rewrite map_length, seq_length; exact Ht').
    rewrite map_nth, seq_nth by exact Ht'. reflexivity. }
  assert (Gr : forall t, t < T -> good_row N H f q fl thr t (colv t)).
  { intros t Ht'. apply G; [exact Ht'|]. intro j; apply Hns. apply in_seq; lia. }
  split.
  { apply shape3_intro.
    - apply shape2_intro; [rewrite map_length, seq_length; reflexivity|]. intros t Ht'. rewrite Hnth by exact Ht'. apply (Gr t Ht').
    - intros t j Ht' Hj. unfold at2. rewrite Hnth by exact Ht'. destruct (Gr t Ht') as [_ Gj]. destruct (Gj j Hj) as (qs & -> & L & _).
      rewrite map_length. exact L. }
  intros t j Ht' Hj.
  destruct (Gr t Ht') as [_ Gj]. destruct (Gj j Hj) as (qs & Eq & L & Sm & Pos & Z).
  assert (Ec : at2 [] (map colv (seq 0 T)) t j = map Fin qs) by (unfold at2; rewrite Hnth by exact Ht'; exact Eq).
  rewrite Ec.
  split; [|split].
  - intros i Hi. rewrite nth_map_fin by lia. split; [eexists; split; [reflexivity|apply Pos]|].
    intro X. rewrite Z by exact X. reflexivity.
  - intro Hq. exists qs. split; [reflexivity|]. fold (qsum qs). rewrite Sm. unfold pos_mean.
    apply above_thr_false in Hq. rewrite Hq. ring.
  - intro Hq. exists qs. split; [reflexivity|]. fold (qsum qs). rewrite Sm. unfold pos_mean.
    apply above_thr_iff in Hq. rewrite Hq. reflexivity.
Qed.

Lemma variable_returns sch : sch = Serial \/ sch = Parallel None ->
  ((exists t j, t < T /\ j < H /\ 2 <= occ (at2 [] fl t j) /\ (at2 0%Q q t j <= thr)%Q) <->
     set_q_n h false true false sch thr perm gam m = (Raise Hang, m)) /\
  ((forall t j, t < T -> j < H -> 2 <= occ (at2 [] fl t j) -> (thr < at2 0%Q q t j)%Q) ->
     exists m', set_q_n h false true false sch thr perm gam m = (Ok tt, m')).
Proof.
  intros Hs.
  destruct (set_q_n_variable m N T H h f q nf fl thr perm gam Hr HN Hp Hg Hf Ht) as (colv & G & nv & Sn & Vn & P).
  assert (HT : 1 <= T) by apply Hr.
  destruct (P sch (seq 0 T)) as [P1 P2].
  { apply qn_order_plain, Hs. } { destruct T; [lia|discriminate]. } { intros t Hin; apply in_seq in Hin; lia. }
  assert (Ok' : (forall t j, t < T -> j < H -> 2 <= occ (at2 [] fl t j) -> (thr < at2 0%Q q t j)%Q) ->
     exists m', set_q_n h false true false sch thr perm gam m = (Ok tt, m')).
  { intro Hall. destruct P2 as [_ P3].
    { intros t j Hin (A & B & C & D). specialize (Hall t j A B C). lra. }
    destruct (P3 (seq_length _ _)) as (m1 & E & _). eauto. }
  split; [|exact Ok'].
  split.
  - intros (t & j & A & B & C & D). apply P1. exists t, j. split; [apply in_seq; lia|]. unfold stuck; auto.
  - intro Eh.
    assert (Dt : forall n, (exists t j, t < n /\ stuck T H q fl thr t j) \/ forall t j, t < n -> ~ stuck T H q fl thr t j).
    { induction n as [|n [(t & j & A & B)|IH]]; [right; intros; lia|left; exists t, j; split; [lia|exact B]|].
      assert (Dj : forall k, (exists j, stuck T H q fl thr n j) \/ forall j, j < k -> ~ stuck T H q fl thr n j).
      { induction k as [|k [IHk|IHk]]; [right; intros; lia|left; exact IHk|].
        assert (Dk : stuck T H q fl thr n k \/ ~ stuck T H q fl thr n k).
        { unfold stuck. destruct (lt_dec n T); [|right; tauto]. destruct (lt_dec k H); [|right; tauto].
          destruct (le_dec 2 (occ (at2 [] fl n k))); [|right; tauto].
          destruct (Qlt_le_dec thr (at2 0%Q q n k)) as [X|X]; [right; intros (_ & _ & _ & Y); lra|left; tauto]. }
        destruct Dk as [Dk|Dk]; [left; eauto|].
        right. intros j Hj. destruct (Nat.eq_dec j k) as [->|]; [exact Dk|]. apply IHk. lia. }
      destruct (Dj H) as [(j & B)|B]; [left; exists n, j; split; [lia|exact B]|].
      right. intros t j Ht'. destruct (Nat.eq_dec t n) as [->|]; [|apply IH; lia].
      intro X. apply (B j); [apply X|exact X]. }
    destruct (Dt T) as [(t & j & _ & A & B & C & D)|X]; [eauto 8|exfalso].
    destruct Ok' as (m' & E); [|congruence].
    intros t j A B C. apply Qnot_le_lt. intro D. apply (X t j A). unfold stuck; auto.
Qed.

(** Chunked runs against the serial run. *)
Lemma variable_chunked c : 1 <= c ->
  (forall t j, t < T -> j < H -> 2 <= occ (at2 [] fl t j) -> (thr < at2 0%Q q t j)%Q) ->
  ((T - 1) mod c <> 0 -> set_q_n h false true false (Parallel (Some (Z.of_nat c))) thr perm gam m = (Raise ValueError, m)) /\
  ((T - 1) mod c = 0 -> exists m1 m2 q1 q2,
     set_q_n h false true false Serial thr perm gam m = (Ok tt, m1) /\ values m1 (q_out false h) q1 /\
     set_q_n h false true false (Parallel (Some (Z.of_nat c))) thr perm gam m = (Ok tt, m2) /\ values m2 (q_out false h) q2 /\
     length q1 = T /\ length q2 = T /\
     nth 0 q2 [] = nth (T - 1) q1 [] /\
     forall a b, b < c -> 1 + a * c + b < T -> nth (1 + a * c + b) q2 [] = nth (T - 1 - (a + 1) * c + b) q1 []).
Proof.
  intros Hc Hall.
  destruct (set_q_n_variable m N T H h f q nf fl thr perm gam Hr HN Hp Hg Hf Ht) as (colv & G & nv & Sn & Vn & P).
  assert (HT : 1 <= T) by apply Hr.
  assert (Hns : forall t j, ~ stuck T H q fl thr t j).
  { intros t j (A & B & C & D). specialize (Hall t j A B C). lra. }
  destruct (P Serial (seq 0 T)) as [_ P2].
  { apply qn_order_plain; left; reflexivity. } { destruct T; [lia|discriminate]. } { intros t Hin; apply in_seq in Hin; lia. }
  set (ts := map (chunk_src T c) (seq 0 (1 + c * ((T - 1) / c)))).
  assert (Hdiv : T - 1 = c * ((T - 1) / c) + (T - 1) mod c) by (apply Nat.div_mod; lia).
  assert (Hlt : forall t, In t ts -> t < T).
  { intros t Hin. unfold ts in Hin. apply in_map_iff in Hin as (p & <- & Hp'). apply in_seq in Hp'.
    unfold chunk_src. destruct p as [|p]; [lia|].
    assert (p / c < (T - 1) / c) by (apply Nat.div_lt_upper_bound; lia).
    assert (p mod c < c) by (apply Nat.mod_upper_bound; lia).
    assert ((p / c + 1) * c <= (T - 1) / c * c) by (apply Nat.mul_le_mono_r; lia).
    assert (c <= (p / c + 1) * c) by (apply Nat.le_trans with (1 * c); [lia|apply Nat.mul_le_mono_r, Nat.le_add_l]). lia. }
  destruct (P (Parallel (Some (Z.of_nat c))) ts) as [_ P4].
  { unfold ts. apply qn_order_chunk; assumption. } { unfold ts. discriminate. } { exact Hlt. }
  destruct P2 as [_ P2]; [intros; apply Hns|]. destruct P4 as [P4 P5]; [intros; apply Hns|].
  assert (Lts : length ts = 1 + c * ((T - 1) / c)) by (unfold ts; rewrite map_length, seq_length; reflexivity).
  split.
  - intro Hm. apply P4. lia.
  - intro Hm. destruct (P2 (seq_length _ _)) as (m1 & E1 & _ & _ & V1 & _).
    destruct (P5 ltac:(lia)) as (m2 & E2 & _ & _ & V2 & _).
    exists m1, m2, (map colv (seq 0 T)), (map colv ts).
    assert (N1 : forall t, t < T -> nth t (map colv (seq 0 T)) [] = colv t).
    { intros t Ht'. rewrite (nth_indep _ [] (colv 0)) by (rewrite map_length, seq_length; exact Ht').
      rewrite map_nth, seq_nth by exact Ht'. reflexivity. }
    assert (N2 : forall p, p < T -> nth p (map colv ts) [] = colv (chunk_src T c p)).
    { intros p Hp'. rewrite (nth_indep _ [] (colv 0)) by (rewrite map_length; lia).
      rewrite map_nth. unfold ts. rewrite (nth_indep _ 0 (chunk_src T c 0)) by (rewrite map_length, seq_length; lia).
      rewrite map_nth, seq_nth by lia. reflexivity. }
    do 4 (split; [assumption|]). split; [rewrite map_length, seq_length; reflexivity|]. split; [rewrite map_length; lia|].
    split; [rewrite N1, N2 by lia; reflexivity|].
    intros a b Hb Hlt'. rewrite N2 by exact Hlt'. replace (1 + a * c + b) with (S (b + a * c)) by lia. cbn [chunk_src].
    rewrite Nat.div_add, Nat.mod_add, Nat.div_small, Nat.mod_small by lia. rewrite N1; [f_equal; lia|].
    assert (c <= (a + 1) * c) by (apply Nat.le_trans with (1 * c); [lia|apply Nat.mul_le_mono_r; lia]). lia.
Qed.
End Var.

(** ** Schedules *)
Lemma qn_schedule_plain m h is_conv qc rad thr perm gam :
  set_q_n h is_conv qc rad Serial thr perm gam m = set_q_n h is_conv qc rad (Parallel None) thr perm gam m.
Proof. reflexivity. Qed.

Lemma qn_schedule_uniform m h is_conv qc rad s1 s2 thr perm gam : qc = false \/ rad = true \/ is_conv = true ->
  set_q_n h is_conv qc rad s1 thr perm gam m = set_q_n h is_conv qc rad s2 thr perm gam m.
Proof.
  intro Hu. unfold set_q_n. apply mbind_ext; intros a0 m0.
  destruct (num_sub a0 =? 0); [reflexivity|]. cbv zeta.
  assert (E : (if rad || is_conv then false else qc) = false).
  { destruct rad, is_conv; simpl; try reflexivity. destruct Hu as [->|[X|X]]; [reflexivity|discriminate|discriminate]. }
  rewrite E. reflexivity.
Qed.

Lemma qn_schedule_one m is_conv rad qc thr perm gam N H h f q nf fl s1 s2 :
  qn_ready m is_conv rad N 1 H h f q nf fl -> good_sched s1 -> good_sched s2 ->
  set_q_n h is_conv qc rad s1 thr perm gam m = set_q_n h is_conv qc rad s2 thr perm gam m.
Proof.
  intros Hr G1 G2. destruct (qn_prefix m is_conv rad N 1 H h f q nf fl Hr thr) as (frac & nprof & nsub & E & S & _).
  rewrite !E. unfold qn_tail. destruct (N =? 1); [reflexivity|]. destruct (if rad || is_conv then false else qc); [|reflexivity].
  destruct S as [-> _].
  assert (O : forall s, good_sched s -> qn_order s 1 = Ok [0%Z]).
  { intros [|[c|]] G; try reflexivity. simpl in G. destruct (Z.of_nat 1) eqn:X; try discriminate.
    unfold qn_order. change (Z.of_nat 1) with 1%Z. cbn [qn_loop]. change (1 - 1)%Z with 0%Z. cbn [Z.geb Z.compare].
    replace (if (0 + c >? 1)%Z then 1%Z else (0 + c)%Z) with 1%Z by (destruct (Z.gtb_spec (0 + c) 1); lia).
    destruct (Z.geb_spec (0 - c) 0); [lia|]. reflexivity. }
  rewrite !O by assumption. reflexivity.
Qed.

Lemma qn_hang fuel t c j : (c <= 0)%Z -> (0 <= j)%Z -> qn_loop fuel t c j = Raise Hang.
Proof.
  intro Hc. revert j; induction fuel as [|k IH]; intros j Hj; cbn [qn_loop]; destruct (Z.geb_spec j 0); try lia; [reflexivity|].
  rewrite IH by lia. reflexivity.
Qed.
