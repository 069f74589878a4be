(** Consequences of [set_stratiform_ok], one per property. *)
From Verif Require Import Gen_Facts Conv_Proofs Strat_Spec Strat_Proofs Strat_Level Strat_Api.
From Coq Require Import Lqa ZifyBool ZifyNat.
Local Open Scope nat_scope.

Lemma number_of_filter N (b : nat -> bool) (P : nat -> Prop) :
  (forall i, P i <-> i < N /\ b i = true) -> number_of P (length (filter b (seq 0 N))).
Proof.
  intro H. exists (filter b (seq 0 N)). split; [apply NoDup_filter, seq_NoDup|]. split; [reflexivity|].
  intro i. rewrite filter_In, in_seq, H. intuition lia.
Qed.

Lemma flagged_lt l i : flagged l i -> i < length l.
Proof. apply nth_true_lt. Qed.

Lemma occ_number s : number_of (flagged s) (occ s).
Proof.
  rewrite <- length_argwhere. exists (argwhere s). split; [apply NoDup_filter, seq_NoDup|]. split; [reflexivity|].
  intro i. unfold argwhere. rewrite filter_In, in_seq. unfold flagged. split; [tauto|].
  intro H. split; [|exact H]. apply nth_true_lt in H. lia.
Qed.

Lemma number_of_ext (P Q : nat -> Prop) n : (forall i, P i <-> Q i) -> number_of P n -> number_of Q n.
Proof. intros H (L & A & B & C). exists L. split; [exact A|]. split; [exact B|]. intro i; rewrite C; apply H. Qed.

Lemma occ_of_number s P n : number_of P n -> (forall i, flagged s i <-> P i) -> occ s = n.
Proof.
  intros H E. eapply number_of_inj; [apply occ_number|]. eapply number_of_ext; [|exact H]. intro; symmetry; apply E.
Qed.

(** Convection-free subcolumns. *)
Lemma avail_number N cv : length cv = N -> number_of (fun i => i < N /\ ~ flagged cv i) (Z.to_nat (avail cv)).
Proof.
  intro L. unfold avail.
  assert (E : Z.to_nat (Z.of_nat (length cv) - Z.of_nat (occ cv)) = occ (np_not cv)).
  { pose proof (cnt_np_not cv). lia. }
  rewrite E. eapply number_of_ext; [|apply occ_number]. intro i. unfold flagged, np_not.
  destruct (le_lt_dec N i) as [Hi|Hi].
  - rewrite nth_overflow by (rewrite map_length; lia). split; [discriminate|lia].
  - rewrite (nth_indep _ false (negb false)) by (rewrite map_length; lia). rewrite map_nth.
    destruct (nth i cv false); simpl; intuition congruence.
Qed.

Lemma avail_free N cv P a : length cv = N -> (forall i, flagged cv i <-> P i) ->
  number_of (fun i => i < N /\ ~ P i) a -> avail cv = Z.of_nat a.
Proof.
  intros L E H. pose proof (avail_number N cv L) as H1.
  assert (H2 : number_of (fun i => i < N /\ ~ P i) (Z.to_nat (avail cv))).
  { eapply number_of_ext; [|exact H1]. intro i; simpl. rewrite E; tauto. }
  pose proof (number_of_inj _ _ _ H H2). pose proof (cnt_le cv). unfold avail in *. lia.
Qed.

(** From the continuation rule to a count. *)
Lemma overlap_number s (c : Z) P n : (0 <= c)%Z -> number_of P n -> max_overlap s c P ->
  (c <= Z.of_nat n -> Z.of_nat (occ s) = c)%Z ->
  number_of (fun i => flagged s i /\ P i) (Z.to_nat (Z.min c (Z.of_nat n))).
Proof.
  intros Hc Hn Hm Hocc. destruct (Hm n Hn) as [A B]. destruct (Z.le_ge_cases c (Z.of_nat n)) as [H|H].
  - rewrite Z.min_l by exact H. rewrite <- (Hocc H), Nat2Z.id.
    eapply number_of_ext; [|apply occ_number]. intro i; split; [|tauto]. intro Hi; split; [exact Hi|]. apply A; assumption.
  - rewrite Z.min_r by lia. rewrite Nat2Z.id.
    eapply number_of_ext; [|exact Hn]. intro i; split; [|tauto]. intro Hi; split; [|exact Hi]. apply B; [lia|exact Hi].
Qed.

Lemma conv_here_exists m Ncol N T H t j : strat_columns m Ncol N T H -> t < T -> j < H ->
  exists cv, conv_here m N t j cv.
Proof.
  intros Hc Ht Hj.
  destruct (strat_conv_ok (B := unit) m Ncol N T H (fun _ => ret tt) Hc) as (cv & m1 & _ & _ & _ & _ & _ & _ & S & P).
  exists (at2 [] cv t j). split; [apply (shape3_cell T H N); assumption|]. intro i; apply P; assumption.
Qed.

Section Strat.
Context (m : mdl) (Ncol : option nat) (rad : bool) (sch : sched) (thr : Q) (dr : draws)
        (N T H : nat) (F Qv : string -> list (list Q)).
Context (Hr : strat_ready m Ncol rad N T H F Qv) (Hs : good_sched sch) (Hd : draws_ok dr).

Let req (h : string) (t j : nat) (k : Z) : Prop :=
  requested rad thr (at2 0%Q (Qv h) t j) (at2 0%Q (F h) t j) N k.

Lemma req_range h t j k : In h ["cl"; "ci"]%string -> t < T -> j < H -> req h t j k -> (0 <= k <= Z.of_nat N)%Z.
Proof.
  intros Hh Ht Hj Hk. destruct Hr as (_ & _ & _ & _ & Hf & _). destruct (Hf h Hh) as (_ & S & P & _).
  pose proof (proportions_at T H _ 0%Q t j S P Ht Hj) as Hp.
  destruct (requested_exists rad thr (at2 0%Q (Qv h) t j) _ N Hp) as (k' & _ & A & B).
  rewrite (B k Hk). exact A.
Qed.

Lemma strat_nested :
  exists m' gl gi, set_stratiform Ncol rad sch thr dr m = (Ok tt, m') /\
    flags m' "strat_frac_subcolumns_cl" gl /\ flags m' "strat_frac_subcolumns_ci" gi /\
    shape3 T H N gl /\ shape3 T H N gi /\
    forall t j, t < T -> j < H -> forall kl ki, req "cl" t j kl -> req "ci" t j ki ->
      ((kl <= ki)%Z -> subset (at2 [] gl t j) (at2 [] gi t j)) /\
      ((ki <= kl)%Z -> subset (at2 [] gi t j) (at2 [] gl t j)).
Proof.
  destruct (set_stratiform_ok m Ncol rad sch thr dr N T H F Qv Hr Hs Hd) as (m' & gl & gi & E & F1 & F2 & S1 & S2 & D & U & Top & Lev).
  exists m', gl, gi. do 5 (split; [assumption|]). intros t j Ht Hj kl ki Rl Ri.
  destruct (Nat.eq_dec (S j) H) as [Ej|Ej].
  - destruct (Top t j Ht Ej) as [-> ->]. split; intros _ i Hi; exact Hi.
  - destruct (conv_here_exists m Ncol N T H t j) as (cv & Hcv); [apply Hr|assumption..|].
    apply (lo_nest _ _ _ _ _ (Lev t j Ht ltac:(lia) kl ki cv Rl Ri Hcv)).
Qed.

Lemma strat_count_all :
  exists m' gl gi, set_stratiform Ncol rad sch thr dr m = (Ok tt, m') /\
    flags m' "strat_frac_subcolumns_cl" gl /\ flags m' "strat_frac_subcolumns_ci" gi /\
    forall t j, t < T -> S j < H -> forall kl ki a b, req "cl" t j kl -> req "ci" t j ki ->
      number_of (fun i => i < N /\ ~ convective m t j i) a ->
      number_of (fun i => flagged (at2 [] gl t (S j)) i /\ flagged (at2 [] gi t (S j)) i /\ ~ convective m t j i) b ->
      let short k other := if (other =? 0)%Z && (0 <? Z.of_nat b)%Z && (Z.of_nat b <=? k)%Z then Z.of_nat b else 0%Z in
      (kl = Z.of_nat N /\ ki = Z.of_nat N -> forall i, i < N -> flagged (at2 [] gl t j) i /\ flagged (at2 [] gi t j) i) /\
      (~ (kl = Z.of_nat N /\ ki = Z.of_nat N) ->
         Z.of_nat (occ (at2 [] gl t j)) = Z.min (kl - short kl ki) (Z.of_nat a) /\
         Z.of_nat (occ (at2 [] gi t j)) = Z.min (ki - short ki kl) (Z.of_nat a)).
Proof.
  destruct (set_stratiform_ok m Ncol rad sch thr dr N T H F Qv Hr Hs Hd) as (m' & gl & gi & E & F1 & F2 & S1 & S2 & D & U & Top & Lev).
  exists m', gl, gi. do 3 (split; [assumption|]). intros t j Ht Hj kl ki a b Rl Ri Ha Hb short.
  destruct (conv_here_exists m Ncol N T H t j) as (cv & Hcv); [apply Hr|lia..|].
  pose proof (Lev t j Ht Hj kl ki cv Rl Ri Hcv) as L. split.
  - intros [El Ei] i Hi. pose proof (lo_full _ _ _ _ _ L El Ei) as X. injection X as X1 X2.
    rewrite X1, X2. unfold flagged. rewrite nth_repeat_bool.
    destruct (Nat.ltb_spec i N); [split; reflexivity|lia].
  - intros Hno. destruct (lo_count _ _ _ _ _ L Hno) as (b' & Nb & C1 & C2 & _). simpl in *.
    assert (b' = b).
    { eapply number_of_inj; [exact Nb|]. eapply number_of_ext; [|exact Hb].
      intro i; simpl. destruct Hcv as [_ Hcv]. rewrite Hcv; tauto. }
    subst b'. rewrite (avail_free N cv _ a (proj1 Hcv) (proj2 Hcv) Ha) in *.
    split; [exact C1|exact C2].
Qed.

Lemma strat_count_ok :
  exists m' gl gi, set_stratiform Ncol rad sch thr dr m = (Ok tt, m') /\
    flags m' "strat_frac_subcolumns_cl" gl /\ flags m' "strat_frac_subcolumns_ci" gi /\
    forall t j, t < T -> S j < H -> forall kl ki a, req "cl" t j kl -> req "ci" t j ki ->
      number_of (fun i => i < N /\ ~ convective m t j i) a ->
      ~ (kl = Z.of_nat N /\ ki = Z.of_nat N) ->
      ((0 < ki)%Z \/ (forall i, ~ (flagged (at2 [] gl t (S j)) i /\ flagged (at2 [] gi t (S j)) i /\ ~ convective m t j i)) ->
         Z.of_nat (occ (at2 [] gl t j)) = Z.min kl (Z.of_nat a)) /\
      ((0 < kl)%Z \/ (forall i, ~ (flagged (at2 [] gl t (S j)) i /\ flagged (at2 [] gi t (S j)) i /\ ~ convective m t j i)) ->
         Z.of_nat (occ (at2 [] gi t j)) = Z.min ki (Z.of_nat a)).
Proof.
  destruct strat_count_all as (m' & gl & gi & E & F1 & F2 & P).
  destruct (set_stratiform_ok m Ncol rad sch thr dr N T H F Qv Hr Hs Hd) as (m2 & gl2 & gi2 & E' & G1 & G2 & _ & _ & _ & _ & _ & Lev).
  rewrite E in E'. injection E' as <-. unfold flags in *. rewrite F1 in G1. rewrite F2 in G2.
  injection G1 as <-. injection G2 as <-.
  exists m', gl, gi. do 3 (split; [assumption|]). intros t j Ht Hj kl ki a Rl Ri Ha Hno.
  destruct (conv_here_exists m Ncol N T H t j) as (cv & Hcv); [apply Hr|lia..|].
  destruct (lo_count _ _ _ _ _ (Lev t j Ht Hj kl ki cv Rl Ri Hcv) Hno) as (b & Nb & _). simpl in Nb.
  assert (Nb' : number_of (fun i => flagged (at2 [] gl t (S j)) i /\ flagged (at2 [] gi t (S j)) i /\ ~ convective m t j i) b).
  { eapply number_of_ext; [|exact Nb]. intro i; simpl. destruct Hcv as [_ Hcv]. rewrite Hcv; tauto. }
  destruct (P t j Ht Hj kl ki a b Rl Ri Ha Nb') as [_ Q]. destruct (Q Hno) as [Q1 Q2]. clear Q.
  assert (Z0 : (forall i, ~ (flagged (at2 [] gl t (S j)) i /\ flagged (at2 [] gi t (S j)) i /\ ~ convective m t j i)) -> b = 0).
  { intro Hn. destruct Nb' as (L & _ & <- & HL). destruct L as [|x L]; [reflexivity|].
    exfalso. apply (Hn x). apply HL. left; reflexivity. }
  assert (Hl := req_range "cl" t j kl (or_introl eq_refl) Ht ltac:(lia) Rl).
  assert (Hi := req_range "ci" t j ki (or_intror (or_introl eq_refl)) Ht ltac:(lia) Ri).
  split.
  - intros [Hk|Hn].
    + rewrite Q1. replace ((ki =? 0)%Z) with false by lia. simpl. f_equal; lia.
    + rewrite (Z0 Hn) in Q1. rewrite Q1. rewrite andb_false_r. simpl. f_equal; lia.
  - intros [Hk|Hn].
    + rewrite Q2. replace ((kl =? 0)%Z) with false by lia. simpl. f_equal; lia.
    + rewrite (Z0 Hn) in Q2. rewrite Q2. rewrite andb_false_r. simpl. f_equal; lia.
Qed.

Lemma strat_no_conv :
  exists m' gl gi, set_stratiform Ncol rad sch thr dr m = (Ok tt, m') /\
    flags m' "strat_frac_subcolumns_cl" gl /\ flags m' "strat_frac_subcolumns_ci" gi /\
    forall t j, t < T -> j < H -> forall kl ki, req "cl" t j kl -> req "ci" t j ki ->
      ~ (S j < H /\ kl = Z.of_nat N /\ ki = Z.of_nat N) ->
      forall i, convective m t j i -> ~ flagged (at2 [] gl t j) i /\ ~ flagged (at2 [] gi t j) i.
Proof.
  destruct (set_stratiform_ok m Ncol rad sch thr dr N T H F Qv Hr Hs Hd) as (m' & gl & gi & E & F1 & F2 & S1 & S2 & D & U & Top & Lev).
  exists m', gl, gi. do 3 (split; [assumption|]). intros t j Ht Hj kl ki Rl Ri Hno i Hi.
  destruct (Nat.eq_dec (S j) H) as [Ej|Ej].
  - destruct (Top t j Ht Ej) as [-> ->]. unfold flagged. rewrite nth_repeat_bool. split; discriminate.
  - destruct (conv_here_exists m Ncol N T H t j) as (cv & Hcv); [apply Hr|assumption..|].
    apply (lo_conv _ _ _ _ _ (Lev t j Ht ltac:(lia) kl ki cv Rl Ri Hcv)).
    + simpl. intros [A B]. apply Hno. split; [lia|]. split; assumption.
    + apply Hcv, Hi.
Qed.

(** Continuation of overlying cloud. *)
Let below (gl gi : list (list (list bool))) (t j i : nat) : Prop :=
  (flagged (at2 [] gl t (S j)) i \/ flagged (at2 [] gi t (S j)) i) /\ ~ convective m t j i.

Lemma strat_overlap_ok :
  exists m' gl gi, set_stratiform Ncol rad sch thr dr m = (Ok tt, m') /\
    flags m' "strat_frac_subcolumns_cl" gl /\ flags m' "strat_frac_subcolumns_ci" gi /\
    forall t j, t < T -> S j < H -> forall kl ki n, req "cl" t j kl -> req "ci" t j ki ->
      number_of (below gl gi t j) n ->
      ((0 < ki)%Z \/ (forall i, ~ (flagged (at2 [] gl t (S j)) i /\ flagged (at2 [] gi t (S j)) i /\ ~ convective m t j i)) ->
         number_of (fun i => flagged (at2 [] gl t j) i /\ below gl gi t j i) (Z.to_nat (Z.min kl (Z.of_nat n)))) /\
      ((0 < kl)%Z \/ (forall i, ~ (flagged (at2 [] gl t (S j)) i /\ flagged (at2 [] gi t (S j)) i /\ ~ convective m t j i)) ->
         number_of (fun i => flagged (at2 [] gi t j) i /\ below gl gi t j i) (Z.to_nat (Z.min ki (Z.of_nat n)))).
Proof.
  destruct strat_count_ok as (m' & gl & gi & E & F1 & F2 & P).
  destruct (set_stratiform_ok m Ncol rad sch thr dr N T H F Qv Hr Hs Hd) as (m2 & gl2 & gi2 & E' & G1 & G2 & S1 & S2 & _ & _ & _ & Lev).
  rewrite E in E'. injection E' as <-. unfold flags in *. rewrite F1 in G1. rewrite F2 in G2.
  injection G1 as <-. injection G2 as <-.
  exists m', gl, gi. do 3 (split; [assumption|]). intros t j Ht Hj kl ki n Rl Ri Hn.
  destruct (conv_here_exists m Ncol N T H t j) as (cv & Hcv); [apply Hr|lia..|].
  pose proof (Lev t j Ht Hj kl ki cv Rl Ri Hcv) as L.
  assert (Hl := req_range "cl" t j kl (or_introl eq_refl) Ht ltac:(lia) Rl).
  assert (Hi := req_range "ci" t j ki (or_intror (or_introl eq_refl)) Ht ltac:(lia) Ri).
  assert (Eb : forall i, below_cloud (at2 [] gl t (S j)) (at2 [] gi t (S j)) cv i <-> below gl gi t j i).
  { intro i. unfold below_cloud, below. destruct Hcv as [_ Hcv]. rewrite Hcv. tauto. }
  assert (Hbelow_lt : forall i, below gl gi t j i -> i < N).
  { intros i [[X|X] _]; apply flagged_lt in X;
      [rewrite (shape3_cell T H N gl t (S j) S1 Ht Hj) in X|rewrite (shape3_cell T H N gi t (S j) S2 Ht Hj) in X]; exact X. }
  destruct (Z.eq_dec kl (Z.of_nat N)) as [El|El]; [destruct (Z.eq_dec ki (Z.of_nat N)) as [Ei|Ei]|].
  { (* overcast *)
    pose proof (lo_full _ _ _ _ _ L El Ei) as X. injection X as X1 X2. rewrite X1, X2.
    assert (Hle : n <= N).
    { destruct Hn as (K & A & <- & B). rewrite <- (seq_length N 0). apply NoDup_incl_length; [exact A|].
      intros i Hik. apply in_seq. apply B, Hbelow_lt in Hik. lia. }
    rewrite El, Ei. replace (Z.to_nat (Z.min (Z.of_nat N) (Z.of_nat n))) with n by lia.
    assert (G : number_of (fun i => flagged (repeat true N) i /\ below gl gi t j i) n).
    { eapply number_of_ext; [|exact Hn]. intro i. split; [|tauto]. intro Hb. split; [|exact Hb].
      unfold flagged. rewrite nth_repeat_bool. apply Hbelow_lt in Hb. destruct (Nat.ltb_spec i N); [reflexivity|lia]. }
    split; intros _; exact G. }
  all: assert (Hno : ~ (kl = Z.of_nat N /\ ki = Z.of_nat N)) by tauto.
  all: destruct (lo_count _ _ _ _ _ L Hno) as (b & Nb & C1 & C2 & M1 & M2); simpl in *.
  all: pose proof (avail_number N cv (proj1 Hcv)) as Hav.
  all: assert (Ha : number_of (fun i => i < N /\ ~ convective m t j i) (Z.to_nat (avail cv)))
       by (eapply number_of_ext; [|exact Hav]; intro i; simpl; destruct Hcv as [_ Hcv']; rewrite Hcv'; tauto).
  all: destruct (P t j Ht Hj kl ki _ Rl Ri Ha Hno) as [P1 P2].
  all: assert (Hnle : (Z.of_nat n <= Z.of_nat (Z.to_nat (avail cv)))%Z)
       by (destruct Hn as (K & A & <- & B); destruct Ha as (K' & A' & E2 & B'); rewrite <- E2;
           apply inj_le, NoDup_incl_length; [exact A|]; intros i Hik; apply B'; apply B in Hik;
           split; [apply Hbelow_lt, Hik|apply Hik]).
  all: assert (Db : forall k o, (0 <= k)%Z -> ((0 < o)%Z \/ (forall i, ~ (flagged (at2 [] gl t (S j)) i /\ flagged (at2 [] gi t (S j)) i /\ ~ convective m t j i))) ->
        deficit k o (Z.of_nat b) = 0%Z)
       by (intros k o Hk [Ho|Ho]; unfold deficit;
           [replace ((o =? 0)%Z) with false by lia; reflexivity|];
           replace b with 0 by (destruct Nb as (K & A & <- & B); destruct K as [|x K]; [reflexivity|];
             exfalso; apply (Ho x); destruct (B x) as [B1 _]; destruct B1 as (Y1 & Y2 & Y3); [left; reflexivity|];
             split; [exact Y1|]; split; [exact Y2|]; intro Hcx; apply Y3, Hcv, Hcx);
           rewrite andb_false_r; reflexivity).
  all: assert (Hn' : number_of (below_cloud (at2 [] gl t (S j)) (at2 [] gi t (S j)) cv) n)
       by (eapply number_of_ext; [intro i; symmetry; apply Eb|exact Hn]).
  all: split; intro Hcase.
  all: try (eapply number_of_ext;
       [|apply overlap_number; [apply Hl|exact Hn'|apply M1, Db; [lia|exact Hcase]|intro Hle; rewrite (P1 Hcase); clear - Hle Hnle; lia]];
       intro i; simpl; rewrite Eb; tauto).
  all: eapply number_of_ext;
       [|apply overlap_number; [apply Hi|exact Hn'|apply M2, Db; [lia|exact Hcase]|intro Hle; rewrite (P2 Hcase); clear - Hle Hnle; lia]];
       intro i; simpl; rewrite Eb; tauto.
Qed.

Lemma strat_top :
  exists m' gl gi, set_stratiform Ncol rad sch thr dr m = (Ok tt, m') /\
    flags m' "strat_frac_subcolumns_cl" gl /\ flags m' "strat_frac_subcolumns_ci" gi /\
    shape3 T H N gl /\ shape3 T H N gi /\ dim_sub m' = Some N /\
    unchanged_except ["strat_frac_subcolumns_cl"; "strat_frac_subcolumns_ci"]%string m m' /\
    forall t j i, t < T -> S j = H -> ~ flagged (at2 [] gl t j) i /\ ~ flagged (at2 [] gi t j) i.
Proof.
  destruct (set_stratiform_ok m Ncol rad sch thr dr N T H F Qv Hr Hs Hd) as (m' & gl & gi & E & F1 & F2 & S1 & S2 & D & U & Top & Lev).
  exists m', gl, gi. do 7 (split; [assumption|]). intros t j i Ht Hj.
  destruct (Top t j Ht Hj) as [-> ->]. unfold flagged. rewrite nth_repeat_bool. split; discriminate.
Qed.
End Strat.

(** ** Schedules *)
Lemma mbind_ext {A B} (x : M A) (k k' : A -> M B) m : (forall a m, k a m = k' a m) -> mbind x k m = mbind x k' m.
Proof. intro H. unfold mbind. destruct (x m) as [[a|e] m']; [apply H|reflexivity]. Qed.

Lemma strat_schedule m Ncol rad s1 s2 thr dr : good_sched s1 -> good_sched s2 ->
  set_stratiform Ncol rad s1 thr dr m = set_stratiform Ncol rad s2 thr dr m.
Proof.
  intros H1 H2. unfold set_stratiform. apply mbind_ext; intros a0 m0.
  apply mbind_ext; intros a1 m1. apply mbind_ext; intros a2 m2. apply mbind_ext; intros a3 m3.
  destruct (match Ncol with Some 1 => true | _ => false end); [reflexivity|].
  apply mbind_ext; intros a4 m4. destruct (dim_sub a4); [|reflexivity].
  apply mbind_ext; intros a5 m5. apply mbind_ext; intros a6 m6. apply mbind_ext; intros a7 m7.
  rewrite !tt_order_good by assumption. reflexivity.
Qed.

Lemma precip_schedule m c Ncol rad s1 s2 hs thr dr : good_sched s1 -> good_sched s2 ->
  set_precip c Ncol rad s1 hs thr dr m = set_precip c Ncol rad s2 hs thr dr m.
Proof.
  intros H1 H2. unfold set_precip. apply mbind_ext; intros a0 m0.
  apply mbind_ext; intros a1 m1. apply mbind_ext; intros a2 m2. apply mbind_ext; intros a3 m3.
  apply mbind_ext; intros a4 m4. destruct (match Ncol with None => num_sub a0 | Some n => n end =? 1); [reflexivity|].
  apply mbind_ext; intros a5 m5. destruct (negb _); [reflexivity|].
  apply mbind_ext; intros a6 m6. apply mbind_ext; intros a7 m7. apply mbind_ext; intros a8 m8.
  rewrite !tt_order_good by assumption. reflexivity.
Qed.

(** Chunks that make no progress never finish. *)
Lemma chunk_hang fuel T c j : (c <= 0)%Z -> (j < T)%Z -> chunk_loop fuel T c j = Raise Hang.
Proof.
  intro Hc. revert j; induction fuel as [|f IH]; intros j Hj; simpl; destruct (Z.ltb_spec j T); try lia; [reflexivity|].
  rewrite IH by lia. reflexivity.
Qed.
