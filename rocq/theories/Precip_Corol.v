(** Consequences of [set_precip_ok], one per property. *)
From Verif Require Import Gen_Facts Conv_Proofs Strat_Spec Strat_Level Precip_Spec Precip_Proofs Strat_Api Strat_Corol Precip_Api.
From Coq Require Import Lqa ZifyBool ZifyNat.
Local Open Scope nat_scope.

Section Precip.
Context (m : mdl) (is_conv rad : bool) (sch : sched) (thr : Q) (dr : draws)
        (N T H : nat) (hs : list string) (F Qv : string -> list (list Q)) (ci cl : list (list (list bool))).
Context (Hr : precip_ready m is_conv rad N T H hs F Qv ci cl) (Hs : good_sched sch) (Hd : draws_ok dr).

Let req (h : string) (t j : nat) (k : Z) : Prop :=
  requested rad thr (at2 0%Q (Qv h) t j) (at2 0%Q (F h) t j) N k.
Let rains (G : string -> list (list (list bool))) (t j i : nat) : Prop :=
  exists h, In h hs /\ flagged (at2 [] (G h) t j) i.
Let cloudy (t j i : nat) : Prop := flagged (at2 [] ci t j) i \/ flagged (at2 [] cl t j) i.

Lemma preq_exists h t j : In h hs -> t < T -> j < H -> exists k, req h t j k /\ (0 <= k <= Z.of_nat N)%Z.
Proof.
  intros Hh Ht Hj. destruct Hr as (_ & _ & _ & _ & _ & _ & _ & _ & _ & _ & Hf).
  destruct (Hf h Hh) as (_ & S & P & _).
  pose proof (proportions_at T H _ 0%Q t j S P Ht Hj) as Hp.
  destruct (requested_exists rad thr (at2 0%Q (Qv h) t j) _ N Hp) as (k & A & B & _). eauto.
Qed.

Lemma requests_exist t j : t < T -> j < H ->
  forall l, incl l hs -> exists ks, requests rad thr F Qv N t j l ks.
Proof.
  intros Ht Hj. induction l as [|h l IH]; intro Hi.
  - exists []; constructor.
  - destruct IH as (ks & K); [intros x Hx; apply Hi; right; exact Hx|].
    destruct (preq_exists h t j) as (k & R & _); [apply Hi; left; reflexivity|assumption..|].
    exists (k :: ks). constructor; assumption.
Qed.

Lemma cloudy_exists t j : t < T -> j < H -> exists cv, cloudy_here ci cl N t j cv.
Proof.
  intros Ht Hj. destruct Hr as (_ & _ & _ & _ & _ & _ & _ & S1 & _ & S2 & _).
  destruct (flags_or_ok T H N ci cl S1 S2) as (cv & _ & S & P).
  exists (at2 [] cv t j). split; [apply (shape3_cell T H N); assumption|]. intro i; apply P; assumption.
Qed.

Lemma map_nth_str {A} (f : string -> A) l i d d' : i < length l -> nth i (map f l) d = f (nth i l d').
Proof. intro Hi. rewrite (nth_indep _ d (f d')) by (rewrite map_length; exact Hi). apply map_nth. Qed.

(** Everything about one level, in terms of class names. *)
Lemma precip_level_facts :
  exists m' G, set_precip is_conv None rad sch hs thr dr m = (Ok tt, m') /\
    dim_sub m' = Some N /\ unchanged_except (map (frac_out is_conv) hs) m m' /\
    (forall h, In h hs -> flags m' (frac_out is_conv h) (G h) /\ shape3 T H N (G h)) /\
    (forall h t j, In h hs -> t < T -> S j = H -> at2 [] (G h) t j = repeat false N) /\
    forall t j, t < T -> S j < H ->
      (forall h k, In h hs -> req h t j k ->
         Z.of_nat (occ (at2 [] (G h) t j)) = k /\
         max_overlap (at2 [] (G h) t j) k (rains G t (S j)) /\
         max_overlap (at2 [] (G h) t j) k (fun i => rains G t (S j) i \/ cloudy t j i)) /\
      (forall h1 h2 k1 k2, In h1 hs -> In h2 hs -> req h1 t j k1 -> req h2 t j k2 -> (k1 <= k2)%Z ->
         subset (at2 [] (G h1) t j) (at2 [] (G h2) t j)).
Proof.
  destruct (set_precip_ok m is_conv rad sch thr dr N T H hs F Qv ci cl Hr Hs Hd) as (m' & G & E & D & U & Fl & Top & Lev).
  exists m', G. do 5 (split; [assumption|]). intros t j Ht Hj.
  destruct (requests_exist t j Ht ltac:(lia) hs (fun x h => h)) as (ks & K).
  destruct (cloudy_exists t j Ht ltac:(lia)) as (cv & C).
  pose proof (Lev t j Ht Hj ks cv K C) as P. destruct P as [P1 P2 P3 P4 P5 P6].
  pose proof (Forall2_len _ _ _ K) as Lk.
  assert (Hix : forall h k, In h hs -> req h t j k -> exists i, i < length ks /\ nth i ks 0%Z = k /\
     forall j', nth i (map (fun h => at2 [] (G h) t j') hs) [] = at2 [] (G h) t j').
  { intros h k Hh Rk. destruct (In_nth _ _ ""%string Hh) as (i & Hi & Ei). exists i.
    split; [congruence|]. split.
    - pose proof (Forall2_nth _ _ _ ""%string 0%Z i K Hi) as R. simpl in R. rewrite Ei in R.
      eapply requested_unique; [exact R|exact Rk].
    - intro j'. rewrite (map_nth_str (fun h => at2 [] (G h) t j') hs i [] ""%string Hi). rewrite Ei. reflexivity. }
  assert (Hrain : forall i, some_precip (map (fun h => at2 [] (G h) t (S j)) hs) i <-> rains G t (S j) i).
  { intro i. split.
    - intros (s & Hin & Hf). apply in_map_iff in Hin as (h & <- & Hh). exists h; auto.
    - intros (h & Hh & Hf). exists (at2 [] (G h) t (S j)). split; [apply in_map_iff; exists h; auto|exact Hf]. }
  assert (MO : forall s k (A B : nat -> Prop), (forall i, A i <-> B i) -> max_overlap s k A -> max_overlap s k B).
  { intros s k A B HAB Ho n Hn. destruct (Ho n) as [O1 O2].
    - eapply number_of_ext; [|exact Hn]. intro i; symmetry; apply HAB.
    - split; intros X i Hi; [apply HAB, O1; assumption|apply O2; [exact X|apply HAB; exact Hi]]. }
  split.
  - intros h k Hh Rk. destruct (Hix h k Hh Rk) as (i & Hi & Ek & Ei). rewrite <- (Ei j), <- Ek.
    split; [apply P3, Hi|]. split.
    + eapply MO; [exact Hrain|]. apply P5, Hi.
    + eapply MO; [|apply P6, Hi]. intro x; simpl. rewrite Hrain. unfold cloudy. destruct C as [_ C]. rewrite C. tauto.
  - intros h1 h2 k1 k2 H1 H2 R1 R2 Hk.
    destruct (Hix h1 k1 H1 R1) as (i1 & L1 & E1 & F1). destruct (Hix h2 k2 H2 R2) as (i2 & L2 & E2 & F2).
    rewrite <- (F1 j), <- (F2 j). apply P4; try assumption. congruence.
Qed.

Lemma precip_count :
  exists m' G, set_precip is_conv None rad sch hs thr dr m = (Ok tt, m') /\
    forall h, In h hs -> flags m' (frac_out is_conv h) (G h) /\
    forall t j k, t < T -> S j < H -> req h t j k -> Z.of_nat (occ (at2 [] (G h) t j)) = k.
Proof.
  destruct precip_level_facts as (m' & G & E & D & U & Fl & Top & Lev).
  exists m', G. split; [exact E|]. intros h Hh. split; [apply Fl, Hh|]. intros t j k Ht Hj Hk.
  apply (Lev t j Ht Hj); assumption.
Qed.

Lemma precip_nested :
  exists m' G, set_precip is_conv None rad sch hs thr dr m = (Ok tt, m') /\
    (forall h, In h hs -> flags m' (frac_out is_conv h) (G h)) /\
    forall h1 h2 t j k1 k2, In h1 hs -> In h2 hs -> t < T -> j < H -> req h1 t j k1 -> req h2 t j k2 ->
      (k1 <= k2)%Z -> subset (at2 [] (G h1) t j) (at2 [] (G h2) t j).
Proof.
  destruct precip_level_facts as (m' & G & E & D & U & Fl & Top & Lev).
  exists m', G. split; [exact E|]. split; [intros h Hh; apply Fl, Hh|]. intros h1 h2 t j k1 k2 H1 H2 Ht Hj R1 R2 Hk.
  destruct (Nat.eq_dec (S j) H) as [Ej|Ej].
  - rewrite !Top by assumption. intros i Hi; exact Hi.
  - destruct (Lev t j Ht ltac:(lia)) as [_ X]. eapply X; eassumption.
Qed.

Lemma rains_number G t j n0 : (forall h, In h hs -> length (at2 [] (G h) t j) = n0) ->
  exists n, number_of (rains G t j) n.
Proof.
  intro HL. eexists. apply (number_of_filter n0 (fun i => existsb (fun h => nth i (at2 [] (G h) t j) false) hs)).
  intro i. unfold rains. split.
  - intros (h & Hh & Hf). split; [rewrite <- (HL h Hh); apply flagged_lt, Hf|]. apply existsb_exists. exists h; auto.
  - intros [_ X]. apply existsb_exists in X as (h & Hh & Hf). exists h; auto.
Qed.

Lemma precip_overlying :
  exists m' G, set_precip is_conv None rad sch hs thr dr m = (Ok tt, m') /\
    (forall h, In h hs -> flags m' (frac_out is_conv h) (G h)) /\
    forall h t j k n, In h hs -> t < T -> S j < H -> req h t j k -> number_of (rains G t (S j)) n ->
      number_of (fun i => flagged (at2 [] (G h) t j) i /\ rains G t (S j) i) (Z.to_nat (Z.min k (Z.of_nat n))).
Proof.
  destruct precip_level_facts as (m' & G & E & D & U & Fl & Top & Lev).
  exists m', G. split; [exact E|]. split; [intros h Hh; apply Fl, Hh|]. intros h t j k n Hh Ht Hj Rk Hn.
  destruct (Lev t j Ht Hj) as [X _]. destruct (X h k Hh Rk) as (X1 & X2 & _).
  apply overlap_number; [lia|exact Hn|exact X2|intros _; exact X1].
Qed.

Lemma precip_cloudy_first :
  exists m' G, set_precip is_conv None rad sch hs thr dr m = (Ok tt, m') /\
    (forall h, In h hs -> flags m' (frac_out is_conv h) (G h)) /\
    forall h t j i, In h hs -> t < T -> S j < H ->
      flagged (at2 [] (G h) t j) i -> ~ cloudy t j i -> ~ rains G t (S j) i ->
      forall i', cloudy t j i' \/ rains G t (S j) i' -> flagged (at2 [] (G h) t j) i'.
Proof.
  destruct precip_level_facts as (m' & G & E & D & U & Fl & Top & Lev).
  exists m', G. split; [exact E|]. split; [intros h Hh; apply Fl, Hh|].
  intros h t j i Hh Ht Hj Hfl Hnc Hnr i' Hi'.
  destruct (Lev t j Ht Hj) as [X _]. destruct (preq_exists h t j Hh Ht ltac:(lia)) as (k & Rk & _).
  destruct (X h k Hh Rk) as (_ & _ & X3).
  destruct (cloudy_exists t j Ht ltac:(lia)) as (cv & Lcv & Ccv).
  assert (Hex : exists n, number_of (fun x => rains G t (S j) x \/ cloudy t j x) n).
  { eexists. apply (number_of_filter N (fun x => existsb (fun h => nth x (at2 [] (G h) t (S j)) false) hs || nth x cv false)).
    intro x. rewrite orb_true_iff. unfold rains, cloudy. rewrite <- Ccv. split.
    - intros [(h' & Hh' & Hf)|Hf].
      + split; [|left; apply existsb_exists; exists h'; auto].
        apply flagged_lt in Hf. destruct (Fl h' Hh') as [_ Sh]. rewrite (shape3_cell T H N _ t (S j) Sh Ht Hj) in Hf. exact Hf.
      + split; [apply flagged_lt in Hf; lia|right; exact Hf].
    - intros [_ [Hf|Hf]]; [left|right; exact Hf]. apply existsb_exists in Hf as (h' & Hh' & Hf). exists h'; auto. }
  destruct Hex as (n & Hn). destruct (X3 n Hn) as [Y1 Y2].
  destruct (Z.le_gt_cases k (Z.of_nat n)) as [Hle|Hgt].
  - exfalso. destruct (Y1 Hle i Hfl); tauto.
  - apply Y2; [lia|tauto].
Qed.

Lemma precip_top :
  exists m' G, set_precip is_conv None rad sch hs thr dr m = (Ok tt, m') /\
    dim_sub m' = Some N /\ unchanged_except (map (frac_out is_conv) hs) m m' /\
    forall h, In h hs -> flags m' (frac_out is_conv h) (G h) /\ shape3 T H N (G h) /\
      forall t j i, t < T -> S j = H -> ~ flagged (at2 [] (G h) t j) i.
Proof.
  destruct precip_level_facts as (m' & G & E & D & U & Fl & Top & Lev).
  exists m', G. do 3 (split; [assumption|]). intros h Hh. destruct (Fl h Hh) as [A B]. split; [exact A|]. split; [exact B|].
  intros t j i Ht Hj. rewrite (Top h t j Hh Ht Hj). unfold flagged. rewrite nth_repeat_bool. discriminate.
Qed.
End Precip.
