(** Proofs about [set_convective] (model in [Gen_Model]). *)
From Verif Require Import Gen_Facts.
From Coq Require Import Lqa ZifyBool ZifyNat.
Local Open Scope nat_scope.

Definition conv_step (c : Z) (fl : list bool) (i : nat) : list bool :=
  if Z.eqb c (Z.of_nat i) then repeat true i ++ skipn i fl else fl.

Lemma conv_fold_none c l fl : (forall i, In i l -> c <> Z.of_nat i) -> fold_left (conv_step c) l fl = fl.
Proof.
  revert fl; induction l as [|x l IH]; intros fl H; simpl; [reflexivity|].
  unfold conv_step at 2. destruct (Z.eqb_spec c (Z.of_nat x)) as [E|E].
  - exfalso; apply (H x); [left; reflexivity|exact E].
  - apply IH. intros i Hi; apply H; right; exact Hi.
Qed.

Lemma conv_cell_eq n c :
  conv_cell n c = if (1 <=? c)%Z && (c <=? Z.of_nat n)%Z
                  then repeat true (Z.to_nat c) ++ repeat false (n - Z.to_nat c)
                  else repeat false n.
Proof.
  unfold conv_cell. change (fun fl i => if Z.eqb c (Z.of_nat i) then repeat true i ++ skipn i fl else fl) with (conv_step c).
  destruct ((1 <=? c)%Z && (c <=? Z.of_nat n)%Z) eqn:E.
  - assert (Hs : seq 1 n = seq 1 (Z.to_nat c - 1) ++ Z.to_nat c :: seq (S (Z.to_nat c)) (n - Z.to_nat c)).
    { replace n with ((Z.to_nat c - 1) + S (n - Z.to_nat c)) at 1 by lia. rewrite seq_app. f_equal.
      simpl. f_equal; [lia|]. f_equal; lia. }
    rewrite Hs, fold_left_app. rewrite (conv_fold_none c (seq 1 (Z.to_nat c - 1))) by (intros i Hi; apply in_seq in Hi; lia).
    simpl fold_left. rewrite conv_fold_none by (intros i Hi; apply in_seq in Hi; lia).
    unfold conv_step. destruct (Z.eqb_spec c (Z.of_nat (Z.to_nat c))) as [_|H]; [|lia].
    f_equal. replace n with (Z.to_nat c + (n - Z.to_nat c)) at 1 by lia.
    rewrite repeat_app, skipn_app, repeat_length.
    rewrite (skipn_all2 (repeat false (Z.to_nat c))) by (rewrite repeat_length; lia).
    replace (Z.to_nat c - Z.to_nat c) with 0 by lia. reflexivity.
  - apply conv_fold_none. intros i Hi; apply in_seq in Hi; lia.
Qed.

Lemma length_conv_cell n c : length (conv_cell n c) = n.
Proof.
  rewrite conv_cell_eq. destruct (_ && _) eqn:E; [|apply repeat_length].
  rewrite app_length, !repeat_length. lia.
Qed.

Lemma flagged_conv_cell n c i : (c <= Z.of_nat n)%Z -> (flagged (conv_cell n c) i <-> (Z.of_nat i < c)%Z).
Proof.
  intro Hc. unfold flagged. rewrite conv_cell_eq. destruct (_ && _) eqn:E.
  - destruct (le_lt_dec (Z.to_nat c) i) as [Hi|Hi].
    + rewrite app_nth2 by (rewrite repeat_length; exact Hi). rewrite nth_repeat_bool. simpl. split; [discriminate|lia].
    + rewrite app_nth1 by (rewrite repeat_length; exact Hi). rewrite nth_repeat_bool. simpl. lia.
  - rewrite nth_repeat_bool. simpl. split; [discriminate|lia].
Qed.

Lemma set_convective_ok m hyd Ncol rad thr N T H f q :
  2 <= N -> columns_ok m Ncol N -> conv_fracs m hyd rad T H f q -> proportions f ->
  exists m' g, set_convective hyd Ncol rad thr m = (Ok tt, m') /\
    flags m' ("conv_frac_subcolumns_" ++ hyd) g /\ shape3 T H N g /\ dim_sub m' = Some N /\
    unchanged_except ["conv_frac_subcolumns_" ++ hyd]%string m m' /\
    forall t j, t < T -> j < H -> forall k,
      requested rad thr (at2 0%Q q t j) (at2 0%Q f t j) N k ->
      forall i, flagged (at2 [] g t j) i <-> (Z.of_nat i < k)%Z.
Proof.
  intros HN Hcols (Hf & HT & (f0 & Hf0 & Hf0e) & Hrad) Hprop.
  unfold set_convective. rewrite bind_get.
  set (m1 := {| ds := ds m; dim_sub := Some N; ntime := ntime m; process_conv := process_conv m; nm := nm m |}).
  (* the code up to the choice of the counts *)
  match goal with |- context[mbind _ ?K m] => set (K0 := K) end.
  assert (Hpre : exists Nc, (Nc = None \/ Nc = Some N) /\
     mbind (match Ncol with None => if num_sub m =? 0 then match dim_sub m with Some n => ret (Some n) | None => raise KeyError end else ret None | Some _ => ret Ncol end) K0 m = K0 Nc m
     /\ (num_sub m = 0 -> Nc = Some N)).
  { destruct Hcols as [[H0 ->]|[Hd [-> | ->]]].
    - exists (Some N). split; [right; reflexivity|]. split; reflexivity.
    - exists None. split; [left; reflexivity|]. unfold num_sub. rewrite Hd.
      destruct (Nat.eqb_spec N 0); [lia|]. split; [reflexivity|lia].
    - exists (Some N). split; [right; reflexivity|]. split; reflexivity. }
  destruct Hpre as (Nc & HNc & EK & HNc0). rewrite EK. unfold K0; clear K0 EK.
  assert (Hchk : match Nc with Some n => negb (num_sub m =? n) && negb (num_sub m =? 0) | None => false end = false).
  { destruct HNc as [-> | ->]; [reflexivity|].
    destruct Hcols as [[[H0 _] _]|[Hd _]]; [rewrite H0; simpl; apply andb_false_r|].
    unfold num_sub; rewrite Hd, Nat.eqb_refl; reflexivity. }
  rewrite Hchk. rewrite (bind_field _ _ _ _ _ Hf0).
  match goal with |- context[mbind _ ?K m] => set (K0 := K) end.
  assert (Hdim : exists m2, mbind (if num_sub m =? 0 then match Nc with Some n => set_dim n | None => raise TypeError end else ret tt) K0 m = K0 tt m2
     /\ ds m2 = ds m /\ dim_sub m2 = Some N /\ ntime m2 = ntime m /\ process_conv m2 = process_conv m /\ nm m2 = nm m).
  { destruct (Nat.eqb_spec (num_sub m) 0) as [E|E].
    - rewrite (HNc0 E). exists m1. split; [|repeat split]. unfold mbind at 1.
      destruct Hcols as [[[_ Hu] _]|[Hd _]]; [rewrite (set_dim_unset _ _ Hu)|rewrite (set_dim_same _ _ Hd)]; reflexivity.
    - exists m. destruct Hcols as [[[H0 _] _]|[Hd _]]; [congruence|]. repeat split; auto. }
  destruct Hdim as (m2 & EK & D1 & D2 & D3 & D4 & D5). rewrite EK. unfold K0; clear K0 EK.
  rewrite bind_get.
  assert (Hn2 : num_sub m2 = N) by (unfold num_sub; rewrite D2; reflexivity). rewrite Hn2.
  assert (H1 : match Nc with Some 1%nat => true | _ => false end = false).
  { destruct HNc as [-> | ->]; [reflexivity|]. destruct N as [|[|N]]; try lia; reflexivity. }
  rewrite H1.
  assert (Hcnt : exists cs, shape2 T H cs /\
     (forall t j, t < T -> j < H -> (0 <= at2 0%Z cs t j <= Z.of_nat N)%Z /\
        requested rad thr (at2 0%Q q t j) (at2 0%Q f t j) N (at2 0%Z cs t j)) /\
     forall B (k : list (list Z) -> M B),
     mbind (if rad then
           act rname <- get_name (frac_conv_rad (nm m)) hyd;
           act rfrac <- get_grid rname;
           act qname <- get_name (q_conv (nm m)) hyd;
           act q <- get_grid qname;
           lift (grid2 (fun q f => if above_thr thr q then count_of N f else 0%Z) q rfrac)
         else ret (map (map (count_of N)) f0)) k m2 = k cs m2).
  { destruct rad.
    - destruct (Hrad eq_refl) as (Hfr & Hq & Hqs).
      assert (Hfr2 : field m2 (frac_conv_rad (nm m)) hyd f) by (destruct Hfr as (x & A & B); exists x; rewrite D1; auto).
      assert (Hq2 : field m2 (q_conv (nm m)) hyd q) by (destruct Hq as (x & A & B); exists x; rewrite D1; auto).
      destruct (grid2_ok (fun q f => if above_thr thr q then count_of N f else 0%Z) T H q f Hqs Hf)
        as (cs & E & Hs & Hv).
      exists cs. split; [exact Hs|]. split.
      + intros t j Ht Hj. rewrite (Hv t j 0%Q 0%Q) by assumption. split.
        * destruct (above_thr thr (at2 0%Q q t j)); [|lia]. apply count_of_range.
          eapply proportions_at; eassumption.
        * pose proof (count_requested_rad thr (at2 0%Q q t j) (at2 0%Q f t j) N) as R.
          unfold frac_where in R. destruct (above_thr thr (at2 0%Q q t j)); [exact R|].
          rewrite count_of_0 in R. exact R.
      + intros B k. rewrite bind_assoc.
        destruct (get_field _ _ _ _ Hfr2) as (n1 & E1 & E2). rewrite E1, bind_ret, bind_assoc.
        unfold mbind at 1. rewrite E2. rewrite bind_assoc.
        destruct (get_field _ _ _ _ Hq2) as (n2 & E3 & E4). rewrite E3, bind_ret, bind_assoc.
        unfold mbind at 1. rewrite E4. apply bind_lift, E.
    - specialize (Hf0e eq_refl). subst f0.
      exists (map (map (count_of N)) f). split; [apply shape2_map, Hf|]. split.
      + intros t j Ht Hj. rewrite (at2_map _ _ T H _ _ 0%Q) by assumption. split.
        * apply count_of_range. eapply proportions_at; eassumption.
        * apply count_requested_micro.
      + intros B k. reflexivity. }
  destruct Hcnt as (cs & Hcs & Hcv & EK). rewrite EK. clear EK.
  rewrite assign_ok; [|left; exact D2|destruct Hcs; congruence].
  eexists _, _. split; [reflexivity|].
  split; [unfold flags, stored; simpl; apply assoc_put_same|].
  assert (Hat : forall t j, t < T -> j < H -> at2 [] (map (map (conv_cell N)) cs) t j = conv_cell N (at2 0%Z cs t j))
    by (intros; apply (at2_map _ _ T H); assumption).
  split. { apply shape3_intro; [apply shape2_map, Hcs|]. intros t j Ht Hj. rewrite Hat by assumption. apply length_conv_cell. }
  split; [reflexivity|]. split.
  { split; [exact D3|]. split; [exact D4|]. split; [exact D5|]. intros x Hx. simpl.
    rewrite assoc_put_other; [rewrite D1; reflexivity|]. intros ->; apply Hx; left; reflexivity. }
  intros t j Ht Hj k Hk i. rewrite Hat by assumption. destruct (Hcv t j Ht Hj) as [Hr Hq].
  rewrite (requested_unique _ _ _ _ _ _ _ Hk Hq). apply flagged_conv_cell. lia.
Qed.

(** ** Several types in turn *)

Lemma unchanged_field names m m' d h g :
  unchanged_except names m m' -> In d (dicts m) -> (forall x, In x names -> not_input m x) ->
  field m d h g -> field m' d h g.
Proof.
  intros (_ & _ & _ & U) Hd Hn (x & A & B). exists x; split; [exact A|]. rewrite U; [exact B|].
  intro Hx. apply (Hn x Hx d h Hd A).
Qed.

Lemma conv_fracs_kept m m' x h rad T H f q :
  unchanged_except [x] m m' -> not_input m x -> conv_fracs m h rad T H f q -> conv_fracs m' h rad T H f q.
Proof.
  intros U Hn (A & B & (f0 & C & D) & E).
  assert (Hall : forall y, In y [x] -> not_input m y) by (intros y [<-|[]]; exact Hn).
  assert (K : forall d g, In d (dicts m) -> field m d h g -> field m' d h g)
    by (intros; eapply unchanged_field; eauto).
  destruct U as (U1 & U2 & U3 & U4).
  split; [exact A|]. split; [congruence|]. rewrite U3. split.
  - exists f0; split; [|exact D]. apply K; [unfold dicts; simpl; tauto|exact C].
  - intro Hr; destruct (E Hr) as (E1 & E2 & E3). repeat split; try apply E3; apply K; try assumption; unfold dicts; simpl; tauto.
Qed.

Definition conv_out (h : string) : string := ("conv_frac_subcolumns_" ++ h)%string.

Lemma append_inj p a b : (p ++ a = p ++ b)%string -> a = b.
Proof. induction p as [|c p IH]; simpl; intro E; [exact E|]. injection E as E; auto. Qed.

(** One request per type: fractions and mixing ratios of each type. *)
Lemma convective_all m Ncol rad thr N T H (hs : list string) (F Qv : string -> list (list Q)) :
  2 <= N -> columns_ok m Ncol N -> NoDup hs ->
  (forall h, In h hs -> conv_fracs m h rad T H (F h) (Qv h) /\ proportions (F h) /\ not_input m (conv_out h)) ->
  exists m', mapMM (fun h => set_convective h Ncol rad thr) hs m = (Ok (map (fun _ => tt) hs), m') /\
    (hs <> [] -> dim_sub m' = Some N) /\ unchanged_except (map conv_out hs) m m' /\
    forall h, In h hs -> exists g, flags m' (conv_out h) g /\ shape3 T H N g /\
      forall t j, t < T -> j < H -> forall k,
        requested rad thr (at2 0%Q (Qv h) t j) (at2 0%Q (F h) t j) N k ->
        forall i, flagged (at2 [] g t j) i <-> (Z.of_nat i < k)%Z.
Proof.
  intro HN. revert m. induction hs as [|h hs IH]; intros m Hc Hnd Hin.
  - exists m. split; [reflexivity|]. split; [congruence|]. split; [repeat split|]. intros h [].
  - inversion_clear Hnd as [|? ? Hh Hnd'].
    destruct (Hin h (or_introl eq_refl)) as (C1 & C2 & C3).
    destruct (set_convective_ok m h Ncol rad thr N T H _ _ HN Hc C1 C2) as (m1 & g & E & G1 & G2 & G3 & G4 & G5).
    assert (NI : forall x, not_input m x -> not_input m1 x).
    { intros x Hx d h' Hd. apply Hx. unfold dicts in *. destruct G4 as (_ & _ & -> & _) in Hd. exact Hd. }
    destruct (IH m1) as (m' & E' & D' & U' & P').
    + destruct Hc as [[H0 ->]|[Hd Hc]]; right; split; auto.
    + exact Hnd'.
    + intros h' Hh'. destruct (Hin h' (or_intror Hh')) as (A1 & A2 & A3).
      split; [eapply conv_fracs_kept; eauto|]. split; [exact A2|]. apply NI, A3.
    + exists m'. split.
      { simpl. unfold mbind at 1. rewrite E. unfold mbind at 1. rewrite E'. reflexivity. }
      destruct G4 as (V1 & V2 & V3 & V4). destruct U' as (W1 & W2 & W3 & W4).
      split.
      { intros _. destruct hs as [|h2 hs]; [|apply D'; discriminate].
        simpl in E'. unfold ret in E'. injection E' as <-. exact G3. }
      split.
      { split; [congruence|]. split; [congruence|]. split; [congruence|].
        intros x Hx. rewrite W4 by (intro X; apply Hx; right; exact X). apply V4.
        intros [X|[]]. apply Hx; left; exact X. }
      intros h' [<-|Hh']; [|apply P', Hh'].
      exists g. split; [|split; assumption]. unfold flags. rewrite W4; [exact G1|].
      intro X. apply in_map_iff in X as (y & Y1 & Y2). apply append_inj in Y1. congruence.
Qed.

Lemma requested_exists rad thr q f N : (0 <= f <= 1)%Q ->
  exists k, requested rad thr q f N k /\ (0 <= k <= Z.of_nat N)%Z /\
            forall k', requested rad thr q f N k' -> k' = k.
Proof.
  intro Hf. destruct rad.
  - exists (if above_thr thr q then count_of N f else 0%Z).
    assert (R : requested true thr q f N (if above_thr thr q then count_of N f else 0%Z)).
    { pose proof (count_requested_rad thr q f N) as R.
      unfold frac_where in R. destruct (above_thr thr q); [exact R|]. rewrite count_of_0 in R; exact R. }
    split; [exact R|]. split; [destruct (above_thr thr q); [apply count_of_range, Hf|lia]|].
    intros k' Hk'. eapply requested_unique; eassumption.
  - exists (count_of N f). split; [apply count_requested_micro|]. split; [apply count_of_range, Hf|].
    intros k' Hk'. eapply requested_unique; [exact Hk'|apply count_requested_micro].
Qed.

Lemma convective_overlap m Ncol rad thr N T H hs (F Qv : string -> list (list Q)) :
  2 <= N -> columns_ok m Ncol N -> NoDup hs ->
  (forall h, In h hs -> conv_fracs m h rad T H (F h) (Qv h) /\ proportions (F h) /\
                        not_input m ("conv_frac_subcolumns_" ++ h)) ->
  exists m', mapMM (fun h => set_convective h Ncol rad thr) hs m = (Ok (map (fun _ => tt) hs), m') /\
    forall h1 h2, In h1 hs -> In h2 hs -> exists g1 g2,
      flags m' ("conv_frac_subcolumns_" ++ h1) g1 /\ flags m' ("conv_frac_subcolumns_" ++ h2) g2 /\
      forall t j1 j2 k1 k2, t < T -> j1 < H -> j2 < H ->
        requested rad thr (at2 0%Q (Qv h1) t j1) (at2 0%Q (F h1) t j1) N k1 ->
        requested rad thr (at2 0%Q (Qv h2) t j2) (at2 0%Q (F h2) t j2) N k2 ->
        (k1 <= k2)%Z -> subset (at2 [] g1 t j1) (at2 [] g2 t j2).
Proof.
  intros HN Hc Hnd Hin.
  destruct (convective_all m Ncol rad thr N T H hs F Qv HN Hc Hnd Hin) as (m' & E & _ & _ & P).
  exists m'. split; [exact E|]. intros h1 h2 H1 H2.
  destruct (P h1 H1) as (g1 & A1 & _ & B1). destruct (P h2 H2) as (g2 & A2 & _ & B2).
  exists g1, g2. split; [exact A1|]. split; [exact A2|].
  intros t j1 j2 k1 k2 Ht Hj1 Hj2 R1 R2 Hk i Hi.
  apply (B2 t j2 Ht Hj2 k2 R2). apply (B1 t j1 Ht Hj1 k1 R1) in Hi. lia.
Qed.
