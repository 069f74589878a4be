(** Proofs about the stratiform allocator (model in [Strat_Model]). *)
From Verif Require Import Np_Facts Strat_Model Strat_Spec.
From Coq Require Import ZifyBool ZifyNat.
Local Open Scope Z_scope.

Lemma sel_upd_same {A} i (v : A) x : sel i (upd i v x) = v.
Proof. destruct i; reflexivity. Qed.
Lemma sel_upd_other {A} i j (v : A) x : i <> j -> sel j (upd i v x) = sel j x.
Proof. destruct i, j; intro H; try reflexivity; contradiction H; reflexivity. Qed.

(** State of one level while it is being filled. *)
Definition st (N : nat) (Imin Imax : ph) (s : lvl) (Lmin Lmax : list nat) : Prop :=
  length (fst s) = N /\ length (snd s) = N /\
  reps (sel Imin s) Lmin /\ reps (sel Imax s) Lmax.

Lemma length_sel N (s : lvl) i : length (fst s) = N -> length (snd s) = N -> length (sel i s) = N.
Proof. destruct i; auto. Qed.

Lemma mark_min N Imin Imax s Lmin Lmax idx :
  Imin <> Imax -> st N Imin Imax s Lmin Lmax ->
  NoDup idx -> (forall i, In i idx -> (i < N)%nat) -> (forall i, In i idx -> ~ In i Lmin) ->
  exists s', mark Imin idx s = Ok s' /\ st N Imin Imax s' (Lmin ++ idx) Lmax.
Proof.
  intros Hne (H1 & H2 & Hm & HM) Hd Hr Hf.
  assert (Hl : length (sel Imin s) = N) by (destruct Imin; assumption).
  destruct (set_true_reps (sel Imin s) Lmin idx Hm Hd) as (t & E & Ht & Hrep);
    [rewrite Hl; exact Hr | exact Hf |].
  exists (upd Imin t s). unfold mark; rewrite E; simpl. split; [reflexivity|].
  rewrite Hl in Ht. unfold st. rewrite sel_upd_same, sel_upd_other by exact Hne.
  repeat split; try apply Hrep; try apply HM; destruct Imin; simpl; assumption.
Qed.

Lemma mark_max N Imin Imax s Lmin Lmax idx :
  Imin <> Imax -> st N Imin Imax s Lmin Lmax ->
  NoDup idx -> (forall i, In i idx -> (i < N)%nat) -> (forall i, In i idx -> ~ In i Lmax) ->
  exists s', mark Imax idx s = Ok s' /\ st N Imin Imax s' Lmin (Lmax ++ idx).
Proof.
  intros Hne (H1 & H2 & Hm & HM) Hd Hr Hf.
  destruct (mark_min N Imax Imin s Lmax Lmin idx) as (s' & E & Hs); auto.
  { repeat split; auto; apply HM || apply Hm. }
  exists s'; split; [exact E|]. destruct Hs as (G1 & G2 & G3 & G4). repeat split; auto; apply G4 || apply G3.
Qed.

Definition over (above : lvl) (conv : list bool) (i : nat) : Prop :=
  (nth i (fst above) false = true \/ nth i (snd above) false = true) /\ nth i conv false = false.


(** ** Overlying locations *)

Lemma NoDup_incl_len (l1 l2 : list nat) :
  NoDup l1 -> incl l1 l2 -> (length l2 <= length l1)%nat -> incl l2 l1.
Proof. intros; apply NoDup_length_incl; assumption. Qed.

Lemma setdiff_len (M m : list nat) :
  NoDup M -> NoDup m -> incl m M ->
  (length (setdiff1d M m) + length m = length M)%nat.
Proof.
  intros HM Hm Hi. rewrite <- app_length. apply Permutation_length.
  apply NoDup_Permutation; [|exact HM|].
  - apply NoDup_app_intro; [apply NoDup_setdiff1d; exact HM | exact Hm |].
    intros x Hx; apply in_setdiff1d in Hx; tauto.
  - intro x; rewrite in_app_iff, in_setdiff1d. split.
    + intros [[H _]|H]; [exact H | apply Hi, H].
    + intro H; destruct (in_dec Nat.eq_dec x m); tauto.
Qed.

Lemma setdiff_nil (m M : list nat) : incl m M -> setdiff1d m M = [].
Proof.
  intro H. destruct (setdiff1d m M) as [|x l] eqn:E; [reflexivity|].
  assert (Hx : In x (setdiff1d m M)) by (rewrite E; left; reflexivity).
  apply in_setdiff1d in Hx. destruct Hx as [Hx Hn]; exfalso; apply Hn, H, Hx.
Qed.

Lemma over_facts (A B : list nat) :
  NoDup A -> NoDup B -> (incl A B \/ incl B A) ->
  let n1 := Z.of_nat (length A) in let n2 := Z.of_nat (length B) in
  let m := sel (if n1 <=? n2 then CL else CI) (A, B) in
  let M := sel (if n2 <=? n1 then CL else CI) (A, B) in
  let U := setxor A B in
  NoDup m /\ NoDup M /\ NoDup U /\ incl m M /\
  (forall i, In i M <-> (In i A \/ In i B)) /\
  (forall i, In i m <-> (In i A /\ In i B)) /\
  (forall i, In i U <-> (In i M /\ ~ In i m)) /\
  Z.of_nat (length m) = Z.min n1 n2 /\ Z.of_nat (length M) = Z.max n1 n2 /\
  Z.of_nat (length U) = Z.abs (n2 - n1).
Proof.
  intros HA HB Hn n1 n2.
  assert (HU : NoDup (setxor A B)).
  { apply NoDup_app_intro; try (apply NoDup_setdiff1d; assumption).
    intros x Hx Hy; apply in_setdiff1d in Hx; apply in_setdiff1d in Hy; tauto. }
  assert (Hcase : (incl A B /\ n1 <= n2) \/ (incl B A /\ n2 <= n1)).
  { destruct Hn as [H|H]; [left|right]; (split; [exact H|]);
      [pose proof (NoDup_incl_length HA H) | pose proof (NoDup_incl_length HB H)]; lia. }
  assert (Heq : n1 = n2 -> incl A B /\ incl B A).
  { intro E. destruct Hcase as [[H _]|[H _]]; split; try exact H; apply NoDup_incl_len; try assumption; lia. }
  assert (Hlen : Z.of_nat (length (setxor A B)) = Z.abs (n2 - n1)).
  { unfold setxor. rewrite app_length. destruct Hcase as [[H _]|[H _]].
    - rewrite (setdiff_nil A B H). pose proof (setdiff_len B A HB HA H). simpl; lia.
    - rewrite (setdiff_nil B A H). pose proof (setdiff_len A B HA HB H). simpl; lia. }
  assert (HUi : forall i, In i (setxor A B) <-> ((In i A \/ In i B) /\ ~ (In i A /\ In i B))).
  { intro i; unfold setxor; rewrite in_app_iff, !in_setdiff1d.
    destruct (in_dec Nat.eq_dec i A), (in_dec Nat.eq_dec i B); tauto. }
  destruct (Z.leb_spec n1 n2) as [H12|H12]; destruct (Z.leb_spec n2 n1) as [H21|H21]; simpl.
  - destruct Heq as [E1 E2]; [lia|].
    assert (Hab : forall i, In i A <-> In i B) by (split; [apply E1|apply E2]).
    repeat split; auto; try lia; try (intros i Hi; exact Hi); intros;
      repeat match goal with H : context[In ?i (setxor _ _)] |- _ => rewrite HUi in H end;
      rewrite ?HUi in *; firstorder.
  - destruct Hcase as [[H _]|[_ H]]; [|lia].
    repeat split; auto; try lia; intros; rewrite ?HUi in *; firstorder.
  - destruct Hcase as [[_ H]|[H _]]; [lia|].
    repeat split; auto; try lia; intros; rewrite ?HUi in *; firstorder.
  - lia.
Qed.

Lemma pyslice_firstn {A} a k (l : list A) :
  0 <= k -> pyslice k (firstn a l) = firstn (Nat.min (Z.to_nat k) a) l.
Proof. intro H; rewrite pyslice_nonneg by exact H; apply firstn_firstn. Qed.

Lemma randperm_firstn perm site n k : 0 <= k ->
  randperm perm site n k = firstn (Z.to_nat k) (perm site n).
Proof. intro H; unfold randperm; apply pyslice_nonneg; exact H. Qed.

Lemma reps_app_fresh_nil idx : forall i : nat, In i idx -> ~ In i [].
Proof. intros i _ []. Qed.

Lemma perm_firstn_facts (full locs : list nat) k :
  Permutation full locs -> NoDup locs ->
  NoDup (firstn k full) /\ incl (firstn k full) locs /\
  length (firstn k full) = Nat.min k (length locs) /\
  ((length locs <= k)%nat -> incl locs (firstn k full)).
Proof.
  intros Hp Hn. repeat split.
  - apply NoDup_firstn. eapply Permutation_NoDup; [symmetry; exact Hp | exact Hn].
  - intros x Hx. apply In_firstn in Hx. eapply Permutation_in; eassumption.
  - rewrite firstn_length, (Permutation_length Hp); reflexivity.
  - intros Hk x Hx. rewrite firstn_all2 by (rewrite (Permutation_length Hp); exact Hk).
    eapply Permutation_in; [symmetry; exact Hp | exact Hx].
Qed.

Lemma incl_firstn_le {A} k k' (l : list A) : (k <= k')%nat -> incl (firstn k l) (firstn k' l).
Proof. intros H x Hx. eapply In_firstn_le; eassumption. Qed.

Ltac step H := rewrite H; cbn [bind].

Section Overlap.
  Variables (N : nat) (Imin Imax : ph) (perm : perms).
  Hypothesis Hne : Imin <> Imax.
  Hypothesis Hperm : forall site n, is_perm (perm site n) n.

  (** Drawing [k] distinct entries of [locs]. *)
  Lemma draw (locs : list nat) (site n : nat) :
    n = length locs -> NoDup locs ->
    exists full, Permutation full locs /\
      forall k, gather locs (firstn k (perm site n)) = Ok (firstn k full).
  Proof. intros -> Hn. apply gather_perm, Hperm. Qed.

  Definition overlap_post (c c' : Z * Z) (s' : lvl) (Lmin Lmax m M : list nat) : Prop :=
    st N Imin Imax s' Lmin Lmax /\ incl Lmin Lmax /\ incl Lmax M /\
    sel Imin c' = sel Imin c - Z.of_nat (length Lmin) /\
    0 <= sel Imin c' /\ (0 < sel Imin c' -> incl M Lmin) /\
    0 <= sel Imax c' /\
    ((sel Imin c = 0 /\ 0 < Z.of_nat (length m) <= sel Imax c) ->
       sel Imax c' = sel Imax c - Z.of_nat (length m) - Z.of_nat (length Lmax) /\
       (0 < sel Imax c' -> forall i, In i M -> ~ In i m -> In i Lmax)) /\
    (~ (sel Imin c = 0 /\ 0 < Z.of_nat (length m) <= sel Imax c) ->
       sel Imax c' = sel Imax c - Z.of_nat (length Lmax) /\
       (0 < sel Imax c' -> incl M Lmax)).

  Lemma overlap_ok c conv above :
    0 <= sel Imin c <= sel Imax c -> 0 < sel Imax c ->
    length conv = N -> length (fst above) = N -> length (snd above) = N ->
    subset (fst above) (snd above) \/ subset (snd above) (fst above) ->
    exists s' c' Lmin Lmax m M,
      strat_overlap Imin Imax c conv above (repeat false N, repeat false N) perm = Ok (s', c') /\
      NoDup M /\ (forall i, In i M <-> over above conv i) /\
      NoDup m /\ (forall i, In i m <-> (nth i (fst above) false = true /\ nth i (snd above) false = true
                                        /\ nth i conv false = false)) /\
      overlap_post c c' s' Lmin Lmax m M.
  Proof.
    intros Hc Hcpos Hconv Ha1 Ha2 Hnest. unfold strat_overlap.
    destruct (zipb_andnot (fst above) conv) as (o1 & E1 & Hl1 & Ho1); [congruence|].
    destruct (zipb_andnot (snd above) conv) as (o2 & E2 & Hl2 & Ho2); [congruence|].
    step E1; step E2.
    pose proof (NoDup_argwhere o1) as HnA. pose proof (NoDup_argwhere o2) as HnB.
    assert (HnAB : incl (argwhere o1) (argwhere o2) \/ incl (argwhere o2) (argwhere o1)).
    { destruct Hnest as [H|H]; [left|right]; intros i Hi; apply in_argwhere in Hi; apply in_argwhere;
        [apply Ho2; apply Ho1 in Hi | apply Ho1; apply Ho2 in Hi]; split; try apply H; tauto. }
    pose proof (over_facts _ _ HnA HnB HnAB) as HF. cbv zeta in HF.
    set (A := argwhere o1) in *. set (B := argwhere o2) in *.
    set (n1 := Z.of_nat (length A)) in *. set (n2 := Z.of_nat (length B)) in *.
    assert (Esel1 : sel (if n1 <=? n2 then CL else CI) (n1, n2) = Z.min n1 n2)
      by (destruct (Z.leb_spec n1 n2); simpl; lia).
    assert (Esel2 : sel (if n2 <=? n1 then CL else CI) (n1, n2) = Z.max n1 n2)
      by (destruct (Z.leb_spec n2 n1); simpl; lia).
    cbv zeta. rewrite Esel1, Esel2.
    set (m := sel (if n1 <=? n2 then CL else CI) (A, B)) in *.
    set (M := sel (if n2 <=? n1 then CL else CI) (A, B)) in *.
    set (U := setxor A B) in *.
    destruct HF as (Hm & HM & HU & HmM & HMi & Hmi & HUi & Lm & LM & LU).
    rewrite <- Lm, <- LM, <- LU.
    assert (LmMU : (length M = length m + length U)%nat) by lia.
    assert (HMover : forall i, In i M <-> over above conv i).
    { intro i; rewrite HMi; unfold A, B; rewrite !in_argwhere, Ho1, Ho2; unfold over; tauto. }
    assert (Hmover : forall i, In i m <-> (nth i (fst above) false = true /\ nth i (snd above) false = true
                                        /\ nth i conv false = false)).
    { intro i; rewrite Hmi; unfold A, B; rewrite !in_argwhere, Ho1, Ho2; tauto. }
    assert (HMr : forall i, In i M -> (i < N)%nat).
    { intros i Hi; apply HMover in Hi. destruct Hi as [[Hi|Hi] _]; apply nth_true_lt in Hi; lia. }
    assert (Hmr : forall i, In i m -> (i < N)%nat) by (intros i Hi; apply HMr, HmM, Hi).
    assert (HUr : forall i, In i U -> (i < N)%nat) by (intros i Hi; apply HMr, HUi, Hi).
    assert (HUm : forall i, In i U -> ~ In i m) by (intros i Hi; apply HUi, Hi).
    assert (HUM : incl U M) by (intros i Hi; apply HUi, Hi).
    assert (HmUM : incl M (m ++ U)).
    { intros i Hi; rewrite in_app_iff. destruct (in_dec Nat.eq_dec i m) as [h|h]; [left; exact h|right].
      apply HUi; tauto. }
    clearbody m M U. clear E1 E2 HMi Hmi Esel1 Esel2 Hnest HnAB Hl1 Hl2 Ho1 Ho2.
    clearbody n1 n2. clear HnA HnB. clear A B o1 o2.
    assert (Hst0 : st N Imin Imax (repeat false N, repeat false N) [] []).
    { repeat split; simpl; try apply repeat_length; try constructor;
        try (destruct Imin; simpl; apply reps_blank); destruct Imax; simpl; apply reps_blank. }
    set (cm := sel Imin c) in *. set (cM := sel Imax c) in *.
    rewrite !Z.gtb_ltb.
    destruct (Z.ltb_spec cM (Z.of_nat (length m))) as [HA|HA].
    { (* case A: 621 *)
      destruct (Z.ltb_spec 0 cM) as [HcM|HcM].
      - rewrite !randperm_firstn by lia. rewrite pyslice_firstn by lia.
        destruct (draw m 0 (Z.to_nat (Z.of_nat (length m)))) as (full & Hfp & Hg); [lia|exact Hm|].
        rewrite Hg; cbn [bind].
        destruct (perm_firstn_facts full m (Nat.min (Z.to_nat cm) (Z.to_nat cM)) Hfp Hm) as (F1 & F2 & F3 & _).
        destruct (perm_firstn_facts full m (Z.to_nat cM) Hfp Hm) as (G1 & G2 & G3 & _).
        edestruct mark_min with (idx := firstn (Nat.min (Z.to_nat cm) (Z.to_nat cM)) full) as (s1 & Es1 & Hs1);
          [exact Hne | exact Hst0 | exact F1 | intros i Hi; apply Hmr, F2, Hi | apply reps_app_fresh_nil |].
        step Es1. rewrite Hg; cbn [bind].
        edestruct mark_max with (idx := firstn (Z.to_nat cM) full) as (s2 & Es2 & Hs2);
          [exact Hne | exact Hs1 | exact G1 | intros i Hi; apply Hmr, G2, Hi | apply reps_app_fresh_nil |].
        step Es2.
        do 6 eexists. split; [reflexivity|]. split; [exact HM|]. split; [exact HMover|].
        split; [exact Hm|]. split; [exact Hmover|].
        rewrite !app_nil_l in Hs2. split; [exact Hs2|].
        split; [apply incl_firstn_le; lia|]. split; [intros i Hi; apply HmM, G2, Hi|].
        assert (Ez : forall I, sel I (0, 0) = 0) by (intros []; reflexivity).
        rewrite !Ez, F3, G3. fold cm cM.
        split; [lia|]. split; [lia|]. split; [lia|]. split; [lia|]. split; intro Hd; split; lia.
      - exfalso; lia. }
    destruct (Z.ltb_spec cm (Z.of_nat (length m))) as [HB|HB].
    { (* case B: 629 *)
      assert (Hstep : exists s1 Lmin Lmax1,
        (if 0 <? cm then
           do inds <- gather m (randperm perm 1 (Z.to_nat (Z.of_nat (length m))) cm);
           do s <- mark Imin inds (repeat false N, repeat false N);
           mark Imax m s
         else @Ok lvl (repeat false N, repeat false N)) = @Ok lvl s1 /\
        st N Imin Imax s1 Lmin Lmax1 /\ incl Lmin m /\ Z.of_nat (length Lmin) = cm /\
        ((0 < cm /\ Lmax1 = m) \/ (cm = 0 /\ Lmax1 = []))).
      { destruct (Z.ltb_spec 0 cm) as [Hcm|Hcm].
        - rewrite randperm_firstn by lia.
          destruct (draw m 1 (Z.to_nat (Z.of_nat (length m)))) as (full & Hfp & Hg); [lia|exact Hm|].
          rewrite Hg; cbn [bind].
          destruct (perm_firstn_facts full m (Z.to_nat cm) Hfp Hm) as (F1 & F2 & F3 & _).
          edestruct mark_min with (idx := firstn (Z.to_nat cm) full) as (s1 & Es1 & Hs1);
            [exact Hne | exact Hst0 | exact F1 | intros i Hi; apply Hmr, F2, Hi | apply reps_app_fresh_nil |].
          step Es1.
          edestruct mark_max with (idx := m) as (s2 & Es2 & Hs2);
            [exact Hne | exact Hs1 | exact Hm | exact Hmr | apply reps_app_fresh_nil |].
          rewrite Es2. rewrite !app_nil_l in Hs2.
          do 3 eexists; split; [reflexivity|]; split; [exact Hs2|]; split; [exact F2|].
          split; [lia|left; split; [exact Hcm|reflexivity]].
        - do 3 eexists; split; [reflexivity|]; split; [exact Hst0|]. split; [intros i []|].
          simpl; split; [lia|right; split; [lia|reflexivity]]. }
      destruct Hstep as (s1 & Lmin & Lmax1 & Es1 & Hs1 & HLm & HLlen & HL1).
      step Es1.
      rewrite !sel_upd_same. rewrite sel_upd_other by exact Hne. fold cM.
      assert (HUf : forall i, In i U -> ~ In i Lmax1).
      { intros i Hi Hx. destruct HL1 as [[_ ->]|[_ ->]]; [exact (HUm i Hi Hx)|destruct Hx]. }
      destruct (Z.ltb_spec (cM - Z.of_nat (length m)) (Z.of_nat (length U))) as [HB1|HB1].
      - rewrite randperm_firstn by lia.
        destruct (draw U 2 (Z.to_nat (Z.of_nat (length U)))) as (full & Hfp & Hg); [lia|exact HU|].
        rewrite Hg; cbn [bind].
        destruct (perm_firstn_facts full U (Z.to_nat (cM - Z.of_nat (length m))) Hfp HU) as (F1 & F2 & F3 & _).
        edestruct mark_max with (idx := firstn (Z.to_nat (cM - Z.of_nat (length m))) full) as (s2 & Es2 & Hs2);
          [exact Hne | exact Hs1 | exact F1 | intros i Hi; apply HUr, F2, Hi
           | intros i Hi; apply HUf, F2, Hi |].
        step Es2.
        do 6 eexists. split; [reflexivity|]. split; [exact HM|]. split; [exact HMover|].
        split; [exact Hm|]. split; [exact Hmover|]. split; [exact Hs2|].
        assert (HLmax : incl (Lmax1 ++ firstn (Z.to_nat (cM - Z.of_nat (length m))) full) M).
        { intros i Hi; apply in_app_iff in Hi; destruct Hi as [Hi|Hi]; [|apply HUM, F2, Hi].
          destruct HL1 as [[_ ->]|[_ ->]]; [apply HmM, Hi|destruct Hi]. }
        split. { intros i Hi. apply in_app_iff; left. destruct HL1 as [[_ ->]|[h ->]]; [apply HLm, Hi|].
                 destruct Lmin; [destruct Hi|simpl in HLlen; lia]. }
        split; [exact HLmax|].
        rewrite !sel_upd_same. rewrite !sel_upd_other by congruence. rewrite !sel_upd_same.
        fold cm cM. rewrite app_length, F3.
        split; [lia|]. split; [lia|]. split; [lia|]. split; [lia|].
        destruct HL1 as [[Hcm ->]|[Hcm ->]]; simpl length; split; intro Hd; split; try lia.
      - edestruct mark_max with (idx := U) as (s2 & Es2 & Hs2);
          [exact Hne | exact Hs1 | exact HU | exact HUr | exact HUf |].
        step Es2.
        do 6 eexists. split; [reflexivity|]. split; [exact HM|]. split; [exact HMover|].
        split; [exact Hm|]. split; [exact Hmover|]. split; [exact Hs2|].
        split. { intros i Hi. apply in_app_iff; left. destruct HL1 as [[_ ->]|[h ->]]; [apply HLm, Hi|].
                 destruct Lmin; [destruct Hi|simpl in HLlen; lia]. }
        split. { intros i Hi; apply in_app_iff in Hi; destruct Hi as [Hi|Hi]; [|apply HUM, Hi].
          destruct HL1 as [[_ ->]|[_ ->]]; [apply HmM, Hi|destruct Hi]. }
        rewrite !sel_upd_same. rewrite !sel_upd_other by congruence. rewrite !sel_upd_same.
        fold cm cM. rewrite app_length.
        split; [lia|]. split; [lia|]. split; [lia|]. split; [lia|].
        destruct HL1 as [[Hcm ->]|[Hcm ->]]; simpl length; split; intro Hd; split; try lia.
        + intros _. exact HmUM.
        + intros _ i Hi Hni. apply HUi; tauto. }
    destruct (Z.ltb_spec cm (Z.of_nat (length M))) as [HC|HC].
    { (* case C: 647 *)
      edestruct mark_min with (idx := m) as (s1 & Es1 & Hs1);
        [exact Hne | exact Hst0 | exact Hm | exact Hmr | apply reps_app_fresh_nil |].
      step Es1.
      edestruct mark_max with (idx := m) as (s2 & Es2 & Hs2);
        [exact Hne | exact Hs1 | exact Hm | exact Hmr | apply reps_app_fresh_nil |].
      step Es2. rewrite !app_nil_l in Hs2.
      assert (Esub : forall I, sel I (fst c - Z.of_nat (length m), snd c - Z.of_nat (length m))
                               = sel I c - Z.of_nat (length m)) by (intros []; reflexivity).
      rewrite !Esub. fold cm cM.
      destruct (Z.ltb_spec (cM - Z.of_nat (length m)) (Z.of_nat (length U))) as [HC1|HC1].
      - rewrite !randperm_firstn by lia. rewrite pyslice_firstn by lia.
        destruct (draw U 3 (Z.to_nat (Z.of_nat (length U)))) as (full & Hfp & Hg); [lia|exact HU|].
        rewrite Hg; cbn [bind].
        set (k1 := Nat.min (Z.to_nat (cm - Z.of_nat (length m))) (Z.to_nat (cM - Z.of_nat (length m)))) in *.
        destruct (perm_firstn_facts full U k1 Hfp HU) as (F1 & F2 & F3 & _).
        destruct (perm_firstn_facts full U (Z.to_nat (cM - Z.of_nat (length m))) Hfp HU) as (G1 & G2 & G3 & _).
        edestruct mark_min with (idx := firstn k1 full) as (s3 & Es3 & Hs3);
          [exact Hne | exact Hs2 | exact F1 | intros i Hi; apply HUr, F2, Hi | intros i Hi; apply HUm, F2, Hi |].
        step Es3. rewrite Hg; cbn [bind].
        edestruct mark_max with (idx := firstn (Z.to_nat (cM - Z.of_nat (length m))) full) as (s4 & Es4 & Hs4);
          [exact Hne | exact Hs3 | exact G1 | intros i Hi; apply HUr, G2, Hi | intros i Hi; apply HUm, G2, Hi |].
        step Es4.
        do 6 eexists. split; [reflexivity|]. split; [exact HM|]. split; [exact HMover|].
        split; [exact Hm|]. split; [exact Hmover|]. split; [exact Hs4|].
        split. { apply incl_app_app; [intros i Hi; exact Hi|]. apply incl_firstn_le; lia. }
        split. { apply incl_app; [exact HmM|]. intros i Hi; apply HUM, G2, Hi. }
        assert (Ez : forall I, sel I (0, 0) = 0) by (intros []; reflexivity).
        rewrite !Ez, !app_length, F3, G3. fold cm cM.
        split; [lia|]. split; [lia|]. split; [lia|]. split; [lia|]. split; intro Hd; split; lia.
      - assert (Hstep : exists s3 Lmin,
          (if 0 <? cm - Z.of_nat (length m) then
             do inds <- gather U (randperm perm 4 (Z.to_nat (Z.of_nat (length U))) (cm - Z.of_nat (length m)));
             mark Imin inds s2
           else Ok s2) = Ok s3 /\
          st N Imin Imax s3 Lmin m /\ incl Lmin (m ++ U) /\ Z.of_nat (length Lmin) = cm).
        { destruct (Z.ltb_spec 0 (cm - Z.of_nat (length m))) as [Hcm|Hcm].
          - rewrite randperm_firstn by lia.
            destruct (draw U 4 (Z.to_nat (Z.of_nat (length U)))) as (full & Hfp & Hg); [lia|exact HU|].
            rewrite Hg; cbn [bind].
            destruct (perm_firstn_facts full U (Z.to_nat (cm - Z.of_nat (length m))) Hfp HU) as (F1 & F2 & F3 & _).
            edestruct mark_min with (idx := firstn (Z.to_nat (cm - Z.of_nat (length m))) full) as (s3 & Es3 & Hs3);
              [exact Hne | exact Hs2 | exact F1 | intros i Hi; apply HUr, F2, Hi | intros i Hi; apply HUm, F2, Hi |].
            rewrite Es3. do 2 eexists; split; [reflexivity|]; split; [exact Hs3|].
            split; [apply incl_app_app; [intros i Hi; exact Hi|exact F2]|]. rewrite app_length, F3; lia.
          - do 2 eexists; split; [reflexivity|]; split; [exact Hs2|].
            split; [intros i Hi; apply in_app_iff; left; exact Hi|]. lia. }
        destruct Hstep as (s3 & Lmin & Es3 & Hs3 & HLm & HLlen). step Es3.
        rewrite !sel_upd_other by exact Hne. rewrite Esub. fold cM.
        edestruct mark_max with (idx := U) as (s4 & Es4 & Hs4);
          [exact Hne | exact Hs3 | exact HU | exact HUr | exact HUm |].
        step Es4.
        do 6 eexists. split; [reflexivity|]. split; [exact HM|]. split; [exact HMover|].
        split; [exact Hm|]. split; [exact Hmover|]. split; [exact Hs4|].
        split; [exact HLm|].
        split; [apply incl_app; assumption|].
        rewrite !sel_upd_same. rewrite !sel_upd_other by congruence. rewrite !sel_upd_same.
        fold cm cM. rewrite app_length.
        split; [lia|]. split; [lia|]. split; [lia|]. split; [lia|].
        split; intro Hd; split; try lia. intros _; exact HmUM. }
    { (* case D: 668 *)
      edestruct mark_min with (idx := M) as (s1 & Es1 & Hs1);
        [exact Hne | exact Hst0 | exact HM | exact HMr | apply reps_app_fresh_nil |].
      step Es1.
      edestruct mark_max with (idx := M) as (s2 & Es2 & Hs2);
        [exact Hne | exact Hs1 | exact HM | exact HMr | apply reps_app_fresh_nil |].
      step Es2. rewrite !app_nil_l in Hs2.
      do 6 eexists. split; [reflexivity|]. split; [exact HM|]. split; [exact HMover|].
      split; [exact Hm|]. split; [exact Hmover|]. split; [exact Hs2|].
      split; [apply incl_refl|]. split; [apply incl_refl|].
      assert (Esub : forall I, sel I (fst c - Z.of_nat (length M), snd c - Z.of_nat (length M))
                               = sel I c - Z.of_nat (length M)) by (intros []; reflexivity).
      rewrite !Esub. fold cm cM.
      split; [lia|]. split; [lia|]. split; [intros _; apply incl_refl|]. split; [lia|].
      split; intro Hd; split; try lia. intros _; apply incl_refl. }
  Qed.
End Overlap.

(** ** Filling free subcolumns *)

Lemma cnt_np_not l : (cnt (np_not l) + cnt l = length l)%nat.
Proof.
  induction l as [|b l IH]; [reflexivity|].
  unfold np_not in *; simpl map. rewrite !cnt_cons. destruct b; simpl; lia.
Qed.

Lemma avail_list (conv : list bool) :
  exists V, NoDup V /\ (forall i, In i V <-> (i < length conv)%nat /\ nth i conv false = false) /\
            Z.of_nat (length V) = avail conv.
Proof.
  exists (argwhere (np_not conv)). split; [apply NoDup_argwhere|]. split.
  - intro i. rewrite in_argwhere. destruct (le_lt_dec (length conv) i) as [H|H].
    + rewrite nth_overflow by (rewrite length_np_not; exact H). split; [discriminate|lia].
    + rewrite nth_np_not, negb_true_iff by exact H. tauto.
  - rewrite length_argwhere. unfold avail. pose proof (cnt_np_not conv); lia.
Qed.

Lemma fill_ok N Imin Imax c conv s Lmin Lmax perm :
  Imin <> Imax -> (forall site n, is_perm (perm site n) n) ->
  length conv = N -> st N Imin Imax s Lmin Lmax -> incl Lmin Lmax ->
  0 <= sel Imin c -> 0 <= sel Imax c ->
  (forall i, In i Lmax -> nth i conv false = false) ->
  exists s' full,
    strat_fill Imin Imax c conv s perm = Ok s' /\
    NoDup full /\ (forall i, In i full -> (i < N)%nat /\ ~ In i Lmax /\ nth i conv false = false) /\
    Z.of_nat (length full) = avail conv - Z.of_nat (length Lmax) /\
    st N Imin Imax s' (Lmin ++ firstn (Nat.min (Z.to_nat (sel Imin c)) (Z.to_nat (sel Imax c))) full)
                      (Lmax ++ firstn (Z.to_nat (sel Imax c)) full).
Proof.
  intros Hne Hperm Hconv Hst HLL Hm HM Hfree. unfold strat_fill.
  assert (HlM : length (sel Imax s) = N) by (apply length_sel; apply Hst).
  assert (HrM : reps (sel Imax s) Lmax) by apply Hst.
  destruct (zipb_notnot (sel Imax s) conv) as (fr & E & Hlf & Hf); [congruence|].
  assert (HF : forall i, In i (argwhere fr) <-> ((i < N)%nat /\ ~ In i Lmax /\ nth i conv false = false)).
  { intro i; rewrite in_argwhere, Hf, HlM. destruct HrM as [_ HrM]. rewrite <- HrM.
    destruct (nth i (sel Imax s) false); intuition congruence. }
  pose proof (NoDup_argwhere fr) as HnF.
  assert (HlenF : Z.of_nat (length (argwhere fr)) = avail conv - Z.of_nat (length Lmax)).
  { destruct (avail_list conv) as (V & HV & HVi & HVl). rewrite <- HVl.
    assert (Permutation (argwhere fr ++ Lmax) V) as HP.
    { apply NoDup_Permutation; [|exact HV|].
      - apply NoDup_app_intro; [exact HnF|apply HrM|]. intros x Hx; apply HF in Hx; tauto.
      - intro x; rewrite in_app_iff, HF, HVi, Hconv. split.
        + intros [H|H]; [tauto|]. split; [|apply Hfree, H].
          destruct HrM as [_ HrM]. apply HrM in H. apply nth_true_lt in H. lia.
        + intros [H1 H2]. destruct (in_dec Nat.eq_dec x Lmax); tauto. }
    apply Permutation_length in HP. rewrite app_length in HP. lia. }
  set (F := argwhere fr) in *.
  rewrite !Z.gtb_ltb.
  destruct (gather_perm F (perm 5%nat (length F)) (Hperm _ _)) as (full & Hfp & Hg).
  assert (Hfn : NoDup full) by (eapply Permutation_NoDup; [symmetry; exact Hfp|exact HnF]).
  assert (Hfi : forall i, In i full -> (i < N)%nat /\ ~ In i Lmax /\ nth i conv false = false).
  { intros i Hi. apply HF. eapply Permutation_in; eassumption. }
  assert (Hfl : length full = length F) by (apply Permutation_length; exact Hfp).
  destruct (Z.ltb_spec 0 (sel Imax c)) as [HcM|HcM].
  - step E. cbv zeta. fold F. rewrite randperm_firstn by lia. rewrite Hg; cbn [bind].
    destruct (perm_firstn_facts full F (Z.to_nat (sel Imax c)) Hfp HnF) as (F1 & F2 & F3 & _).
    edestruct mark_max with (idx := firstn (Z.to_nat (sel Imax c)) full) as (s2 & Es2 & Hs2);
      [exact Hne | exact Hst | exact F1 | intros i Hi; apply HF, F2, Hi
      | intros i Hi; apply (HF i), F2, Hi |].
    step Es2.
    destruct (Z.ltb_spec 0 (sel Imin c)) as [Hcm|Hcm].
    + rewrite pyslice_firstn by lia. rewrite Hg; cbn [bind].
      destruct (perm_firstn_facts full F (Nat.min (Z.to_nat (sel Imin c)) (Z.to_nat (sel Imax c))) Hfp HnF)
        as (G1 & G2 & G3 & _).
      edestruct mark_min with (idx := firstn (Nat.min (Z.to_nat (sel Imin c)) (Z.to_nat (sel Imax c))) full)
        as (s3 & Es3 & Hs3);
        [exact Hne | exact Hs2 | exact G1 | intros i Hi; apply HF, G2, Hi
        | intros i Hi Hx; apply HLL in Hx; revert Hx; apply (HF i), G2, Hi |].
      rewrite Es3. exists s3, full. repeat split; auto; try apply Hfi; auto; try lia; apply Hs3.
    + exists s2, full. replace (Nat.min (Z.to_nat (sel Imin c)) (Z.to_nat (sel Imax c))) with 0%nat by lia.
      rewrite firstn_O, app_nil_r. repeat split; auto; try apply Hfi; auto; try lia; apply Hs2.
  - exists s, full. replace (Z.to_nat (sel Imax c)) with 0%nat by lia. rewrite Nat.min_0_r.
    rewrite !firstn_O, !app_nil_r. repeat split; auto; try apply Hfi; auto; try lia; apply Hst.
Qed.

