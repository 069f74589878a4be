(** Proofs about [set_q_n] and [distribute_level] (model in [Gen_Model]). *)
From Verif Require Import Gen_Facts Strat_Api Precip_Api Strat_Corol QN_Spec.
From Coq Require Import Lqa ZifyBool ZifyNat.
Local Open Scope nat_scope.

(** ** Assigning values at distinct indices *)

Definition upd (acc : list xq) (iv : nat * xq) : list xq :=
  firstn (fst iv) acc ++ snd iv :: skipn (S (fst iv)) acc.

Lemma length_upd acc iv : fst iv < length acc -> length (upd acc iv) = length acc.
Proof.
  intro H. unfold upd. rewrite app_length. cbn [length]. rewrite firstn_length, skipn_length. lia.
Qed.

Definition qsum (l : list Q) : Q := fold_right Qplus 0%Q l.

Lemma qsum_app a b : (qsum (a ++ b) == qsum a + qsum b)%Q.
Proof. induction a as [|x a IH]; simpl; [ring|]. rewrite IH. ring. Qed.

(** Lists of finite values. *)
Lemma upd_fin qs k q : upd (map Fin qs) (k, Fin q) = map Fin (firstn k qs ++ q :: skipn (S k) qs).
Proof. unfold upd. cbn [fst snd]. rewrite map_app, firstn_map. cbn [map]. rewrite skipn_map. reflexivity. Qed.

Lemma qsum_upd qs k q : k < length qs ->
  (qsum (firstn k qs ++ q :: skipn (S k) qs) == qsum qs - nth k qs 0 + q)%Q.
Proof.
  revert k; induction qs as [|x qs IH]; intros k H; simpl in H; [lia|].
  destruct k as [|k]; simpl; [ring|]. simpl in IH. rewrite IH by lia. ring.
Qed.

Lemma nth_updq qs k q i : k < length qs ->
  nth i (firstn k qs ++ q :: skipn (S k) qs) 0%Q = if Nat.eqb i k then q else nth i qs 0%Q.
Proof.
  revert k i; induction qs as [|x qs IH]; intros k i H; simpl in H; [lia|].
  destruct k as [|k].
  - destruct i; reflexivity.
  - destruct i as [|i]; [reflexivity|]. cbn [firstn app nth Nat.eqb]. apply (IH k i). lia.
Qed.

Lemma set_vals_fin qs idx vs :
  length vs = length idx -> NoDup idx -> (forall i, In i idx -> i < length qs) ->
  (forall i, In i idx -> nth i qs 0%Q = 0%Q) ->
  exists qs', set_vals (map Fin qs) idx (map Fin vs) = Ok (map Fin qs') /\ length qs' = length qs /\
    (qsum qs' == qsum qs + qsum vs)%Q /\
    (forall i, ~ In i idx -> nth i qs' 0%Q = nth i qs 0%Q) /\
    (forall k, k < length idx -> nth (nth k idx 0) qs' 0%Q = nth k vs 0%Q).
Proof.
  intros Hl Hn Hlt Hz. unfold set_vals.
  assert (E : forallb (fun i => i <? length (map Fin qs)) idx = true).
  { apply forallb_forall. intros i Hi. rewrite map_length. apply Nat.ltb_lt, Hlt, Hi. }
  rewrite E. clear E. change (fun acc iv => firstn (fst iv) acc ++ snd iv :: skipn (S (fst iv)) acc) with upd.
  revert qs vs Hl Hlt Hz. induction idx as [|k idx IH]; intros qs [|v vs] Hl Hlt Hz; simpl in Hl; try discriminate.
  - exists qs. simpl. split; [reflexivity|]. split; [reflexivity|]. split; [ring|]. split; [reflexivity|]. intros; lia.
  - inversion_clear Hn as [|? ? Hk Hn']. simpl combine. simpl fold_left. rewrite upd_fin.
    assert (Hkl : k < length qs) by (apply Hlt; left; reflexivity).
    destruct (IH Hn' (firstn k qs ++ v :: skipn (S k) qs) vs) as (qs' & E & L & Sm & A & B).
    + congruence.
    + intros i Hi. rewrite app_length. cbn [length]. rewrite firstn_length, skipn_length.
      specialize (Hlt i (or_intror Hi)). lia.
    + intros i Hi. rewrite nth_updq by exact Hkl. destruct (Nat.eqb_spec i k); [congruence|]. apply Hz; right; exact Hi.
    + exists qs'. split; [exact E|]. split.
      { rewrite L, app_length. cbn [length]. rewrite firstn_length, skipn_length. lia. }
      split. { rewrite Sm, qsum_upd by exact Hkl. rewrite (Hz k (or_introl eq_refl)). simpl. ring. }
      split.
      * intros i Hi. rewrite A by (intro X; apply Hi; right; exact X). rewrite nth_updq by exact Hkl.
        destruct (Nat.eqb_spec i k) as [->|]; [exfalso; apply Hi; left; reflexivity|reflexivity].
      * intros [|k0] Hk0; simpl in *; [|apply B; lia].
        rewrite A by exact Hk. rewrite nth_updq by exact Hkl. rewrite Nat.eqb_refl. reflexivity.
Qed.

(** ** The search for a valid truncation *)

Lemma xsum_fin qs : exists s, xsum (map Fin qs) = Fin s /\ (s == qsum qs)%Q.
Proof.
  induction qs as [|x qs (s & E & H)]; simpl; [exists 0%Q; split; reflexivity|].
  rewrite E. simpl. eexists; split; [reflexivity|]. simpl. rewrite H. reflexivity.
Qed.

Lemma valid_fin tot qs : xgt (xsub (Fin tot) (xsum (map Fin qs))) (Fin 0) = true <-> (qsum qs < tot)%Q.
Proof.
  destruct (xsum_fin qs) as (s & E & H). rewrite E. unfold xsub, xneg, xadd, xgt. rewrite Qlt_bool_iff.
  rewrite <- H. split; intro; lra.
Qed.

Lemma find_valid_ok fuel k tot gs : 1 <= k -> fuel + k = S (length gs) ->
  (0 < tot)%Q -> exists k', find_valid fuel k (Fin tot) (map Fin gs) = Ok k' /\ k <= k' <= length gs + (if Nat.eqb fuel 0 then 1 else 0)
   /\ (qsum (firstn (length gs - k') gs) < tot)%Q \/ fuel = 0.
Proof.
  revert k; induction fuel as [|fuel IH]; intros k Hk Hf Ht; [exists 0; right; reflexivity|].
  cbn [find_valid]. rewrite map_length, firstn_map.
  destruct (xgt _ _) eqn:E.
  - exists k. left. split; [reflexivity|]. apply valid_fin in E. split; [simpl; lia|exact E].
  - destruct fuel as [|fuel].
    + exfalso. replace (length gs - k) with 0 in E by lia. simpl in E.
      assert (X : xgt (xsub (Fin tot) (xsum (map Fin []))) (Fin 0) = true) by (apply valid_fin; exact Ht).
      simpl in X. congruence.
    + destruct (IH (S k)) as (k' & [(E1 & E2 & E3)|E1]); try lia; [exact Ht|].
      exists k'. left. split; [exact E1|]. split; [simpl in *; lia|exact E3].
Qed.

Lemma find_valid_hang fuel k tot gs : (tot <= 0)%Q -> (forall x, In x gs -> (0 <= x)%Q) ->
  find_valid fuel k (Fin tot) (map Fin gs) = Raise Hang.
Proof.
  intros Ht Hg. revert k; induction fuel as [|fuel IH]; intro k; [reflexivity|].
  cbn [find_valid]. rewrite map_length, firstn_map.
  destruct (xgt _ _) eqn:E; [|apply IH]. exfalso. apply valid_fin in E.
  assert (G : forall l, (forall x, In x l -> (0 <= x)%Q) -> (0 <= qsum l)%Q).
  { induction l as [|x l IHl]; intro H; simpl; [lra|]. pose proof (H x (or_introl eq_refl)).
    assert ((0 <= qsum l)%Q) by (apply IHl; intros; apply H; right; assumption). lra. }
  pose proof (G (firstn (length gs - k) gs)) as G1.
  assert ((0 <= qsum (firstn (length gs - k) gs))%Q) by (apply G1; intros x Hx; apply Hg; eapply In_firstn; exact Hx).
  lra.
Qed.

Lemma qsum_const {A} (l : list A) (c : Q) : (qsum (map (fun _ => c) l) == inject (length l) * c)%Q.
Proof.
  induction l as [|x l IH]; simpl; [change (inject 0) with 0%Q; ring|].
  rewrite IH. unfold inject. rewrite Nat2Z.inj_succ. unfold Z.succ. rewrite inject_Z_plus. change (inject_Z 1) with 1%Q. ring.
Qed.

Lemma inject_pos n : 1 <= n -> (0 < inject n)%Q.
Proof. intro H. unfold inject. change 0%Q with (inject_Z 0). rewrite <- Zlt_Qlt. lia. Qed.

Lemma map_fin_repeat n : repeat (Fin 0) n = map Fin (repeat 0%Q n).
Proof. induction n; simpl; congruence. Qed.

Lemma qsum_zero n : (qsum (repeat 0%Q n) == 0)%Q.
Proof. induction n as [|n IH]; simpl; [reflexivity|]. rewrite IH. ring. Qed.

Lemma nth_zero n i : nth i (repeat 0%Q n) 0%Q = 0%Q.
Proof. revert i; induction n as [|n IH]; intros [|i]; simpl; auto. Qed.

(** One level of the variable distribution that returns. *)
Lemma distribute_level_ok N fl mq perm gs : length fl = N -> is_perm (perm (occ fl)) (occ fl) ->
  length gs = occ fl -> (forall x, In x gs -> (0 <= x)%Q) -> (0 <= mq)%Q ->
  (2 <= occ fl -> (0 < mq)%Q) ->
  exists qs, distribute_level N fl (Fin mq) perm (map Fin gs) = Ok (map Fin qs) /\ length qs = N /\
    (qsum qs == mq * inject (occ fl))%Q /\ (forall i, (0 <= nth i qs 0)%Q) /\
    (forall i, ~ flagged fl i -> nth i qs 0%Q = 0%Q).
Proof.
  intros HN Hp Hg Hpos Hm Hm2. unfold distribute_level. rewrite length_argwhere, map_fin_repeat.
  assert (Hloc : forall i, In i (argwhere fl) -> i < N).
  { intros i Hi. apply in_argwhere in Hi. apply nth_true_lt in Hi. lia. }
  destruct (Nat.eqb_spec (occ fl) 1) as [E1|E1].
  - pose proof (length_argwhere fl) as Hl. rewrite E1 in Hl.
    rewrite <- (map_map (fun _ => mq) Fin).
    destruct (set_vals_fin (repeat 0%Q N) (argwhere fl) (map (fun _ => mq) (argwhere fl))) as (qs & E & L & Sm & A & B).
    + apply map_length.
    + apply NoDup_argwhere.
    + rewrite repeat_length. exact Hloc.
    + intros; apply nth_zero.
    + exists qs. split; [exact E|]. rewrite repeat_length in L. split; [exact L|]. split.
      { rewrite Sm, qsum_zero, qsum_const. rewrite Hl, E1. ring. }
      split.
      * intro i. destruct (in_dec Nat.eq_dec i (argwhere fl)) as [Hi|Hi].
        -- destruct (In_nth _ _ 0 Hi) as (k & Hk & <-). rewrite B by exact Hk.
           rewrite (nth_indep _ 0%Q mq) by (rewrite map_length; exact Hk). rewrite (map_nth (fun _ => mq) (argwhere fl) 0 k). exact Hm.
        -- rewrite A by exact Hi. rewrite nth_zero. lra.
      * intros i Hi. rewrite A by (intro X; apply in_argwhere in X; contradiction). apply nth_zero.
  - destruct (Nat.ltb_spec 1 (occ fl)) as [E2|E2].
    + specialize (Hm2 ltac:(lia)).
      destruct (find_valid_ok (occ fl) 1 (mq * inject (occ fl))%Q gs) as (k & [(Ek & Hk & Hs)|Hk]); try lia.
      { apply Qmult_lt_0_compat; [exact Hm2|apply inject_pos; lia]. }
      change (xmul (Fin mq) (xnat (occ fl))) with (Fin (mq * inject (occ fl))).
      rewrite Ek. cbn [bind]. rewrite map_length, firstn_map, Hg in *.
      destruct (Nat.eqb_spec (occ fl) 0) as [|_]; [lia|].
      assert (Hpl : length (perm (occ fl)) = occ fl) by (rewrite (Permutation_length Hp); apply seq_length).
      rewrite Hpl.
      assert (Hpr : forall r, In r (perm (occ fl)) -> r < length (argwhere fl)).
      { intros r Hr. apply (Permutation_in _ Hp) in Hr. apply in_seq in Hr. rewrite length_argwhere. lia. }
      rewrite gather_all by (intros r Hr; apply Hpr; eapply In_firstn; exact Hr).
      assert (Hsk : forall r, In r (skipn (occ fl - k) (perm (occ fl))) -> In r (perm (occ fl))).
      { intros r Hr. rewrite <- (firstn_skipn (occ fl - k)). apply in_or_app; right; exact Hr. }
      rewrite (gather_all _ (skipn _ _)) by (intros r Hr; apply Hpr, Hsk, Hr).
      cbn [bind]. set (g := fun r => nth r (argwhere fl) 0).
      set (i1 := map g (firstn (occ fl - k) (perm (occ fl)))). set (i2 := map g (skipn (occ fl - k) (perm (occ fl)))).
      assert (Hfull : Permutation (i1 ++ i2) (argwhere fl)).
      { unfold i1, i2. rewrite <- map_app, firstn_skipn. etransitivity; [apply Permutation_map, Hp|].
        rewrite <- (length_argwhere fl). unfold g. rewrite (map_nth_seq (argwhere fl) 0). reflexivity. }
      assert (Hnd : NoDup (i1 ++ i2)).
      { eapply Permutation_NoDup; [symmetry; exact Hfull|apply NoDup_argwhere]. }
      assert (Hin : forall i, In i i1 \/ In i i2 -> In i (argwhere fl)).
      { intros i Hi. eapply Permutation_in; [exact Hfull|]. apply in_or_app, Hi. }
      assert (L1 : length i1 = occ fl - k) by (unfold i1; rewrite map_length, firstn_length; lia).
      assert (L2 : length i2 = k) by (unfold i2; rewrite map_length, skipn_length; lia).
      assert (D : forall i, In i i1 -> ~ In i i2).
      { clear - Hnd. clearbody i1 i2. intros i A B. induction i1 as [|x l IH]; [contradiction|].
        inversion_clear Hnd as [|? ? Hx Hn]. destruct A as [->|A]; [apply Hx, in_or_app; right; exact B|auto]. }
      destruct (set_vals_fin (repeat 0%Q N) i1 (firstn (occ fl - k) gs)) as (p & Ep & Lp & Sp & Ap & Bp).
      { rewrite L1, firstn_length. lia. }
      { clear - Hnd. clearbody i1 i2. induction i1 as [|x l IH]; [constructor|].
        inversion_clear Hnd as [|? ? Hx Hn]. constructor; [intro X; apply Hx, in_or_app; left; exact X|auto]. }
      { intros i Hi. rewrite repeat_length. apply Hloc, Hin; left; exact Hi. }
      { intros; apply nth_zero. }
      rewrite Ep. cbn [bind]. destruct (xsum_fin (firstn (occ fl - k) gs)) as (s & Es & Hss).
      set (hs := firstn (occ fl - k) gs) in *. rewrite Es.
      set (rest := ((mq * inject (occ fl) + - s) / inject k)%Q).
      assert (Hkp : (0 < inject k)%Q) by (apply inject_pos; lia).
      assert (Hr : xdiv (xsub (Fin (mq * inject (occ fl))) (Fin s)) (xnat k) = Fin rest).
      { unfold xsub, xneg, xadd, xnat. rewrite xdiv_fin; [reflexivity|]. unfold inject in Hkp. lra. }
      rewrite Hr. rewrite <- (map_map (fun _ => rest) Fin).
      destruct (set_vals_fin p i2 (map (fun _ => rest) i2)) as (qs & Eq & Lq & Sq & Aq & Bq).
      { apply map_length. }
      { clear - Hnd. clearbody i1 i2. induction i1 as [|x l IH]; [exact Hnd|]. inversion_clear Hnd; auto. }
      { intros i Hi. rewrite Lp, repeat_length. apply Hloc, Hin; right; exact Hi. }
      { intros i Hi. rewrite Ap by (intro X; exact (D i X Hi)). apply nth_zero. }
      exists qs. split; [exact Eq|]. split; [rewrite Lq, Lp, repeat_length; reflexivity|].
      assert (Hrest : (inject k * rest == mq * inject (occ fl) - qsum hs)%Q).
      { unfold rest. rewrite Hss. field. lra. }
      split. { rewrite Sq, Sp, qsum_zero, qsum_const, L2, Hrest. ring. }
      assert (Hrp : (0 <= rest)%Q).
      { apply Qlt_le_weak. unfold rest. apply Qlt_shift_div_l; [exact Hkp|]. rewrite Hss. lra. }
      split.
      * intro i. destruct (in_dec Nat.eq_dec i i2) as [Hi|Hi].
        -- destruct (In_nth _ _ 0 Hi) as (n & Hn & <-). rewrite Bq by exact Hn.
           rewrite (nth_indep _ 0%Q rest) by (rewrite map_length; exact Hn). rewrite (map_nth (fun _ => rest) i2 0 n). exact Hrp.
        -- rewrite Aq by exact Hi. destruct (in_dec Nat.eq_dec i i1) as [Hi1|Hi1].
           ++ destruct (In_nth _ _ 0 Hi1) as (n & Hn & <-). rewrite Bp by exact Hn.
              apply Hpos. eapply In_firstn. apply nth_In. unfold hs. rewrite firstn_length. lia.
           ++ rewrite Ap by exact Hi1. rewrite nth_zero. lra.
      * intros i Hi. assert (Hni : ~ In i (argwhere fl)) by (intro X; apply in_argwhere in X; contradiction).
        rewrite Aq by (intro X; apply Hni, Hin; right; exact X).
        rewrite Ap by (intro X; apply Hni, Hin; left; exact X). apply nth_zero.
    + assert (E0 : occ fl = 0) by lia. exists (repeat 0%Q N). split; [reflexivity|].
      split; [apply repeat_length|]. split; [rewrite qsum_zero, E0; change (inject 0) with 0%Q; ring|].
      split; intros; rewrite nth_zero; [lra|reflexivity].
Qed.

(** A level on which the search never ends. *)
Lemma distribute_level_hang N fl mq perm gs : (forall x, In x gs -> (0 <= x)%Q) ->
  2 <= occ fl -> (mq == 0)%Q -> distribute_level N fl (Fin mq) perm (map Fin gs) = Raise Hang.
Proof.
  intros Hg H2 Hm. unfold distribute_level. rewrite length_argwhere.
  destruct (Nat.eqb_spec (occ fl) 1); [lia|]. destruct (Nat.ltb_spec 1 (occ fl)); [|lia].
  change (xmul (Fin mq) (xnat (occ fl))) with (Fin (mq * inject (occ fl))).
  rewrite find_valid_hang; [reflexivity| |exact Hg]. rewrite Hm. lra.
Qed.
