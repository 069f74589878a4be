(** Counts: lidar cloud fraction and CFADs. *)
From Verif Require Import Np Xr Xr_Facts Mom_Spec Stat_Model Stat_Spec Stat_Facts.
Local Open Scope R_scope.

Lemma howmany_app p a b : howmany p (a ++ b) = (howmany p a + howmany p b)%nat.
Proof. unfold howmany. rewrite filter_app, app_length. reflexivity. Qed.

Lemma howmany_number p (P : nat -> Prop) f n : (forall i, p (f i) = true <-> P i) ->
  number P n (howmany p (map f (seq 0 n))).
Proof.
  intros h. induction n as [|n IH]; [reflexivity|]. rewrite seq_S, map_app, howmany_app.
  replace (howmany p (map f [(0 + n)%nat])) with (if p (f n) then 1 else 0)%nat
    by (unfold howmany; simpl; destruct (p (f n)); reflexivity).
  destruct (p (f n)) eqn:E.
  - left. split; [apply h; exact E|]. exists (howmany p (map f (seq 0 n))). split; [lia|exact IH].
  - right. split; [rewrite <- h, E; discriminate|]. rewrite Nat.add_0_r. exact IH.
Qed.
Lemma number_unique P n : forall c d, number P n c -> number P n d -> c = d.
Proof.
  induction n as [|n IH]; intros c d; simpl; [congruence|].
  intros [[p (c' & -> & C)]|[p C]] [[q (d' & -> & D)]|[q D]]; try contradiction.
  - f_equal. apply IH; assumption.
  - apply IH; assumption.
Qed.
Lemma number_le P n : forall c, number P n c -> (c <= n)%nat.
Proof.
  induction n as [|n IH]; intros c; simpl; [lia|].
  intros [[p (c' & -> & C)]|[p C]]; specialize (IH _ C); lia.
Qed.
Lemma number_mono (P Q : nat -> Prop) n : (forall i, P i -> Q i) -> forall c d, number P n c -> number Q n d -> (c <= d)%nat.
Proof.
  intros h. induction n as [|n IH]; intros c d; simpl; [lia|].
  intros [[p (c' & -> & C)]|[p C]] [[q (d' & -> & D)]|[q D]]; try (specialize (IH _ _ C D); lia).
  exfalso. apply q, h, p.
Qed.
Lemma number_exists (P : nat -> Prop) n : (forall i, P i \/ ~ P i) -> exists c, number P n c.
Proof.
  intros h. induction n as [|n [c IH]]; [exists O; reflexivity|].
  destruct (h n); [exists (S c)|exists c]; simpl; [left|right]; eauto.
Qed.
Lemma number_zero P n : number P n 0 <-> forall i, (i < n)%nat -> ~ P i.
Proof.
  induction n as [|n IH]; simpl; [split; [intros; lia|reflexivity]|]. split.
  - intros [[p (c' & E & C)]|[p C]]; [discriminate|]. intros i hi.
    destruct (Nat.eq_dec i n) as [->|]; [exact p|]. apply IH; [exact C|lia].
  - intros h. right. split; [apply h; lia|]. apply IH. intros; apply h; lia.
Qed.

Lemma exceeds_iff x a : xltb (XF a) x = true <-> exceeds x a.
Proof.
  unfold exceeds. destruct x as [r| | |].
  - rewrite xltb_fin. split; [intros; right; exists r; auto|]. intros [H|(r' & E & H)]; [discriminate|]. injection E as ->. exact H.
  - split; [discriminate|]. intros [H|(r' & E & H)]; discriminate.
  - split; [left; reflexivity|reflexivity].
  - split; [discriminate|]. intros [H|(r' & E & H)]; discriminate.
Qed.

Lemma lidar_cf_spec nsub sr t k c cldy ok :
  number (fun i => exceeds (sr i t k c) 5) nsub cldy ->
  number (fun i => exceeds (sr i t k c) (1 / 100)) nsub ok ->
  (ok = O -> lidar_CF nsub sr t k c = XNaN) /\
  (ok <> O -> lidar_CF nsub sr t k c = XF (INR cldy / INR ok) /\ 0 <= INR cldy / INR ok <= 1).
Proof.
  intros N1 N2. unfold lidar_CF, cf_cell.
  pose proof (howmany_number (fun x => xltb (XF 5) x) (fun i => exceeds (sr i t k c) 5) (fun i => sr i t k c) nsub
                ltac:(intros; apply exceeds_iff)) as H1.
  pose proof (howmany_number (fun x => xltb (XF (1 / 100)) x) (fun i => exceeds (sr i t k c) (1 / 100)) (fun i => sr i t k c) nsub
                ltac:(intros; apply exceeds_iff)) as H2.
  rewrite (number_unique _ _ _ _ H1 N1), (number_unique _ _ _ _ H2 N2).
  split.
  - intros ->. reflexivity.
  - intros hok. assert (hp : (0 < ok)%nat) by lia. rewrite (proj2 (Nat.ltb_lt 0 ok) hp).
    assert (hR : 0 < INR ok) by (apply lt_0_INR; exact hp).
    assert (hle : (cldy <= ok)%nat).
    { apply (number_mono _ _ nsub) with (2 := N1) (3 := N2). intros i [E|(r & E & h)]; [left; exact E|].
      right. exists r. split; [exact E|lra]. }
    apply le_INR in hle. pose proof (pos_INR cldy).
    split; [apply (f_equal XF); field; lra|]. split.
    + apply Rmult_le_pos; [lra|]. left. apply Rinv_0_lt_compat. exact hR.
    + apply (Rmult_le_reg_r (INR ok)); [exact hR|]. replace (INR cldy / INR ok * INR ok) with (INR cldy) by (field; lra). lra.
Qed.

(** *** CFADs *)
Lemma within_iff lo hi x : within (XF lo) (XF hi) x = true <-> in_bin lo hi x.
Proof.
  unfold within, in_bin. rewrite Bool.andb_true_iff. destruct x as [r| | |].
  - rewrite xleb_fin, xltb_fin. split; [intros []; exists r; auto|]. intros (r' & E & H). injection E as ->. exact H.
  - split; [intros [H _]; discriminate|intros (r' & E & H); discriminate].
  - split; [intros [_ H]; discriminate|intros (r' & E & H); discriminate].
  - split; [intros [H _]; discriminate|intros (r' & E & H); discriminate].
Qed.

Section Cfad.
Variables (rows nsub : nat) (es : list R) (a : nat -> nat -> xr) (k : nat).
Notation edges := (map XF es).
Notation bin j := (fun i => in_bin (nth j es 0) (nth (S j) es 0) (a i k)).
Notation range := (fun i => in_bin (hd 0 es) (last es 0) (a i k)).

Lemma edge_nth j : (j < length es)%nat -> nth j edges XNaN = XF (nth j es 0).
Proof. intros h. rewrite (nth_indep _ XNaN (XF 0)) by (rewrite map_length; exact h). apply map_nth. Qed.
Lemma edge_hd : es <> [] -> hd XNaN edges = XF (hd 0 es).
Proof. destruct es; [contradiction|reflexivity]. Qed.
Lemma edge_last : es <> [] -> last edges XNaN = XF (last es 0).
Proof.
  clear. induction es as [|x [|y l] IH]; intros h; [contradiction|reflexivity|].
  change (last (map XF (x :: y :: l)) XNaN) with (last (map XF (y :: l)) XNaN).
  change (last (x :: y :: l) 0) with (last (y :: l) 0). apply IH. discriminate.
Qed.

Lemma cfad_empty : es <> [] -> number range rows 0 -> forall j, cfad rows nsub edges a k j = XNaN.
Proof.
  intros he h0 j. unfold cfad. rewrite edge_hd, edge_last by exact he.
  pose proof (howmany_number (within (XF (hd 0 es)) (XF (last es 0))) range (fun i => a i k) rows
                ltac:(intros; apply within_iff)) as H.
  rewrite (number_unique _ _ _ _ H h0). reflexivity.
Qed.

Lemma cfad_entry n j c : es <> [] -> (0 < nsub)%nat -> number range rows n -> n <> O ->
  (S j < length es)%nat -> number (bin j) rows c ->
  cfad rows nsub edges a k j = XF (INR c / INR nsub).
Proof.
  intros he hn h0 hne hj hc. unfold cfad. rewrite edge_hd, edge_last by exact he.
  pose proof (howmany_number (within (XF (hd 0 es)) (XF (last es 0))) range (fun i => a i k) rows
                ltac:(intros; apply within_iff)) as H.
  rewrite (number_unique _ _ _ _ H h0). rewrite (proj2 (Nat.ltb_lt 0 n)) by lia.
  rewrite !edge_nth by lia.
  pose proof (howmany_number (within (XF (nth j es 0)) (XF (nth (S j) es 0))) (bin j) (fun i => a i k) rows
                ltac:(intros; apply within_iff)) as H'.
  rewrite (number_unique _ _ _ _ H' hc). assert (0 < INR nsub) by (apply lt_0_INR; exact hn).
  rewrite xdiv_fin by lra. apply (f_equal XF). field. lra.
Qed.

End Cfad.

Lemma number_or (P Q T : nat -> Prop) n : (forall i, ~ (P i /\ Q i)) -> (forall i, T i <-> P i \/ Q i) ->
  forall c d, number P n c -> number Q n d -> number T n (c + d).
Proof.
  intros hd hT. induction n as [|n IH]; intros c d; simpl; [lia|].
  intros [[p (c' & -> & C)]|[p C]] [[q (d' & -> & D)]|[q D]].
  - exfalso. apply (hd n). tauto.
  - left. split; [apply hT; tauto|]. exists (c' + d)%nat. split; [lia|apply IH; assumption].
  - left. split; [apply hT; tauto|]. exists (c + d')%nat. split; [lia|apply IH; assumption].
  - right. split; [rewrite hT; tauto|]. apply IH; assumption.
Qed.

Lemma in_bin_dec lo hi x : in_bin lo hi x \/ ~ in_bin lo hi x.
Proof. destruct (within (XF lo) (XF hi) x) eqn:E; [left; apply within_iff; exact E|right; rewrite <- within_iff, E; discriminate]. Qed.

Fixpoint sumN (c : nat -> nat) (n : nat) : nat := match n with O => O | S m => (sumN c m + c m)%nat end.
Lemma INR_sumN c n : INR (sumN c n) = sumR (fun j => INR (c j)) n.
Proof. induction n; simpl; [reflexivity|]. rewrite plus_INR, IHn. reflexivity. Qed.

(** The first [m] bins together are the bin from the first to the [m]-th edge. *)
Lemma bins_total rows es (v : nat -> xr) : increasing es -> forall m c, (m < length es)%nat ->
  (forall j, (j < m)%nat -> number (fun i => in_bin (nth j es 0) (nth (S j) es 0) (v i)) rows (c j)) ->
  number (fun i => in_bin (nth 0 es 0) (nth m es 0) (v i)) rows (sumN c m).
Proof.
  intros hi. induction m as [|m IH]; intros c hm hc.
  - simpl. apply number_zero. intros i _ (r & _ & h). lra.
  - simpl. apply (number_or (fun i => in_bin (nth 0 es 0) (nth m es 0) (v i)) (fun i => in_bin (nth m es 0) (nth (S m) es 0) (v i))).
    + intros i [(r & E & h) (r' & E' & h')]. rewrite E in E'. injection E' as <-. lra.
    + intros i. pose proof (hi m hm) as e1. pose proof (increasing_le es hi 0 m ltac:(lia) ltac:(lia)) as e2. split.
      * intros (r & E & h). destruct (Rlt_le_dec r (nth m es 0)); [left|right]; exists r; split; auto; lra.
      * intros [(r & E & h)|(r & E & h)]; exists r; split; auto; lra.
    + apply IH; [lia|]. intros; apply hc; lia.
    + apply hc. lia.
Qed.

Lemma hd_nth (es : list R) : hd 0 es = nth 0 es 0.
Proof. destruct es; reflexivity. Qed.
Lemma last_nth (es : list R) : es <> [] -> last es 0 = nth (length es - 1) es 0.
Proof.
  induction es as [|x [|y l] IH]; intros h; [contradiction|reflexivity|].
  change (last (x :: y :: l) 0) with (last (y :: l) 0). rewrite IH by discriminate. simpl. rewrite Nat.sub_0_r. reflexivity.
Qed.

Lemma choose_counts rows (P : nat -> nat -> Prop) m : (forall j i, P j i \/ ~ P j i) ->
  exists c : nat -> nat, forall j, (j < m)%nat -> number (P j) rows (c j).
Proof.
  intros h. induction m as [|m [c IH]]; [exists (fun _ => O); intros; lia|].
  destruct (number_exists (P m) rows (h m)) as [d D].
  exists (fun j => if (j =? m)%nat then d else c j). intros j hj.
  destruct (Nat.eqb_spec j m) as [->|]; [exact D|]. apply IH. lia.
Qed.

Definition real_or (d : R) (x : xr) : R := match x with XF r => r | _ => d end.

Lemma cfad_row rows nsub es a k n : increasing es -> (2 <= length es)%nat -> (0 < nsub)%nat ->
  number (fun i => in_bin (hd 0 es) (last es 0) (a i k)) rows n -> n <> O ->
  exists f, (forall j, (S j < length es)%nat -> cfad rows nsub (map XF es) a k j = XF (f j)) /\
    (forall j, (S j < length es)%nat -> exists c,
       number (fun i => in_bin (nth j es 0) (nth (S j) es 0) (a i k)) rows c /\ f j = INR c / INR nsub) /\
    sumR f (length es - 1) = INR n / INR nsub.
Proof.
  intros hi hl hs hn hne.
  assert (he : es <> []) by (intros ->; simpl in hl; lia).
  destruct (choose_counts rows (fun j i => in_bin (nth j es 0) (nth (S j) es 0) (a i k)) (length es - 1)
              ltac:(intros; apply in_bin_dec)) as [c C].
  exists (fun j => INR (c j) / INR nsub).
  assert (hR : 0 < INR nsub) by (apply lt_0_INR; exact hs).
  split; [|split].
  - intros j hj. apply (cfad_entry rows nsub es a k n j (c j)); auto. apply C. lia.
  - intros j hj. exists (c j). split; [apply C; lia|reflexivity].
  - pose proof (bins_total rows es (fun i => a i k) hi (length es - 1) c ltac:(lia) ltac:(intros; apply C; lia)) as T.
    rewrite hd_nth, last_nth in hn by exact he.
    rewrite (number_unique _ _ _ _ hn T), INR_sumN.
    unfold Rdiv at 1. rewrite (sumR_scal (/ INR nsub)). reflexivity.
Qed.

(** Averages over times: a level without any value in range counts as an
    empty row. *)
Lemma fillna_entry rows nsub es a k j c : increasing es -> (S j < length es)%nat -> (0 < nsub)%nat ->
  number (fun i => in_bin (nth j es 0) (nth (S j) es 0) (a i k)) rows c ->
  fillna 0 (cfad rows nsub (map XF es) a k j) = XF (INR c / INR nsub).
Proof.
  intros hi hj hs hc. assert (he : es <> []) by (intros ->; simpl in hj; lia).
  destruct (number_exists (fun i => in_bin (hd 0 es) (last es 0) (a i k)) rows ltac:(intros; apply in_bin_dec)) as [n N].
  destruct n as [|n].
  - rewrite cfad_empty by assumption. simpl.
    assert (c = O) as ->.
    { apply (number_unique _ _ _ _ hc). apply number_zero. intros i hr (r & E & h).
      apply (proj1 (number_zero _ _) N i hr). exists r. split; [exact E|].
      rewrite hd_nth, last_nth by exact he.
      pose proof (increasing_le es hi 0 j ltac:(lia) ltac:(lia)).
      pose proof (increasing_le es hi (S j) (length es - 1) ltac:(lia) ltac:(lia)). lra. }
    apply (f_equal XF). simpl. field. apply not_0_INR. lia.
  - rewrite (cfad_entry rows nsub es a k (S n) j c); auto.
Qed.

Lemma xsum_reals (f : nat -> R) n : xsum (map (fun t => XF (f t)) (seq 0 n)) = XF (sumR f n).
Proof.
  induction n as [|n IH]; [reflexivity|]. rewrite seq_S, map_app, xsum_app, IH. simpl.
  apply (f_equal XF). ring.
Qed.

Lemma alltime_entry np rows nsub es a k j (c : nat -> nat) : increasing es -> (S j < length es)%nat ->
  (0 < nsub)%nat -> (0 < np)%nat ->
  (forall t, (t < np)%nat -> number (fun i => in_bin (nth j es 0) (nth (S j) es 0) (a i t k)) rows (c t)) ->
  cfad_alltime np rows nsub (map XF es) a k j = XF (sumR (fun t => INR (c t) / INR nsub) np / INR np).
Proof.
  intros hi hj hs hp hc. unfold cfad_alltime.
  assert (E : map (fun t => fillna 0 (cfad rows nsub (map XF es) (fun i l => a i t l) k j)) (seq 0 np)
            = map (fun t => XF (INR (c t) / INR nsub)) (seq 0 np)).
  { apply map_ext_in. intros t ht. apply in_seq in ht. apply fillna_entry; auto. apply hc. lia. }
  rewrite E, xsum_reals. apply xdiv_fin. apply not_0_INR. lia.
Qed.

Lemma sumR_swap (f : nat -> nat -> R) m n :
  sumR (fun j => sumR (fun t => f j t) n) m = sumR (fun t => sumR (fun j => f j t) m) n.
Proof.
  induction m as [|m IH]; simpl; [symmetry; apply sumR_zero; reflexivity|]. rewrite IH.
  assert (SP : forall g h q, sumR (fun l => g l + h l) q = sumR g q + sumR h q).
  { intros g h q. induction q as [|q IHq]; simpl; [ring|]. rewrite IHq. ring. }
  rewrite SP. reflexivity.
Qed.

Lemma alltime_row np rows es a k : increasing es -> (2 <= length es)%nat -> (0 < rows)%nat -> (0 < np)%nat ->
  exists f, (forall j, (S j < length es)%nat ->
       cfad_alltime np rows rows (map XF es) a k j = XF (f j) /\ 0 <= f j) /\
    sumR f (length es - 1) <= 1.
Proof.
  intros hi hl hs hp.
  assert (he : es <> []) by (intros ->; simpl in hl; lia).
  assert (hR : 0 < INR rows) by (apply lt_0_INR; exact hs).
  assert (hP : 0 < INR np) by (apply lt_0_INR; exact hp).
  assert (CC : exists c : nat -> nat -> nat, forall t j, (t < np)%nat -> (j < length es - 1)%nat ->
     number (fun i => in_bin (nth j es 0) (nth (S j) es 0) (a i t k)) rows (c t j)).
  { clear hp hP. induction np as [|n [c IH]]; [exists (fun _ _ => O); intros; lia|].
    destruct (choose_counts rows (fun j i => in_bin (nth j es 0) (nth (S j) es 0) (a i n k)) (length es - 1)
              ltac:(intros; apply in_bin_dec)) as [d D].
    exists (fun t => if (t =? n)%nat then d else c t). intros t j ht hj.
    destruct (Nat.eqb_spec t n) as [->|]; [apply D; exact hj|]. apply IH; [lia|exact hj]. }
  destruct CC as [c C].
  exists (fun j => sumR (fun t => INR (c t j) / INR rows) np / INR np). split.
  - intros j hj. split.
    + apply alltime_entry; auto. intros t ht. apply C; lia.
    + apply Rmult_le_pos; [|left; apply Rinv_0_lt_compat; exact hP].
      apply sumR_nonneg. intros t _. apply Rmult_le_pos; [apply pos_INR|left; apply Rinv_0_lt_compat; exact hR].
  - unfold Rdiv at 1. rewrite (sumR_scal (/ INR np)). rewrite sumR_swap.
    assert (B : sumR (fun t => sumR (fun j => INR (c t j) / INR rows) (length es - 1)) np <= sumR (fun _ => 1) np).
    { apply sumR_le. intros t ht. unfold Rdiv. rewrite (sumR_scal (/ INR rows)), <- INR_sumN.
      pose proof (bins_total rows es (fun i => a i t k) hi (length es - 1) (c t) ltac:(lia) ltac:(intros; apply C; lia)) as T.
      apply number_le in T. apply le_INR in T.
      apply (Rmult_le_reg_r (INR rows)); [exact hR|].
      replace (INR (sumN (c t) (length es - 1)) * / INR rows * INR rows) with (INR (sumN (c t) (length es - 1))) by (field; lra).
      lra. }
    assert (O1 : sumR (fun _ => 1) np = INR np).
    { clear. induction np as [|n IH]; [reflexivity|]. rewrite S_INR, <- IH. reflexivity. }
    rewrite O1 in B. apply (Rmult_le_reg_r (INR np)); [exact hP|].
    match goal with |- ?x * / INR np * INR np <= _ => replace (x * / INR np * INR np) with x by (field; lra) end. lra.
Qed.

(** Subcolumns that are all exactly clear. *)
Lemma clear_cf nsub sr t k c : (0 < nsub)%nat -> (forall i, sr i t k c = XF 1) -> lidar_CF nsub sr t k c = XF 0.
Proof.
  intros hn h.
  assert (N1 : number (fun i => exceeds (sr i t k c) 5) nsub 0).
  { apply number_zero. intros i _ [E|(r & E & hr)]; rewrite h in E; [discriminate|]. injection E as <-. lra. }
  assert (N2 : number (fun i => exceeds (sr i t k c) (1 / 100)) nsub nsub).
  { clear hn N1. induction nsub as [|n IH]; [reflexivity|]. left. split; [|exists n; split; [reflexivity|exact IH]].
    right. exists 1. split; [apply h|lra]. }
  destruct (lidar_cf_spec nsub sr t k c 0 nsub N1 N2) as [_ H]. destruct (H ltac:(lia)) as [E _].
  rewrite E. apply (f_equal XF). simpl. field. apply not_0_INR. lia.
Qed.
