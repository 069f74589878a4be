(** Facts about the statistics model. *)
From Verif Require Import Np Xr Xr_Facts Mom_Spec Stat_Model Stat_Spec.
Local Open Scope R_scope.

Lemma sumR_front f n : sumR f (S n) = f O + sumR (fun p => f (S p)) n.
Proof. induction n as [|n IH]; [simpl; ring|]. change (sumR f (S (S n))) with (sumR f (S n) + f (S n)). rewrite IH. simpl. ring. Qed.
Lemma sumR_eq f g n : (forall p, (p < n)%nat -> f p = g p) -> sumR f n = sumR g n.
Proof. induction n as [|n IH]; intros h; [reflexivity|]. simpl. rewrite IH by (intros; apply h; lia). rewrite (h n) by lia. reflexivity. Qed.
Lemma sumR_zero f n : (forall p, (p < n)%nat -> f p = 0) -> sumR f n = 0.
Proof. induction n as [|n IH]; intros h; [reflexivity|]. simpl. rewrite IH by (intros; apply h; lia). rewrite (h n) by lia. ring. Qed.
Lemma sumR_split f a b : sumR f (a + b) = sumR f a + sumR (fun p => f (a + p)%nat) b.
Proof. induction b as [|b IH]; [rewrite Nat.add_0_r; simpl; ring|]. rewrite Nat.add_succ_r. simpl. rewrite IH. ring. Qed.
Lemma sumR_nonneg f n : (forall p, (p < n)%nat -> 0 <= f p) -> 0 <= sumR f n.
Proof. induction n as [|n IH]; intros h; simpl; [lra|]. pose proof (IH ltac:(intros; apply h; lia)). pose proof (h n ltac:(lia)). lra. Qed.
Lemma sumR_pos f n p : (forall q, (q < n)%nat -> 0 <= f q) -> (p < n)%nat -> 0 < f p -> 0 < sumR f n.
Proof.
  induction n as [|n IH]; intros h hp hf; [lia|]. simpl.
  destruct (Nat.eq_dec p n) as [->|].
  - pose proof (sumR_nonneg f n ltac:(intros; apply h; lia)). lra.
  - pose proof (IH ltac:(intros; apply h; lia) ltac:(lia) hf). pose proof (h n ltac:(lia)). lra.
Qed.
Lemma sumR_le f g n : (forall p, (p < n)%nat -> f p <= g p) -> sumR f n <= sumR g n.
Proof. induction n as [|n IH]; intros h; simpl; [lra|]. pose proof (IH ltac:(intros; apply h; lia)). pose proof (h n ltac:(lia)). lra. Qed.
Lemma sumR_scal c f n : sumR (fun p => f p * c) n = sumR f n * c.
Proof. induction n as [|n IH]; simpl; [ring|]. rewrite IH. ring. Qed.

Lemma wsum_acc ws f a : fold_left (fun a p => a + snd p * f (fst p)) ws a = a + wsum ws f.
Proof.
  unfold wsum. revert a. induction ws as [|[l w] ws IH]; intros a; simpl; [ring|].
  rewrite (IH (a + w * f l)), (IH (0 + w * f l)). ring.
Qed.
Lemma wsum_cons l w ws f : wsum ((l, w) :: ws) f = w * f l + wsum ws f.
Proof. unfold wsum at 1. simpl. rewrite wsum_acc. ring. Qed.

Lemma overlap_nonneg a b c d : 0 <= overlap a b c d.
Proof. apply Rmax_l. Qed.
Lemma overlap_below a b c d : b <= c -> overlap a b c d = 0.
Proof.
  intros h. unfold overlap. apply Rmax_left. pose proof (Rmin_l b d). pose proof (Rmax_r a c). lra.
Qed.
Lemma overlap_above a b c d : d <= a -> overlap a b c d = 0.
Proof.
  intros h. unfold overlap. apply Rmax_left. pose proof (Rmin_r b d). pose proof (Rmax_l a c). lra.
Qed.
Lemma overlap_pos a b c d : a < b -> c < d -> a < d -> c < b -> 0 < overlap a b c d.
Proof.
  intros. unfold overlap. apply Rlt_le_trans with (2 := Rmax_r _ _).
  unfold Rmin, Rmax. destruct (Rle_dec b d), (Rle_dec a c); lra.
Qed.

Lemma weight_overlap nb nt b t : nb < nt -> b < t -> b < nt -> weight nb nt b t = overlap b t nb nt.
Proof.
  intros h1 h2 h3. unfold weight.
  destruct (Rlt_dec 0 (t - nb)).
  - unfold overlap, Rmin, Rmax.
    destruct (Rle_dec (b - nb) 0), (Rle_dec (t - nt) 0), (Rle_dec t nt), (Rle_dec b nb);
      try lra;
      match goal with |- context [Rle_dec 0 ?x] => destruct (Rle_dec 0 x) end; lra.
  - rewrite overlap_below by lra. reflexivity.
Qed.

Notation lb ls p := (fst (nth p ls (0, 0))).
Notation lt' ls p := (snd (nth p ls (0, 0))).

Lemma scan_inv nb nt ls : nb < nt ->
  forall lev ws l,
  (forall p, (S p < length ls)%nat -> lb ls p < lt' ls p) ->
  scan nb nt lev ls = Ok (ws, l) ->
  exists m, l = (lev + m)%nat /\ (m < length ls)%nat /\ nt <= lb ls m /\
    (forall p, (p < m)%nat -> lb ls p < nt) /\
    (forall f, wsum ws f = sumR (fun p => overlap (lb ls p) (lt' ls p) nb nt * f (lev + p)%nat) m) /\
    (forall x, In x ws -> 0 < snd x).
Proof.
  intros hn. induction ls as [|[b t] ls IH]; intros lev ws l hs H; [discriminate|].
  cbn [scan] in H. destruct (Rle_dec 0 (b - nt)) as [h|h].
  - injection H as <- <-. exists O. split; [lia|]. split; [simpl; lia|]. split; [simpl; lra|].
    split; [intros; lia|]. split; [reflexivity|]. intros x [].
  - destruct (scan nb nt (S lev) ls) as [[ws' l']|] eqn:E; [|discriminate].
    cbn [bind fst snd] in H.
    assert (hs' : forall p, (S p < length ls)%nat -> lb ls p < lt' ls p).
    { intros p hp. apply (hs (S p)). simpl. lia. }
    destruct (IH _ _ _ hs' E) as (m & El & hm & h1 & h2 & h3 & h4).
    assert (hbt : b < t) by (apply (hs O); simpl; destruct ls; simpl in *; lia).
    assert (hw : weight nb nt b t = overlap b t nb nt) by (apply weight_overlap; lra).
    exists (S m). injection H as Ew ->. split; [lia|]. split; [simpl; lia|]. split; [exact h1|].
    split; [intros [|p] hp; [simpl; lra|apply (h2 p); lia]|].
    assert (S1 : forall f, sumR (fun p => overlap (lb ((b, t) :: ls) p) (lt' ((b, t) :: ls) p) nb nt * f (lev + p)%nat) (S m)
       = overlap b t nb nt * f lev + wsum ws' f).
    { intros f. rewrite sumR_front. simpl nth. cbn [fst snd]. rewrite Nat.add_0_r, h3.
      f_equal. apply sumR_eq. intros p _. simpl. rewrite Nat.add_succ_r. reflexivity. }
    destruct (Reqb (weight nb nt b t) 0) eqn:C.
    + assert (h0 : overlap b t nb nt = 0) by (rewrite <- hw; apply xeqb_fin; exact C).
      subst ws. split; [|exact h4]. intros f. rewrite S1, h0. ring.
    + assert (h0 : overlap b t nb nt <> 0) by (rewrite <- hw; apply xeqb_fin_f; exact C).
      subst ws. split.
      * intros f. rewrite S1, wsum_cons, hw. reflexivity.
      * intros x [<-|Hx]; [|apply h4; exact Hx]. simpl. rewrite hw.
        destruct (overlap_nonneg b t nb nt); [assumption|congruence].
Qed.

(** *** Old grids *)
Lemma last_app {A} (l : list A) x d : last (l ++ [x]) d = x.
Proof. apply last_last. Qed.

Lemma old_length zfull zhalf : length (old_grid zfull zhalf) = length zhalf.
Proof.
  unfold old_grid. rewrite combine_length. destruct zhalf as [|z zs]; [reflexivity|].
  cbn [tl]. rewrite app_length. cbn [length]. lia.
Qed.
Lemma old_layer zfull zhalf p : (S p < length zhalf)%nat ->
  nth p (old_grid zfull zhalf) (0, 0) = (nth p zhalf 0, nth (S p) zhalf 0).
Proof.
  intros h. unfold old_grid. rewrite combine_nth.
  - f_equal. destruct zhalf as [|z zs]; [simpl in h; lia|]. simpl tl. simpl in h.
    rewrite app_nth1 by lia. reflexivity.
  - destruct zhalf as [|z zs]; [simpl in h; lia|]. cbn [tl]. rewrite app_length. cbn [length]. lia.
Qed.
Lemma old_bottom zfull zhalf p : (p < length zhalf)%nat ->
  lb (old_grid zfull zhalf) p = nth p zhalf 0.
Proof.
  intros h. unfold old_grid. rewrite combine_nth; [reflexivity|].
  destruct zhalf as [|z zs]; [simpl in h; lia|]. cbn [tl]. rewrite app_length. cbn [length]. lia.
Qed.

Lemma increasing_lt z : increasing z -> forall a b, (a < b)%nat -> (b < length z)%nat -> nth a z 0 < nth b z 0.
Proof.
  intros h a b hab. induction b as [|b IH]; [lia|]. intros hb.
  destruct (Nat.eq_dec a b) as [->|]; [apply h; lia|].
  apply Rlt_trans with (nth b z 0); [apply IH; lia|apply h; lia].
Qed.
Lemma increasing_le z : increasing z -> forall a b, (a <= b)%nat -> (b < length z)%nat -> nth a z 0 <= nth b z 0.
Proof.
  intros h a b hab hb. destruct (Nat.eq_dec a b) as [->|]; [lra|]. left. apply increasing_lt; auto; lia.
Qed.

Lemma nth_skipn' {A} (l : list A) s p d : nth p (skipn s l) d = nth (s + p) l d.
Proof. revert l. induction s as [|s IH]; intros l; [reflexivity|]. destruct l; [destruct p; reflexivity|]. apply IH. Qed.

(** One scan of an increasing old grid. *)
Lemma scan_grid zfull zhalf nb nt start ws l : increasing zhalf -> nb < nt ->
  scan nb nt start (skipn start (old_grid zfull zhalf)) = Ok (ws, l) ->
  (start <= l)%nat /\ (l < length zhalf)%nat /\ nt <= nth l zhalf 0 /\
  (forall p, (start <= p)%nat -> (p < l)%nat -> nth p zhalf 0 < nt) /\
  (forall f, wsum ws f =
     sumR (fun p => overlap (nth (start + p) zhalf 0) (nth (S (start + p)) zhalf 0) nb nt * f (start + p)%nat) (l - start)) /\
  (forall x, In x ws -> 0 < snd x).
Proof.
  intros hz hn H.
  assert (len : length (skipn start (old_grid zfull zhalf)) = (length zhalf - start)%nat)
    by (rewrite skipn_length, old_length; reflexivity).
  destruct (scan_inv nb nt (skipn start (old_grid zfull zhalf)) hn start ws l) as (m & El & hm & h1 & h2 & h3 & h4).
  - intros p hp. rewrite len in hp. rewrite nth_skipn', old_layer by lia. simpl.
    apply (increasing_lt zhalf hz); lia.
  - exact H.
  - rewrite len in hm. rewrite nth_skipn', old_bottom in h1 by lia.
    subst l. split; [lia|]. split; [lia|]. split; [exact h1|]. split; [|split; [|exact h4]].
    + intros p hs hp. specialize (h2 (p - start)%nat ltac:(lia)).
      rewrite nth_skipn' in h2. replace (start + (p - start))%nat with p in h2 by lia.
      rewrite old_bottom in h2 by lia. exact h2.
    + intros f. rewrite h3. replace (start + m - start)%nat with m by lia.
      apply sumR_eq. intros p hp. rewrite nth_skipn', old_layer by lia. reflexivity.
Qed.

(** The sum over a window that contains all non-zero terms. *)
Lemma sumR_window g lo a b n : (lo <= a)%nat -> (a <= b)%nat -> (b <= n)%nat ->
  (forall p, (lo <= p)%nat -> (p < a)%nat -> g p = 0) -> (forall p, (b <= p)%nat -> (p < n)%nat -> g p = 0) ->
  sumR (fun p => g (a + p)%nat) (b - a) = sumR (fun p => g (lo + p)%nat) (n - lo).
Proof.
  intros h1 h2 h3 z1 z2.
  replace (n - lo)%nat with ((a - lo) + ((b - a) + (n - b)))%nat by lia.
  rewrite sumR_split. rewrite (sumR_zero _ (a - lo)) by (intros; apply z1; lia).
  rewrite sumR_split. rewrite (sumR_zero _ (n - b)) by (intros; apply z2; lia).
  rewrite (sumR_eq (fun p => g (lo + (a - lo + p))%nat) (fun p => g (a + p)%nat)); [ring|].
  intros p _. f_equal. lia.
Qed.

Definition first_layer (start k : nat) : nat := match start, k with O, O => O | _, _ => 1%nat end.

Lemma scans_sums zfull zhalf : increasing zhalf -> forall new start wss,
  layered new ->
  (forall p, (1 <= p)%nat -> (p < start)%nat -> nth (S p) zhalf 0 <= fst (nth 0 new (0, 0))) ->
  scans (old_grid zfull zhalf) start new = Ok wss ->
  forall k, (k < length new)%nat ->
    (exists l, (l < length zhalf)%nat /\ snd (nth k new (0, 0)) <= nth l zhalf 0) /\
    (forall f, wsum (nth k wss []) f =
       sumR (fun p => shared zhalf new k (first_layer start k + p) * f (first_layer start k + p)%nat)
            (length zhalf - first_layer start k)) /\
    (forall x, In x (nth k wss []) -> 0 < snd x).
Proof.
  intros hz. induction new as [|[nb nt] new IH]; intros start wss hl hs H k hk; [simpl in hk; lia|].
  cbn [scans] in H. destruct (scan nb nt start _) as [[ws l]|] eqn:E; [|discriminate].
  cbn [bind fst snd] in H.
  set (start' := S (if (l <? 3)%nat then 0 else (l - 2))%nat) in *.
  destruct (scans (old_grid zfull zhalf) start' new) as [wss'|] eqn:E'; [|discriminate].
  cbn [bind] in H. injection H as <-.
  assert (hn : nb < nt) by (apply (proj1 hl O); simpl; lia).
  destruct (scan_grid zfull zhalf nb nt start ws l hz hn E) as (h1 & h2 & h3 & h4 & h5 & h6).
  destruct k as [|k].
  - split; [exists l; split; [exact h2|exact h3]|]. split; [|exact h6].
    intros f. cbn [nth]. rewrite h5.
    apply (sumR_window (fun p => shared zhalf ((nb, nt) :: new) 0 p * f p) (first_layer start 0) start l (length zhalf));
      [ |lia|lia| |].
    + destruct start; simpl; lia.
    + intros p hp1 hp2. unfold shared. simpl nth. cbn [fst snd].
      rewrite overlap_below; [ring|]. destruct start as [|st]; [lia|].
      simpl first_layer in hp1. apply hs; lia.
    + intros p hp1 hp2. unfold shared. simpl nth. cbn [fst snd].
      rewrite overlap_above; [ring|]. apply Rle_trans with (1 := h3). apply increasing_le; auto.
  - assert (hk' : (k < length new)%nat) by (simpl in hk; lia).
    assert (hl' : layered new).
    { destruct hl as [a b]. split.
      - intros q hq. apply (a (S q)). simpl; lia.
      - intros q hq. apply (b (S q)). simpl; lia. }
    assert (hnb : nt <= fst (nth 0 new (0, 0))) by (apply (proj2 hl O); simpl; lia).
    assert (hs' : forall p, (1 <= p)%nat -> (p < start')%nat -> nth (S p) zhalf 0 <= fst (nth 0 new (0, 0))).
    { intros p hp1 hp2. unfold start' in hp2. destruct (l <? 3)%nat eqn:C; [lia|]. apply Nat.ltb_ge in C.
      destruct (Nat.le_gt_cases start (l - 1)) as [a|a].
      - assert (nth (l - 1) zhalf 0 < nt) by (apply h4; lia).
        assert (nth (S p) zhalf 0 <= nth (l - 1) zhalf 0) by (apply increasing_le; auto; lia). lra.
      - assert (nth (S p) zhalf 0 <= nb) by (apply hs; lia). lra. }
    destruct (IH start' wss' hl' hs' E' k hk') as (i1 & i2 & i3).
    split; [exact i1|]. split; [|exact i3].
    replace (first_layer start (S k)) with (first_layer start' k); [exact i2|].
    unfold start'. destruct start; reflexivity.
Qed.

Lemma mapM_nth {A B} (f : A -> res B) l r : mapM f l = Ok r -> forall i a d, nth_error l i = Some a -> f a = Ok (nth i r d).
Proof.
  revert r. induction l as [|x l IH]; intros r H i a d Hi; [destruct i; discriminate|].
  simpl in H. destruct (f x) as [y|] eqn:E; [|discriminate]. simpl in H.
  destruct (mapM f l) as [r'|] eqn:E'; [|discriminate]. injection H as <-.
  destruct i as [|i].
  - injection Hi as <-. exact E.
  - apply (IH r' eq_refl i a d). exact Hi.
Qed.

Lemma wmean_sum ws y : wsum ws (fun _ => 1) <> 0 -> wmean false ws y * wsum ws (fun _ => 1) = wsum ws y.
Proof.
  intros h. unfold wmean. destruct ws as [|p ws]; [exfalso; apply h; reflexivity|].
  change (wsum (p :: ws) y / wsum (p :: ws) (fun _ => 1) * wsum (p :: ws) (fun _ => 1) = wsum (p :: ws) y).
  field. exact h.
Qed.

(** The regridded value in terms of the old layers: all of them for the
    lowest new layer, all but the lowest for the others. *)
Definition used (k : nat) : nat := match k with O => O | _ => 1%nat end.

Lemma grid_inv np zfull zhalf y new lunits r : change_grid np zfull zhalf y new lunits = Ok r ->
  layered new -> forall i, (i < np)%nat -> increasing (zhalf i) -> forall k, (k < length new)%nat ->
  exists ws, (forall j, r i j k = flagged lunits (snd (nth k new (0, 0))) (nth 0 (zhalf i) 0) (wmean lunits ws (y i j))) /\
    (exists l, (l < length (zhalf i))%nat /\ snd (nth k new (0, 0)) <= nth l (zhalf i) 0) /\
    (forall f, wsum ws f = sumR (fun p => shared (zhalf i) new k (used k + p) * f (used k + p)%nat)
                                (length (zhalf i) - used k)) /\
    (forall x, In x ws -> 0 < snd x).
Proof.
  unfold change_grid. intros H hl i hi hz k hk.
  destruct (mapM _ (seq 0 np)) as [wss|] eqn:E; [|discriminate]. cbn [bind] in H. injection H as <-.
  assert (Hi : nth_error (seq 0 np) i = Some i).
  { rewrite (nth_error_nth' (seq 0 np) O) by (rewrite seq_length; exact hi). rewrite seq_nth by exact hi. reflexivity. }
  pose proof (mapM_nth _ _ _ E i i [] Hi) as Ei.
  assert (h0 : forall p, (1 <= p)%nat -> (p < 0)%nat -> nth (S p) (zhalf i) 0 <= fst (nth 0 new (0, 0))) by (intros; lia).
  destruct (scans_sums (zfull i) (zhalf i) hz new 0 (nth i wss []) hl h0 Ei k hk) as (a & b & c).
  - exists (nth k (nth i wss []) []). split; [reflexivity|]. split; [exact a|]. split; [|exact c].
    intros f. rewrite b. destruct k; reflexivity.
Qed.

Lemma sumR_from (g : nat -> R) n a : (a <= 1)%nat -> (1 <= n)%nat -> (a = 1%nat -> g O = 0) ->
  sumR (fun p => g (a + p)%nat) (n - a) = sumR g n.
Proof.
  intros ha hn h0. destruct a as [|[|a]]; [|  |lia].
  - rewrite Nat.sub_0_r. apply sumR_eq. reflexivity.
  - replace n with (S (n - 1)) at 2 by lia. rewrite sumR_front, h0 by reflexivity. simpl. ring.
Qed.

Lemma shared_total zhalf new k l : increasing zhalf ->
  fst (nth k new (0, 0)) < snd (nth k new (0, 0)) -> nth 0 zhalf 0 < snd (nth k new (0, 0)) ->
  (l < length zhalf)%nat -> snd (nth k new (0, 0)) <= nth l zhalf 0 ->
  exists p, (S p < length zhalf)%nat /\ 0 < shared zhalf new k p.
Proof.
  intros hz hn h0 hl h1. set (nt := snd (nth k new (0, 0))) in *. set (nb := fst (nth k new (0, 0))) in *.
  induction l as [|l IH]; [lra|].
  destruct (Rle_lt_dec nt (nth l zhalf 0)) as [h|h]; [apply IH; [lia|exact h]|].
  exists l. split; [exact hl|]. unfold shared. fold nt nb. apply overlap_pos; try assumption; [|lra].
  apply hz; exact hl.
Qed.

(** The mean over the overlapped layers, when the lowest old layer does not
    matter. *)
Lemma regrid_mean np zfull zhalf y new r : change_grid np zfull zhalf y new false = Ok r ->
  layered new -> forall i j k, (i < np)%nat -> increasing (zhalf i) -> (k < length new)%nat ->
  nth 0 (zhalf i) 0 < snd (nth k new (0, 0)) ->
  (k = O \/ shared (zhalf i) new k 0 = 0) ->
  0 < sumR (shared (zhalf i) new k) (length (zhalf i)) /\
  r i j k * sumR (shared (zhalf i) new k) (length (zhalf i))
    = sumR (fun l => shared (zhalf i) new k l * y i j l) (length (zhalf i)).
Proof.
  intros H hl i j k hi hz hk hg hb.
  destruct (grid_inv _ _ _ _ _ _ _ H hl i hi hz k hk) as (ws & E & (l & hl1 & hl2) & S1 & _).
  assert (hn : fst (nth k new (0, 0)) < snd (nth k new (0, 0))) by (apply hl; exact hk).
  destruct (shared_total _ new k l hz hn hg hl1 hl2) as (p & hp1 & hp2).
  assert (pos : 0 < sumR (shared (zhalf i) new k) (length (zhalf i))).
  { apply (sumR_pos _ _ p); [intros; apply overlap_nonneg|lia|exact hp2]. }
  assert (U : forall f, wsum ws f = sumR (fun l => shared (zhalf i) new k l * f l) (length (zhalf i))).
  { intros f. rewrite S1.
    apply (sumR_from (fun l => shared (zhalf i) new k l * f l)); [destruct k; simpl; lia|lia|].
    intros u. destruct hb as [->|hb]; [discriminate|]. rewrite hb. ring. }
  assert (W : wsum ws (fun _ => 1) = sumR (shared (zhalf i) new k) (length (zhalf i))).
  { rewrite U. apply sumR_eq. intros; ring. }
  split; [exact pos|]. rewrite E. unfold flagged. destruct (Rlt_dec _ _); [|contradiction].
  rewrite <- W, wmean_sum by lra. apply U.
Qed.

Lemma regrid_between np zfull zhalf y new r : change_grid np zfull zhalf y new false = Ok r ->
  layered new -> forall i j k, (i < np)%nat -> increasing (zhalf i) -> (k < length new)%nat ->
  nth 0 (zhalf i) 0 < snd (nth k new (0, 0)) ->
  (k = O \/ shared (zhalf i) new k 0 = 0) ->
  forall lo hi, (forall l, (S l < length (zhalf i))%nat -> 0 < shared (zhalf i) new k l -> lo <= y i j l <= hi) ->
  lo <= r i j k <= hi.
Proof.
  intros H hl i j k hi hz hk hg hb lo up hy.
  destruct (regrid_mean _ _ _ _ _ _ H hl i j k hi hz hk hg hb) as [pos E].
  destruct (grid_inv _ _ _ _ _ _ _ H hl i hi hz k hk) as (ws & _ & (l0 & hl1 & hl2) & _ & _).
  set (S0 := sumR (shared (zhalf i) new k) (length (zhalf i))) in *.
  assert (B : forall l, (l < length (zhalf i))%nat ->
     shared (zhalf i) new k l * lo <= shared (zhalf i) new k l * y i j l <= shared (zhalf i) new k l * up).
  { intros l hl'. destruct (Rle_lt_or_eq_dec 0 _ (overlap_nonneg (nth l (zhalf i) 0) (nth (S l) (zhalf i) 0)
        (fst (nth k new (0, 0))) (snd (nth k new (0, 0))))) as [h|h].
    - fold (shared (zhalf i) new k l) in h. destruct (Nat.eq_dec (S l) (length (zhalf i))) as [e|e].
      + exfalso. unfold shared in h. rewrite overlap_above in h; [lra|].
        apply Rle_trans with (1 := hl2). apply increasing_le; auto. lia.
      + destruct (hy l ltac:(lia) h). split; apply Rmult_le_compat_l; lra.
    - fold (shared (zhalf i) new k l) in h. rewrite <- h. lra. }
  assert (lo * S0 <= r i j k * S0).
  { rewrite E, Rmult_comm. unfold S0. rewrite <- sumR_scal. apply sumR_le. intros; apply B; assumption. }
  assert (r i j k * S0 <= up * S0).
  { rewrite E, (Rmult_comm up). unfold S0. rewrite <- sumR_scal. apply sumR_le. intros; apply B; assumption. }
  split; apply (Rmult_le_reg_r S0); assumption.
Qed.

(** Layers inside the lowest old layer, other than the first, get 0. *)
Lemma regrid_bottom np zfull zhalf y new r : change_grid np zfull zhalf y new false = Ok r ->
  layered new -> forall i j k, (i < np)%nat -> increasing (zhalf i) -> (S k < length new)%nat ->
  nth 0 (zhalf i) 0 < snd (nth (S k) new (0, 0)) -> snd (nth (S k) new (0, 0)) <= nth 1 (zhalf i) 0 ->
  (1 < length (zhalf i))%nat ->
  r i j (S k) = 0.
Proof.
  intros H hl i j k hi hz hk hg h1 hlen.
  destruct (grid_inv _ _ _ _ _ _ _ H hl i hi hz (S k) hk) as (ws & E & _ & S1 & P).
  assert (Z : forall f, wsum ws f = 0).
  { intros f. rewrite S1. apply sumR_zero. intros p hp. unfold shared. simpl used.
    rewrite overlap_above; [ring|]. apply Rle_trans with (1 := h1). apply increasing_le; auto; simpl used in hp; lia. }
  assert (ws = []) as ->.
  { destruct ws as [|[l w] ws]; [reflexivity|]. exfalso.
    assert (N : forall q, (forall x, In x q -> 0 < snd x) -> 0 <= wsum q (fun _ => 1)).
    { induction q as [|[a b] q IHq]; intros hq; [unfold wsum; simpl; lra|].
      rewrite wsum_cons. pose proof (IHq ltac:(intros; apply hq; right; assumption)).
      pose proof (hq (a, b) ltac:(left; reflexivity)). simpl in *. lra. }
    pose proof (Z (fun _ => 1)) as Z1. rewrite wsum_cons in Z1.
    pose proof (P (l, w) ltac:(left; reflexivity)). pose proof (N ws ltac:(intros; apply P; right; assumption)).
    simpl in *. lra. }
  rewrite E. unfold flagged. destruct (Rlt_dec _ _); [|contradiction]. reflexivity.
Qed.

Lemma regrid_ground np zfull zhalf y new lunits r : change_grid np zfull zhalf y new lunits = Ok r ->
  forall i j k, snd (nth k new (0, 0)) <= nth 0 (zhalf i) 0 -> r i j k = - 10 ^ 20.
Proof.
  unfold change_grid. intros H i j k h.
  destruct (mapM _ (seq 0 np)) as [wss|] eqn:E; [|discriminate]. cbn [bind] in H. injection H as <-.
  unfold flagged. destruct (Rlt_dec _ _); [lra|]. reflexivity.
Qed.
