(** Facts about the numpy primitives of [Np]. *)
From Verif Require Export Np Spec_Common.

Lemma bind_ok {A B} (x : res A) (f : A -> res B) b :
  bind x f = Ok b -> exists a, x = Ok a /\ f a = Ok b.
Proof. destruct x as [a|e]; simpl; intro H; [eauto | discriminate]. Qed.

(** ** Counting *)

Notation cnt := occ.

Lemma cnt_cons b l : cnt (b :: l) = (if b then 1 else 0) + cnt l.
Proof. unfold occ; destruct b; reflexivity. Qed.

Lemma cnt_nil : cnt [] = 0.
Proof. reflexivity. Qed.

Lemma cnt_le l : cnt l <= length l.
Proof. induction l as [|b l IH]; [reflexivity|]. rewrite cnt_cons; simpl; destruct b; lia. Qed.

Lemma cnt_repeat_true n : cnt (repeat true n) = n.
Proof. induction n as [|n IH]; [reflexivity|]. simpl repeat; rewrite cnt_cons, IH; reflexivity. Qed.

Lemma cnt_repeat_false n : cnt (repeat false n) = 0.
Proof. induction n as [|n IH]; [reflexivity|]. simpl repeat; rewrite cnt_cons, IH; reflexivity. Qed.

Lemma nth_repeat_bool b n i : nth i (repeat b n) false = (b && (i <? n)).
Proof.
  revert i; induction n as [|n IH]; intro i; simpl.
  - rewrite andb_false_r; destruct i; reflexivity.
  - destruct i as [|i]; [rewrite andb_true_r; reflexivity|]. apply IH.
Qed.

(** ** argwhere *)

Lemma in_argwhere l i : In i (argwhere l) <-> nth i l false = true.
Proof.
  unfold argwhere; rewrite filter_In, in_seq; split; [tauto|].
  intro H; split; [|exact H].
  destruct (le_lt_dec (length l) i) as [Hge|Hlt]; [|lia].
  rewrite nth_overflow in H by exact Hge; discriminate.
Qed.

Lemma nth_true_lt (l : list bool) i : nth i l false = true -> i < length l.
Proof.
  intro H; destruct (le_lt_dec (length l) i) as [Hge|Hlt]; [|exact Hlt].
  rewrite nth_overflow in H by exact Hge; discriminate.
Qed.

Lemma NoDup_argwhere l : NoDup (argwhere l).
Proof. apply NoDup_filter, seq_NoDup. Qed.

Lemma filter_map_length {A B} (f : A -> B) p l :
  length (filter p (map f l)) = length (filter (fun x => p (f x)) l).
Proof. induction l as [|x l IH]; simpl; [reflexivity|]. destruct (p (f x)); simpl; congruence. Qed.

Lemma length_argwhere l : length (argwhere l) = cnt l.
Proof.
  induction l as [|b l IH]; [reflexivity|].
  unfold argwhere in *; rewrite cnt_cons.
  change (seq 0 (length (b :: l))) with (0 :: seq 1 (length l)).
  rewrite <- seq_shift.
  assert (E : length (filter (fun i => nth i (b :: l) false) (map S (seq 0 (length l)))) = cnt l)
    by (rewrite filter_map_length; exact IH).
  assert (F : forall (p : nat -> bool) a r, length (filter p (a :: r)) = (if p a then 1 else 0) + length (filter p r))
    by (intros p a r; simpl; destruct (p a); reflexivity).
  rewrite F, E. destruct b; reflexivity.
Qed.

(** A boolean array represents a duplicate-free list of indices. *)
Definition reps (s : list bool) (L : list nat) : Prop :=
  NoDup L /\ forall i, nth i s false = true <-> In i L.

Lemma reps_cnt s L : reps s L -> cnt s = length L.
Proof.
  intros [Hn Hi]. rewrite <- length_argwhere. apply Permutation_length.
  apply NoDup_Permutation; [apply NoDup_argwhere | exact Hn |].
  intro i; rewrite in_argwhere; apply Hi.
Qed.

Lemma reps_argwhere s : reps s (argwhere s).
Proof. split; [apply NoDup_argwhere|]. intro i; rewrite in_argwhere; tauto. Qed.

Lemma reps_blank n : reps (repeat false n) [].
Proof.
  split; [constructor|]. intro i; rewrite nth_repeat_bool; simpl; split; [discriminate|tauto].
Qed.

(** ** set_true *)

Lemma mem_In i l : mem i l = true <-> In i l.
Proof.
  unfold mem; rewrite existsb_exists; split.
  - intros (x & Hx & E); apply Nat.eqb_eq in E; subst; exact Hx.
  - intro H; exists i; split; [exact H | apply Nat.eqb_refl].
Qed.

Lemma nth_map_seq (f : nat -> bool) n i :
  nth i (map f (seq 0 n)) false = (i <? n) && f i.
Proof.
  destruct (Nat.ltb_spec i n) as [Hi|Hi]; simpl.
  - rewrite (nth_indep _ false (f 0)) by (rewrite map_length, seq_length; exact Hi).
    rewrite map_nth, seq_nth by exact Hi; reflexivity.
  - rewrite nth_overflow; [reflexivity|]. rewrite map_length, seq_length; exact Hi.
Qed.

Lemma set_true_ok l idx :
  (forall i, In i idx -> i < length l) ->
  exists l', set_true l idx = Ok l' /\ length l' = length l /\
    forall i, nth i l' false = true <-> (nth i l false = true \/ In i idx).
Proof.
  intro Hr. unfold set_true.
  assert (E : forallb (fun i => i <? length l) idx = true)
    by (apply forallb_forall; intros x Hx; apply Nat.ltb_lt, Hr, Hx).
  rewrite E. eexists; split; [reflexivity|]. split; [rewrite map_length, seq_length; reflexivity|].
  intro i; rewrite nth_map_seq, andb_true_iff, orb_true_iff, mem_In, Nat.ltb_lt.
  split; [tauto|]. intros [H|H]; split; auto. apply nth_true_lt; exact H.
Qed.

(** Adding a fresh, duplicate-free list of indices. *)
Lemma set_true_reps l L idx :
  reps l L -> NoDup idx -> (forall i, In i idx -> i < length l) ->
  (forall i, In i idx -> ~ In i L) ->
  exists l', set_true l idx = Ok l' /\ length l' = length l /\ reps l' (L ++ idx).
Proof.
  intros [Hn Hi] Hd Hr Hf. destruct (set_true_ok l idx Hr) as (l' & E & Hl & Hm).
  exists l'; split; [exact E|]; split; [exact Hl|]; split.
  - clear -Hn Hd Hf. induction L as [|x L IH]; [exact Hd|].
    inversion Hn; subst; simpl; constructor.
    + rewrite in_app_iff; intros [H|H]; [contradiction|]. apply (Hf x H); left; reflexivity.
    + apply IH; [assumption|]. intros i Hx Hy; apply (Hf i Hx); right; exact Hy.
  - intro i; rewrite Hm, in_app_iff, Hi; tauto.
Qed.

Lemma reps_ext l L L' : reps l L -> NoDup L' -> (forall i, In i L <-> In i L') -> reps l L'.
Proof. intros [_ Hi] Hn He; split; [exact Hn|]. intro i; rewrite Hi; apply He. Qed.

(** ** gather of a prefix of a permutation *)

Lemma gather_all locs rs :
  (forall r, In r rs -> r < length locs) ->
  gather locs rs = Ok (map (fun r => nth r locs 0) rs).
Proof.
  induction rs as [|r rs IH]; intro H; simpl; [reflexivity|].
  rewrite (nth_error_nth' locs 0) by (apply H; left; reflexivity).
  rewrite IH by (intros x Hx; apply H; right; exact Hx). reflexivity.
Qed.

Lemma map_nth_seq {A} (l : list A) d : map (fun r => nth r l d) (seq 0 (length l)) = l.
Proof.
  induction l as [|x l IH]; [reflexivity|].
  simpl length. change (seq 0 (S (length l))) with (0 :: seq 1 (length l)).
  rewrite <- seq_shift. simpl. rewrite map_map. f_equal. exact IH.
Qed.

Lemma In_firstn {A} (x : A) k l : In x (firstn k l) -> In x l.
Proof.
  revert l; induction k as [|k IH]; intros [|y l]; simpl; try tauto.
  intros [H|H]; [left; exact H | right; apply IH; exact H].
Qed.

Lemma gather_perm locs p :
  is_perm p (length locs) ->
  exists full, Permutation full locs /\
    forall k, gather locs (firstn k p) = Ok (firstn k full).
Proof.
  intro Hp. exists (map (fun r => nth r locs 0) p); split.
  - pose proof (Permutation_map (fun r => nth r locs 0) Hp) as H.
    rewrite map_nth_seq in H; exact H.
  - intro k. rewrite gather_all; [rewrite firstn_map; reflexivity|].
    intros r Hr. apply In_firstn in Hr. apply (Permutation_in _ Hp) in Hr.
    apply in_seq in Hr; lia.
Qed.

Lemma NoDup_firstn {A} k (l : list A) : NoDup l -> NoDup (firstn k l).
Proof.
  revert l; induction k as [|k IH]; intros l H; simpl; [constructor|].
  destruct l as [|x l]; [constructor|]. inversion H; subst; constructor; [|auto].
  intro Hx; apply In_firstn in Hx; contradiction.
Qed.

Lemma In_firstn_le {A} (x : A) k k' l : k <= k' -> In x (firstn k l) -> In x (firstn k' l).
Proof.
  intros Hk Hx. replace k with (Nat.min k k') in Hx by lia.
  rewrite <- firstn_firstn in Hx. eapply In_firstn; exact Hx.
Qed.

(** ** slices, boolean zips *)

Lemma pyslice_nonneg {A} k (l : list A) : (0 <= k)%Z -> pyslice k l = firstn (Z.to_nat k) l.
Proof. intro H; unfold pyslice; destruct (Z.ltb_spec k 0); [lia|reflexivity]. Qed.

Lemma zipb_ok f a b :
  length a = length b -> exists c, zipb f a b = Ok c /\ length c = length a /\
  forall i, i < length a -> nth i c false = f (nth i a false) (nth i b false).
Proof.
  revert b; induction a as [|x a IH]; intros [|y b] H; simpl in *; try discriminate.
  - eexists; split; [reflexivity|]; split; [reflexivity|]. intros i Hi; lia.
  - destruct (IH b) as (c & E & Hl & Hc); [congruence|]. rewrite E; simpl.
    eexists; split; [reflexivity|]; split; [simpl; congruence|].
    intros [|i] Hi; [reflexivity|]. simpl; apply Hc; lia.
Qed.

Lemma nth_np_not l i : i < length l -> nth i (np_not l) false = negb (nth i l false).
Proof.
  intro H. unfold np_not. rewrite (nth_indep _ false (negb false)) by (rewrite map_length; exact H).
  apply (map_nth negb).
Qed.

Lemma length_np_not l : length (np_not l) = length l.
Proof. apply map_length. Qed.

Lemma zipb_andnot a b :
  length a = length b ->
  exists c, zipb andb a (np_not b) = Ok c /\ length c = length a /\
  forall i, nth i c false = true <-> (nth i a false = true /\ nth i b false = false).
Proof.
  intro H. destruct (zipb_ok andb a (np_not b)) as (c & E & Hl & Hc); [rewrite length_np_not; exact H|].
  exists c; split; [exact E|]; split; [exact Hl|].
  intro i; destruct (le_lt_dec (length a) i) as [Hi|Hi].
  - rewrite (nth_overflow c) by lia. rewrite (nth_overflow a) by lia. split; [discriminate|intros [? ?]; discriminate].
  - rewrite Hc, nth_np_not, andb_true_iff, negb_true_iff by lia. tauto.
Qed.

Lemma zipb_notnot a b :
  length a = length b ->
  exists c, zipb andb (np_not a) (np_not b) = Ok c /\ length c = length a /\
  forall i, nth i c false = true <-> (i < length a /\ nth i a false = false /\ nth i b false = false).
Proof.
  intro H. destruct (zipb_andnot (np_not a) b) as (c & E & Hl & Hc); [rewrite length_np_not; exact H|].
  exists c; split; [exact E|]; split; [rewrite Hl; apply length_np_not|].
  intro i; rewrite Hc. destruct (le_lt_dec (length a) i) as [Hi|Hi].
  - rewrite nth_overflow by (rewrite length_np_not; exact Hi). split; [intros [? _]; discriminate | lia].
  - rewrite nth_np_not, negb_true_iff by exact Hi. tauto.
Qed.

Lemma in_setdiff1d x y i : In i (setdiff1d x y) <-> (In i x /\ ~ In i y).
Proof.
  unfold setdiff1d. rewrite filter_In, negb_true_iff, <- (mem_In i y).
  destruct (mem i y); intuition congruence.
Qed.

Lemma NoDup_setdiff1d x y : NoDup x -> NoDup (setdiff1d x y).
Proof. apply NoDup_filter. Qed.

Lemma NoDup_app_intro {A} (l1 l2 : list A) :
  NoDup l1 -> NoDup l2 -> (forall x, In x l1 -> ~ In x l2) -> NoDup (l1 ++ l2).
Proof.
  intros H1 H2 Hd; induction l1 as [|x l1 IH]; [exact H2|].
  inversion H1; subst; simpl; constructor.
  - rewrite in_app_iff; intros [H|H]; [contradiction|]. apply (Hd x); [left; reflexivity|exact H].
  - apply IH; [assumption|]. intros y Hy; apply Hd; right; exact Hy.
Qed.
