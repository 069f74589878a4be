(** Facts about the extended reals and the numpy profile primitives. *)
From Verif Require Import Np Xr.
Local Open Scope R_scope.

Lemma xadd_comm a b : xadd a b = xadd b a.
Proof. destruct a, b; simpl; try reflexivity. f_equal; ring. Qed.
Lemma xadd_assoc a b c : xadd a (xadd b c) = xadd (xadd a b) c.
Proof. destruct a, b, c; simpl; try reflexivity. f_equal; ring. Qed.
Lemma xadd_0_l a : xadd (XF 0) a = a.
Proof. destruct a; simpl; try reflexivity. f_equal; ring. Qed.
Lemma xadd_0_r a : xadd a (XF 0) = a.
Proof. rewrite xadd_comm; apply xadd_0_l. Qed.
Lemma xmul_comm a b : xmul a b = xmul b a.
Proof. destruct a, b; simpl; try reflexivity. f_equal; ring. Qed.
Lemma fillna_idem v a : fillna v (fillna v a) = fillna v a.
Proof. destruct a; reflexivity. Qed.
Lemma fillna_fin v r : fillna v (XF r) = XF r.
Proof. reflexivity. Qed.

Lemma fold_xadd l a : fold_left xadd l a = xadd a (xsum l).
Proof.
  revert a. induction l as [|x l IH]; intro a.
  - symmetry; apply xadd_0_r.
  - cbn [fold_left]. unfold xsum. cbn [fold_left].
    rewrite (IH (xadd a x)), (IH (xadd (XF 0) x)).
    rewrite (xadd_0_l x). symmetry; apply xadd_assoc.
Qed.
Lemma xsum_cons x l : xsum (x :: l) = xadd x (xsum l).
Proof. unfold xsum at 1. cbn [fold_left]. rewrite xadd_0_l. apply fold_xadd. Qed.
Lemma xsum_nil : xsum [] = XF 0.
Proof. reflexivity. Qed.
Lemma xsum_app l1 l2 : xsum (l1 ++ l2) = xadd (xsum l1) (xsum l2).
Proof.
  induction l1 as [|x l IH].
  - simpl. symmetry; apply xadd_0_l.
  - cbn [app]. rewrite !xsum_cons, IH. apply xadd_assoc.
Qed.
Lemma xsum_perm l1 l2 : Permutation l1 l2 -> xsum l1 = xsum l2.
Proof.
  induction 1 as [|x l1 l2 _ IH|x y l|l1 l2 l3 _ I1 _ I2].
  - reflexivity.
  - rewrite !xsum_cons, IH; reflexivity.
  - rewrite !xsum_cons, !xadd_assoc, (xadd_comm y x). reflexivity.
  - congruence.
Qed.

(** Comparisons on finite values. *)
Lemma xltb_fin a b : xltb (XF a) (XF b) = true <-> a < b.
Proof. simpl. unfold Rltb. destruct (Rlt_dec a b); split; auto; try discriminate; tauto. Qed.
Lemma xltb_fin_f a b : xltb (XF a) (XF b) = false <-> b <= a.
Proof. simpl. unfold Rltb. destruct (Rlt_dec a b); split; auto; try discriminate; lra. Qed.
Lemma xleb_fin a b : xleb (XF a) (XF b) = true <-> a <= b.
Proof. simpl. unfold Rleb. destruct (Rle_dec a b); split; auto; try discriminate; tauto. Qed.
Lemma xleb_fin_f a b : xleb (XF a) (XF b) = false <-> b < a.
Proof. simpl. unfold Rleb. destruct (Rle_dec a b); split; auto; try discriminate; lra. Qed.
Lemma xeqb_fin a b : xeqb (XF a) (XF b) = true <-> a = b.
Proof. simpl. unfold Reqb. destruct (Req_EM_T a b); split; auto; try discriminate; tauto. Qed.
Lemma xeqb_fin_f a b : xeqb (XF a) (XF b) = false <-> a <> b.
Proof. simpl. unfold Reqb. destruct (Req_EM_T a b); split; auto; try discriminate; tauto. Qed.
Lemma xdiv_fin a b : b <> 0 -> xdiv (XF a) (XF b) = XF (a / b).
Proof. intro H. simpl. destruct (Req_EM_T b 0); tauto. Qed.
Lemma xpow_fin a b : 0 < a -> xpow (XF a) (XF b) = XF (Rpower a b).
Proof. intro H. simpl. destruct (Rlt_dec 0 a); tauto. Qed.
Lemma xlog10_fin a : 0 < a -> xlog10 (XF a) = XF (log10 a).
Proof. intro H. simpl. destruct (Rlt_dec 0 a); tauto. Qed.

(** *** Profile primitives *)
Local Open Scope nat_scope.

Lemma length_cumsum_from a l : length (cumsum_from a l) = length l.
Proof. revert a; induction l; intro; simpl; auto. Qed.
Lemma length_cumsum l : length (cumsum l) = length l.
Proof. destruct l; simpl; auto. rewrite length_cumsum_from; auto. Qed.
Lemma nth_cumsum_from_S a l k d : S k < length l ->
  nth (S k) (cumsum_from a l) d = xadd (nth k (cumsum_from a l) d) (nth (S k) l d).
Proof.
  revert a k. induction l as [|x l IH]; intros a k H; cbn [length] in H; [lia|].
  destruct l as [|y l]; cbn [length] in H; [lia|].
  destruct k as [|k]; [reflexivity|].
  change (nth (S (S k)) (cumsum_from a (x :: y :: l)) d)
    with (nth (S k) (cumsum_from (xadd a x) (y :: l)) d).
  rewrite IH by (cbn [length]; lia). reflexivity.
Qed.
Lemma nth_cumsum_0 l d : 0 < length l -> nth 0 (cumsum l) d = nth 0 l d.
Proof. destruct l; simpl; auto; lia. Qed.
Lemma nth_cumsum_S l k d : S k < length l ->
  nth (S k) (cumsum l) d = xadd (nth k (cumsum l) d) (nth (S k) l d).
Proof.
  destruct l as [|x l]; cbn [length]; [lia|]. intro H.
  destruct l as [|y l]; cbn [length] in H; [lia|].
  destruct k as [|k]; [reflexivity|].
  change (nth (S (S k)) (cumsum (x :: y :: l)) d) with (nth (S k) (cumsum_from x (y :: l)) d).
  rewrite nth_cumsum_from_S by (cbn [length]; lia). reflexivity.
Qed.

Lemma length_zmul a b : length (zmul a b) = Nat.min (length a) (length b).
Proof. revert b; induction a as [|x a IH]; intros [|y b]; simpl; auto. Qed.
Lemma length_zadd a b : length (zadd a b) = Nat.min (length a) (length b).
Proof. revert b; induction a as [|x a IH]; intros [|y b]; simpl; auto. Qed.
Lemma nth_zmul a b k d : k < length a -> k < length b ->
  nth k (zmul a b) d = xmul (nth k a d) (nth k b d).
Proof.
  revert b k; induction a as [|x a IH]; intros [|y b] k Ha Hb; cbn [length] in *; try lia.
  destruct k as [|k]; [reflexivity|]. simpl. apply IH; lia.
Qed.
Lemma nth_zadd a b k d : k < length a -> k < length b ->
  nth k (zadd a b) d = xadd (nth k a d) (nth k b d).
Proof.
  revert b k; induction a as [|x a IH]; intros [|y b] k Ha Hb; cbn [length] in *; try lia.
  destruct k as [|k]; [reflexivity|]. simpl. apply IH; lia.
Qed.

Lemma length_diff_from v l : length (diff_from v l) = length l.
Proof. revert v; induction l; intro; simpl; auto. Qed.
Lemma nth_diff_from_0 v l d : 0 < length l -> nth 0 (diff_from v l) d = xsub (nth 0 l d) v.
Proof. destruct l; simpl; auto; lia. Qed.
Lemma nth_diff_from_S v l k d : S k < length l ->
  nth (S k) (diff_from v l) d = xsub (nth (S k) l d) (nth k l d).
Proof.
  revert v k; induction l as [|x l IH]; intros v k H; cbn [length] in H; [lia|].
  destruct l as [|y l]; cbn [length] in H; [lia|].
  destruct k as [|k]; [reflexivity|].
  change (nth (S (S k)) (diff_from v (x :: y :: l)) d) with (nth (S k) (diff_from x (y :: l)) d).
  rewrite IH by (cbn [length]; lia). reflexivity.
Qed.
Lemma length_diff l : length (diff l) = length l - 1.
Proof. destruct l; simpl; auto. rewrite length_diff_from; lia. Qed.
Lemma nth_diff l k d : S k < length l -> nth k (diff l) d = xsub (nth (S k) l d) (nth k l d).
Proof.
  destruct l as [|x l]; cbn [length]; [lia|]. intro H.
  destruct l as [|y l]; cbn [length] in H; [lia|].
  change (diff (x :: y :: l)) with (diff_from x (y :: l)).
  destruct k as [|k]; [reflexivity|]. rewrite nth_diff_from_S by (cbn [length]; lia). reflexivity.
Qed.
Lemma length_diff_append v l : length (diff_append v l) = length l.
Proof. unfold diff_append. rewrite length_diff, app_length; simpl; lia. Qed.
Lemma nth_diff_append v l k d : S k < length l ->
  nth k (diff_append v l) d = xsub (nth (S k) l d) (nth k l d).
Proof.
  intro H. unfold diff_append. rewrite nth_diff by (rewrite app_length; simpl; lia).
  rewrite !app_nth1 by lia. reflexivity.
Qed.
Lemma nth_diff_append_last v l k d : S k = length l ->
  nth k (diff_append v l) d = xsub v (nth k l d).
Proof.
  intro H. unfold diff_append. rewrite nth_diff by (rewrite app_length; simpl; lia).
  rewrite app_nth2 by lia. replace (S k - length l) with 0 by lia. rewrite app_nth1 by lia. reflexivity.
Qed.

Lemma length_removelast {A} (l : list A) : length (removelast l) = length l - 1.
Proof.
  induction l as [|x l IH]; [reflexivity|].
  destruct l as [|y l]; [reflexivity|].
  change (removelast (x :: y :: l)) with (x :: removelast (y :: l)).
  cbn [length] in *. rewrite IH. lia.
Qed.
Lemma nth_removelast {A} (l : list A) k d : S k < length l -> nth k (removelast l) d = nth k l d.
Proof.
  revert k. induction l as [|x l IH]; intros k H; cbn [length] in H; [lia|].
  destruct l as [|y l]; cbn [length] in H; [lia|].
  change (removelast (x :: y :: l)) with (x :: removelast (y :: l)).
  destruct k as [|k]; [reflexivity|]. cbn [nth]. apply IH. cbn [length]; lia.
Qed.
Lemma length_tl {A} (l : list A) : length (tl l) = length l - 1.
Proof. destruct l; simpl; lia. Qed.
Lemma nth_tl {A} (l : list A) k d : nth k (tl l) d = nth (S k) l d.
Proof. destruct l; simpl; auto. destruct k; auto. Qed.

(** Reversed cumulative sums: accumulation from the end. *)
Lemma nth_rev_cumsum_last l k d : S k = length l ->
  nth k (rev (cumsum (rev l))) d = nth k l d.
Proof.
  intro H. rewrite rev_nth by (rewrite length_cumsum, rev_length; lia).
  rewrite length_cumsum, rev_length.
  replace (length l - S k) with 0 by lia.
  rewrite nth_cumsum_0 by (rewrite rev_length; lia).
  rewrite rev_nth by lia. f_equal; lia.
Qed.
Lemma nth_rev_cumsum_S l k d : S k < length l ->
  nth k (rev (cumsum (rev l))) d = xadd (nth (S k) (rev (cumsum (rev l))) d) (nth k l d).
Proof.
  intro H. rewrite !rev_nth by (rewrite length_cumsum, rev_length; lia).
  rewrite length_cumsum, rev_length.
  replace (length l - S k) with (S (length l - S (S k))) by lia.
  rewrite nth_cumsum_S by (rewrite rev_length; lia). f_equal.
  rewrite rev_nth by lia. f_equal; lia.
Qed.
