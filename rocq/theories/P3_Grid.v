(** Interpolation in the P3 table. *)
From Verif Require Import P3_Spec Xr_Facts Xds_Fields.
From Coq Require Import Sorted Lra Lia.
Local Open Scope R_scope.

Lemma sorted_nth rs i j : StronglySorted Rlt rs -> (i < j)%nat -> (j < length rs)%nat -> nth i rs 0 < nth j rs 0.
Proof.
  intro S. revert i j. induction S as [|a l S IH F]; intros i j H L; [simpl in L; lia|].
  destruct j as [|j]; [lia|]. simpl in L. destruct i as [|i].
  - simpl. rewrite Forall_forall in F. apply F. apply nth_In. lia.
  - simpl. apply IH; lia.
Qed.
Lemma sorted_nth_le rs i j : StronglySorted Rlt rs -> (i <= j)%nat -> (j < length rs)%nat -> nth i rs 0 <= nth j rs 0.
Proof.
  intros S H L. destruct (Nat.eq_dec i j) as [->|N]; [lra|]. apply Rlt_le. apply sorted_nth; [exact S|lia|exact L].
Qed.
Lemma below_spec rs x i : StronglySorted Rlt rs -> (i < length rs)%nat ->
  (i < below (map XF rs) (XF x))%nat <-> nth i rs 0 < x.
Proof.
  intro S. revert i. induction S as [|a l S IH F]; intros i L; [simpl in L; lia|].
  unfold below. simpl. unfold Rltb. destruct (Rlt_dec a x) as [H|H].
  - simpl. destruct i as [|i]; [split; [auto|lia]|]. simpl in L. fold (below (map XF l) (XF x)).
    pose proof (IH i ltac:(lia)) as Q. unfold below in Q |- *. split; intro Z; [apply Q; lia|apply Q in Z; lia].
  - fold (below (map XF l) (XF x)).
    assert (Z : below (map XF l) (XF x) = 0%nat).
    { destruct (below (map XF l) (XF x)) eqn:E; [reflexivity|]. exfalso.
      assert (LL : (0 < length l)%nat) by (destruct l; [discriminate E|simpl; lia]).
      assert (B : nth 0 l 0 < x) by (apply IH; [exact LL|lia]).
      rewrite Forall_forall in F. specialize (F (nth 0 l 0) (nth_In l 0 LL)). lra. }
    rewrite Z. split; [lia|]. intro B. exfalso.
    destruct i as [|i]; [simpl in B; lra|]. simpl in B, L.
    assert (Li : (i < length l)%nat) by lia.
    rewrite Forall_forall in F. specialize (F (nth i l 0) (nth_In l 0 Li)). lra.
Qed.
Lemma below_len rs x : (below (map XF rs) (XF x) <= length rs)%nat.
Proof.
  unfold below. induction rs as [|a l IH]; simpl; [lia|]. destruct (Rltb a x); simpl; lia.
Qed.
Lemma nth_xf i rs : (i < length rs)%nat -> nth i (map XF rs) XNaN = XF (nth i rs 0).
Proof. intro L. rewrite (nth_indep _ XNaN (XF 0)) by (rewrite map_length; exact L). apply (map_nth XF). Qed.
Lemma nth_err (rs : list R) i : (i < length rs)%nat -> nth_error rs i = Some (nth i rs 0).
Proof. intro L. apply nth_error_nth'. exact L. Qed.
Lemma err_nth (rs : list R) i a : nth_error rs i = Some a -> (i < length rs)%nat /\ nth i rs 0 = a.
Proof.
  intro H. split; [apply nth_error_Some; congruence|]. apply nth_error_nth with (d := 0) in H. exact H.
Qed.

Section Axis.
Variables (l : list xr) (rs : list R).
Hypothesis A : table_axis l rs.
Lemma ax_sorted : StronglySorted Rlt rs. Proof. apply A. Qed.
Lemma ax_len : (2 <= length rs)%nat. Proof. apply A. Qed.
Lemma ax_eq : l = map XF rs. Proof. apply A. Qed.

Lemma ax_valid : axis_valid l = true.
Proof.
  rewrite ax_eq. unfold axis_valid. rewrite map_length. apply andb_true_iff. split; [apply Nat.leb_le; apply ax_len|].
  pose proof ax_sorted as S. clear - S. induction S as [|a k S IH F]; [reflexivity|].
  destruct k as [|b k]; [reflexivity|]. change (map XF (a :: b :: k)) with (XF a :: map XF (b :: k)).
  change (ascending (XF a :: map XF (b :: k))) with (Rltb a b && ascending (map XF (b :: k)))%bool.
  rewrite IH. inversion F; subst. unfold Rltb. destruct (Rlt_dec a b); [reflexivity|tauto].
Qed.
Lemma ax_first : nth 0 l XNaN = XF (first_of rs).
Proof. rewrite ax_eq. apply nth_xf. pose proof ax_len. lia. Qed.
Lemma ax_last : nth (length l - 1) l XNaN = XF (last_of rs).
Proof. rewrite ax_eq, map_length. apply nth_xf. pose proof ax_len. lia. Qed.
Lemma ax_outside x : outside l (XF x) = false <-> first_of rs <= x <= last_of rs.
Proof.
  unfold outside. rewrite ax_first, ax_last. simpl. unfold Rltb.
  destruct (Rlt_dec x (first_of rs)), (Rlt_dec (last_of rs) x); simpl; split; intros; try discriminate; try reflexivity; lra.
Qed.
Lemma ax_slot x : first_of rs <= x <= last_of rs ->
  let i := slot l (XF x) in
  (S i < length rs)%nat /\ nth i rs 0 <= x <= nth (S i) rs 0 /\
  share l (XF x) = XF ((x - nth i rs 0) / (nth (S i) rs 0 - nth i rs 0)) /\
  (i = 0%nat \/ nth i rs 0 < x).
Proof.
  intros B i. pose proof ax_len as N. pose proof ax_sorted as S.
  set (c := below (map XF rs) (XF x)).
  assert (Ei : i = Nat.min (c - 1) (length rs - 2)).
  { unfold i, slot, c. rewrite ax_eq, map_length. reflexivity. }
  assert (C : (c <= length rs - 1)%nat).
  { destruct (le_lt_dec c (length rs - 1)) as [H|H]; [exact H|]. exfalso.
    assert (Q : nth (length rs - 1) rs 0 < x) by (apply below_spec; [exact S|lia|exact H]).
    unfold last_of in B. lra. }
  assert (Hi : (Datatypes.S i < length rs)%nat) by lia.
  assert (U : x <= nth (Datatypes.S i) rs 0).
  { apply Rnot_lt_le. intro Q. apply below_spec in Q; [|exact S|lia]. fold c in Q. lia. }
  assert (LO : i = 0%nat \/ nth i rs 0 < x).
  { destruct (Nat.eq_dec c 0) as [Z|Z]; [left; lia|]. right. apply below_spec; [exact S|lia|]. fold c. lia. }
  assert (LE : nth i rs 0 <= x).
  { destruct LO as [Q|Q]; [rewrite Q; exact (proj1 B)|lra]. }
  split; [exact Hi|]. split; [split; assumption|]. split; [|exact LO].
  unfold share. fold i. rewrite ax_eq, !nth_xf by lia.
  assert (P : nth i rs 0 < nth (Datatypes.S i) rs 0) by (apply sorted_nth; [exact S|lia|exact Hi]).
  unfold xsub. cbn [xopp xadd]. rewrite xdiv_fin by lra. reflexivity.
Qed.
(** The interpolated value does not depend on which of two adjacent
    intervals a node is counted to. *)
Lemma ax_indep x i a b (g : nat -> R) : in_interval rs i x a b ->
  let s := slot l (XF x) in
  lerp ((x - a) / (b - a)) (g i) (g (S i)) =
  lerp ((x - nth s rs 0) / (nth (S s) rs 0 - nth s rs 0)) (g s) (g (S s)).
Proof.
  intros (Ha & Hb & B) s. apply err_nth in Ha as [La Ha]. apply err_nth in Hb as [Lb Hb]. pose proof ax_sorted as SO.
  assert (R0 : first_of rs <= x <= last_of rs).
  { unfold first_of, last_of. split.
    - apply Rle_trans with a; [|lra]. rewrite <- Ha. apply sorted_nth_le; [exact SO|lia|exact La].
    - apply Rle_trans with b; [lra|]. rewrite <- Hb. apply sorted_nth_le; [exact SO|lia|lia]. }
  destruct (ax_slot x R0) as (Ls & (B1 & B2) & _ & LO). fold s in Ls, B1, B2, LO.
  assert (PI : a < b) by (rewrite <- Ha, <- Hb; apply sorted_nth; [exact SO|lia|exact Lb]).
  assert (PS : nth s rs 0 < nth (S s) rs 0) by (apply sorted_nth; [exact SO|lia|exact Ls]).
  destruct (lt_eq_lt_dec i s) as [[H|H]|H].
  - exfalso. destruct LO as [Z|Z]; [lia|].
    assert (Q : nth (S i) rs 0 <= nth s rs 0) by (apply sorted_nth_le; [exact SO|lia|lia]). lra.
  - subst i. rewrite Ha, Hb. reflexivity.
  - assert (Q : nth (S s) rs 0 <= nth i rs 0) by (apply sorted_nth_le; [exact SO|lia|exact La]).
    assert (x = a) by lra. subst x.
    assert (E : nth (S s) rs 0 = a) by lra.
    assert (i = S s).
    { destruct (Nat.eq_dec i (S s)) as [Y|Y]; [exact Y|]. exfalso.
      assert (K : nth (S s) rs 0 < nth i rs 0) by (apply sorted_nth; [exact SO|lia|exact La]). lra. }
    subst i. rewrite E. unfold lerp.
    replace ((a - a) / (b - a)) with 0 by (field; lra).
    replace ((a - nth s rs 0) / (a - nth s rs 0)) with 1 by (field; lra). ring.
Qed.
End Axis.

Section Table.
Variables (tb : p3_table) (fr rr qn : list R) (L : nat -> nat -> nat -> R).
Hypothesis RT : real_table tb fr rr qn L.
Let f := rgi (ax_fr tb) (ax_rr tb) (ax_qn tb) (t_lam tb).

Lemma rgi_slot x y z : first_of fr <= x <= last_of fr -> first_of rr <= y <= last_of rr -> first_of qn <= z <= last_of qn ->
  let i := slot (ax_fr tb) (XF x) in let j := slot (ax_rr tb) (XF y) in let k := slot (ax_qn tb) (XF z) in
  f (XF x) (XF y) (XF z) =
  XF (trilinear L i j k ((x - nth i fr 0) / (nth (S i) fr 0 - nth i fr 0))
        ((y - nth j rr 0) / (nth (S j) rr 0 - nth j rr 0)) ((z - nth k qn 0) / (nth (S k) qn 0 - nth k qn 0))).
Proof.
  intros Bx By Bz i j k. destruct RT as [A1 A2 A3 A4].
  unfold f, rgi. cbn [isnan].
  rewrite (proj2 (ax_outside _ _ A1 x) Bx), (proj2 (ax_outside _ _ A2 y) By), (proj2 (ax_outside _ _ A3 z) Bz).
  cbn [orb]. fold i j k.
  destruct (ax_slot _ _ A1 x Bx) as (Li & _ & Si & _). destruct (ax_slot _ _ A2 y By) as (Lj & _ & Sj & _).
  destruct (ax_slot _ _ A3 z Bz) as (Lk & _ & Sk & _). fold i in Li, Si. fold j in Lj, Sj. fold k in Lk, Sk.
  rewrite Si, Sj, Sk. set (u := _ / _). set (v := _ / _). set (w := _ / _).
  cbv zeta. cbn [wt sh1 fold_left]. unfold xsub. rewrite !A4 by lia. cbn [xopp xadd xmul].
  apply (f_equal XF). unfold trilinear, lerp. ring.
Qed.
Lemma rgi_trilinear x y z i j k a a' b b' c c' : in_interval fr i x a a' -> in_interval rr j y b b' ->
  in_interval qn k z c c' ->
  f (XF x) (XF y) (XF z) =
  XF (trilinear L i j k ((x - a) / (a' - a)) ((y - b) / (b' - b)) ((z - c) / (c' - c))).
Proof.
  intros Hx Hy Hz. destruct RT as [A1 A2 A3 A4].
  assert (rng : forall l rs u n p q, table_axis l rs -> in_interval rs n u p q -> first_of rs <= u <= last_of rs).
  { intros l rs u n p q A (Ha & Hb & B). apply err_nth in Ha as [La Ha]. apply err_nth in Hb as [Lb Hb].
    pose proof (ax_sorted _ _ A) as SO. unfold first_of, last_of. split.
    - apply Rle_trans with p; [|lra]. rewrite <- Ha. apply sorted_nth_le; [exact SO|lia|exact La].
    - apply Rle_trans with q; [lra|]. rewrite <- Hb. apply sorted_nth_le; [exact SO|lia|lia]. }
  rewrite rgi_slot by eauto. apply (f_equal XF). symmetry. unfold trilinear.
  set (i0 := slot (ax_fr tb) (XF x)). set (j0 := slot (ax_rr tb) (XF y)). set (k0 := slot (ax_qn tb) (XF z)).
  set (w0 := (z - nth k0 qn 0) / (nth (S k0) qn 0 - nth k0 qn 0)).
  set (v0 := (y - nth j0 rr 0) / (nth (S j0) rr 0 - nth j0 rr 0)).
  assert (Z : forall p q, lerp ((z - c) / (c' - c)) (L p q k) (L p q (S k)) = lerp w0 (L p q k0) (L p q (S k0))).
  { intros p q. exact (ax_indep _ _ A3 z k c c' (fun n => L p q n) Hz). }
  rewrite !Z.
  assert (Y : forall p, lerp ((y - b) / (b' - b)) (lerp w0 (L p j k0) (L p j (S k0))) (lerp w0 (L p (S j) k0) (L p (S j) (S k0)))
     = lerp v0 (lerp w0 (L p j0 k0) (L p j0 (S k0))) (lerp w0 (L p (S j0) k0) (L p (S j0) (S k0)))).
  { intro p. exact (ax_indep _ _ A2 y j b b' (fun n => lerp w0 (L p n k0) (L p n (S k0))) Hy). }
  rewrite !Y.
  exact (ax_indep _ _ A1 x i a a' (fun n => lerp v0 (lerp w0 (L n j0 k0) (L n j0 (S k0))) (lerp w0 (L n (S j0) k0) (L n (S j0) (S k0)))) Hx).
Qed.
Lemma lerp_between t a b lo hi : 0 <= t <= 1 -> lo <= a <= hi -> lo <= b <= hi -> lo <= lerp t a b <= hi.
Proof. intros T A B. unfold lerp. nra. Qed.
Lemma rgi_between x y z lo hi : first_of fr <= x <= last_of fr -> first_of rr <= y <= last_of rr ->
  first_of qn <= z <= last_of qn ->
  (forall i j k, (i < length fr)%nat -> (j < length rr)%nat -> (k < length qn)%nat -> lo <= L i j k <= hi) ->
  exists v, f (XF x) (XF y) (XF z) = XF v /\ lo <= v <= hi.
Proof.
  intros Bx By Bz H. rewrite (rgi_slot x y z Bx By Bz). eexists. split; [reflexivity|]. destruct RT as [A1 A2 A3 A4].
  destruct (ax_slot _ _ A1 x Bx) as (Li & Ri & _ & _). destruct (ax_slot _ _ A2 y By) as (Lj & Rj & _ & _).
  destruct (ax_slot _ _ A3 z Bz) as (Lk & Rk & _ & _).
  assert (U : forall p q r, p < q -> p <= r <= q -> 0 <= (r - p) / (q - p) <= 1).
  { intros p q r P [Q1 Q2]. split.
    - apply Rmult_le_pos; [lra|]. apply Rlt_le, Rinv_0_lt_compat. lra.
    - apply Rmult_le_reg_r with (q - p); [lra|]. unfold Rdiv. rewrite Rmult_assoc, Rinv_l by lra. lra. }
  assert (P1 := sorted_nth fr _ _ (ax_sorted _ _ A1) (Nat.lt_succ_diag_r _) Li).
  assert (P2 := sorted_nth rr _ _ (ax_sorted _ _ A2) (Nat.lt_succ_diag_r _) Lj).
  assert (P3 := sorted_nth qn _ _ (ax_sorted _ _ A3) (Nat.lt_succ_diag_r _) Lk).
  unfold trilinear. repeat apply lerp_between; try (apply U; assumption); apply H; lia.
Qed.
Lemma rgi_missing x y z : x = XNaN \/ y = XNaN \/ z = XNaN -> f x y z = XNaN.
Proof.
  unfold f, rgi. intros [ -> | [ -> | -> ] ]; cbn [isnan]; rewrite ?orb_true_r; cbn [orb]; reflexivity.
Qed.
Lemma rgi_outside x y z : x < first_of fr \/ last_of fr < x \/ y < first_of rr \/ last_of rr < y \/ z < first_of qn \/ last_of qn < z ->
  f (XF x) (XF y) (XF z) = XNaN.
Proof.
  intro H. destruct RT as [A1 A2 A3 A4]. unfold f, rgi. cbn [isnan orb].
  destruct (outside (ax_fr tb) (XF x)) eqn:E1; [reflexivity|].
  destruct (outside (ax_rr tb) (XF y)) eqn:E2; [reflexivity|].
  destruct (outside (ax_qn tb) (XF z)) eqn:E3; [reflexivity|].
  apply (ax_outside _ _ A1) in E1. apply (ax_outside _ _ A2) in E2. apply (ax_outside _ _ A3) in E3. lra.
Qed.
End Table.
