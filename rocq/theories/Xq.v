(** Numbers of the model: exact rationals extended with the IEEE special
    values that EMC2's expressions can produce.  Floating-point rounding,
    overflow, underflow and the sign of zero are not modelled. *)
From Coq Require Export QArith Qround Qabs Qminmax.
From Coq Require Import ZArith Bool Lqa Lia.
Local Open Scope Q_scope.

Inductive xq := Fin (q : Q) | NaN | PInf | NInf.

Definition xneg (a : xq) : xq :=
  match a with Fin q => Fin (- q) | NaN => NaN | PInf => NInf | NInf => PInf end.

Definition xadd (a b : xq) : xq :=
  match a, b with
  | Fin x, Fin y => Fin (x + y)
  | NaN, _ | _, NaN => NaN
  | PInf, NInf | NInf, PInf => NaN
  | PInf, _ | _, PInf => PInf
  | NInf, _ | _, NInf => NInf
  end.

Definition xsub (a b : xq) : xq := xadd a (xneg b).

(** Infinity with the sign of [q]; NaN for 0 (the value of [0 * inf]). *)
Definition sign_inf (q : Q) : xq :=
  match Qcompare q 0 with Gt => PInf | Lt => NInf | Eq => NaN end.

Definition xmul (a b : xq) : xq :=
  match a, b with
  | Fin x, Fin y => Fin (x * y)
  | NaN, _ | _, NaN => NaN
  | PInf, PInf | NInf, NInf => PInf
  | PInf, NInf | NInf, PInf => NInf
  | PInf, Fin x | Fin x, PInf => sign_inf x
  | NInf, Fin x | Fin x, NInf => xneg (sign_inf x)
  end.

(** Division; a zero divisor counts as +0, so x/0 is an infinity with the
    sign of x and 0/0 is NaN (the code runs under
    [np.seterr(divide='ignore', invalid='ignore')]). *)
Definition xdiv (a b : xq) : xq :=
  match a, b with
  | Fin x, Fin y => if Qeq_bool y 0 then sign_inf x else Fin (x / y)
  | NaN, _ | _, NaN => NaN
  | Fin _, PInf | Fin _, NInf => Fin 0
  | PInf, Fin y => if Qle_bool 0 y then PInf else NInf
  | NInf, Fin y => if Qle_bool 0 y then NInf else PInf
  | _, _ => NaN
  end.

Definition Qlt_bool (x y : Q) : bool := negb (Qle_bool y x).

(** [a > b]; False whenever NaN is involved. *)
Definition xgt (a b : xq) : bool :=
  match a, b with
  | Fin x, Fin y => Qlt_bool y x
  | NaN, _ | _, NaN => false
  | PInf, PInf => false
  | PInf, _ => true
  | _, PInf => false
  | NInf, _ => false
  | _, NInf => true
  end.

Definition isnan (a : xq) : bool := match a with NaN => true | _ => false end.

(** [np.where(np.isnan(x), 0, x)]. *)
Definition nan0 (a : xq) : xq := if isnan a then Fin 0 else a.

(** Equality up to representation of rationals. *)
Definition xeq (a b : xq) : Prop :=
  match a, b with
  | Fin x, Fin y => x == y
  | NaN, NaN | PInf, PInf | NInf, NInf => True
  | _, _ => False
  end.

Infix "=x=" := xeq (at level 70).

Lemma Qlt_bool_iff x y : Qlt_bool x y = true <-> x < y.
Proof.
  unfold Qlt_bool. rewrite negb_true_iff. split.
  - intro H. apply Qnot_le_lt. intro L. apply Qle_bool_iff in L. congruence.
  - intro H. destruct (Qle_bool y x) eqn:E; [|reflexivity]. apply Qle_bool_iff in E. lra.
Qed.

Lemma Qlt_bool_false x y : Qlt_bool x y = false <-> y <= x.
Proof.
  unfold Qlt_bool. rewrite negb_false_iff. apply Qle_bool_iff.
Qed.

Lemma xeq_refl a : a =x= a.
Proof. destruct a; simpl; auto; reflexivity. Qed.
Lemma xeq_sym a b : a =x= b -> b =x= a.
Proof. destruct a, b; simpl; auto; intro; symmetry; assumption. Qed.
Lemma xeq_trans a b c : a =x= b -> b =x= c -> a =x= c.
Proof. destruct a, b, c; simpl; try tauto. intros; etransitivity; eassumption. Qed.

Lemma xdiv_fin x y : ~ y == 0 -> xdiv (Fin x) (Fin y) = Fin (x / y).
Proof.
  intro H. unfold xdiv. destruct (Qeq_bool y 0) eqn:E; [|reflexivity].
  apply Qeq_bool_iff in E. contradiction.
Qed.

(** ** Rounding *)

(** [np.round] of one value: nearest integer, ties to even. *)
Definition round_he (q : Q) : Z :=
  let f := Qfloor q in
  match Qcompare (q - inject_Z f) (1 # 2) with
  | Lt => f
  | Gt => (f + 1)%Z
  | Eq => if Z.even f then f else (f + 1)%Z
  end%Q.

Lemma round_he_near q : Qabs (inject_Z (round_he q) - q) <= 1 # 2.
Proof.
  unfold round_he. pose proof (Qfloor_le q) as H1. pose proof (Qlt_floor q) as H2.
  rewrite inject_Z_plus in H2. change (inject_Z 1) with 1 in H2. apply Qabs_Qle_condition.
  destruct (Qcompare_spec (q - inject_Z (Qfloor q)) (1 # 2)) as [E|E|E].
  - destruct (Z.even (Qfloor q)); rewrite ?inject_Z_plus; change (inject_Z 1) with 1 in *; split; lra.
  - split; lra.
  - rewrite inject_Z_plus; change (inject_Z 1) with 1 in *; split; lra.
Qed.

Lemma round_he_int z : round_he (inject_Z z) = z.
Proof.
  pose proof (round_he_near (inject_Z z)) as H. apply Qabs_Qle_condition in H.
  destruct H as [H1 H2].
  assert (A : inject_Z (round_he (inject_Z z)) < inject_Z (z + 1)) by (rewrite inject_Z_plus; change (inject_Z 1) with 1; lra).
  assert (B : inject_Z (z - 1) < inject_Z (round_he (inject_Z z))).
  { unfold Z.sub; rewrite inject_Z_plus; change (inject_Z (-(1))) with (-(1)); lra. }
  rewrite <- Zlt_Qlt in A, B. lia.
Qed.

Lemma round_he_comp p q : p == q -> round_he p = round_he q.
Proof.
  intro E. unfold round_he. rewrite (Qfloor_comp _ _ E).
  rewrite (Qcompare_comp (p - inject_Z (Qfloor q)) (q - inject_Z (Qfloor q)) (Qplus_comp _ _ E _ _ (Qeq_refl _)) (1 # 2) (1 # 2) (Qeq_refl _)).
  reflexivity.
Qed.

Lemma round_he_mono p q : p <= q -> (round_he p <= round_he q)%Z.
Proof.
  intro H. destruct (Qlt_le_dec p q) as [Hlt|Hge].
  2:{ rewrite (round_he_comp p q) by (apply Qle_antisym; assumption). lia. }
  pose proof (Qfloor_resp_le _ _ H) as Hf.
  pose proof (Qfloor_le p) as P1. pose proof (Qlt_floor p) as P2.
  pose proof (Qfloor_le q) as Q1. pose proof (Qlt_floor q) as Q2.
  rewrite inject_Z_plus in P2, Q2. change (inject_Z 1) with 1 in *.
  unfold round_he.
  destruct (Z.eq_dec (Qfloor p) (Qfloor q)) as [E|E].
  - rewrite E in *.
    destruct (Qcompare_spec (p - inject_Z (Qfloor q)) (1 # 2)) as [A|A|A];
    destruct (Qcompare_spec (q - inject_Z (Qfloor q)) (1 # 2)) as [B|B|B];
    try destruct (Z.even (Qfloor q)); try lia; exfalso; lra.
  - assert (Hlt' : (Qfloor p + 1 <= Qfloor q)%Z) by lia.
    destruct (Qcompare_spec (p - inject_Z (Qfloor p)) (1 # 2)) as [A|A|A];
    destruct (Qcompare_spec (q - inject_Z (Qfloor q)) (1 # 2)) as [B|B|B];
    try destruct (Z.even (Qfloor q)); try destruct (Z.even (Qfloor p)); lia.
Qed.

(** The count of a fraction between 0 and 1 never leaves 0..n. *)
Lemma round_count_range f n : 0 <= f <= 1 ->
  (0 <= round_he (f * inject_Z (Z.of_nat n)) <= Z.of_nat n)%Z.
Proof.
  intros [H0 H1].
  assert (Hn : 0 <= inject_Z (Z.of_nat n)) by (change 0 with (inject_Z 0); rewrite <- Zle_Qle; lia).
  split.
  - rewrite <- (round_he_int 0). apply round_he_mono. change (inject_Z 0) with 0. nra.
  - rewrite <- (round_he_int (Z.of_nat n)) at 2. apply round_he_mono. nra.
Qed.
