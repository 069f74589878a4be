(** A chunk size below one makes the column loop run forever. *)
From Verif Require Import Gen_Facts Strat_Corol QN_Proofs QN_Api QN_Corol.
Local Open Scope nat_scope.

Definition then_hang {A B} (r : res A * mdl) (r' : res B * mdl) : Prop :=
  forall a, fst r = Ok a -> fst r' = Raise Hang.

Lemma bind_hang {A B C} (x : M A) (k : A -> M B) (k' : A -> M C) m :
  (forall a m, then_hang (k a m) (k' a m)) -> then_hang (mbind x k m) (mbind x k' m).
Proof. intro Hk. unfold mbind. destruct (x m) as [[a|e] m']; [apply Hk|]. intros a E; discriminate. Qed.

Lemma order_hang {A B} T c (f : nat -> res A) (k : list A -> M B) (k' : list A -> M B) m : (c <= 0)%Z ->
  then_hang
    ((act order <- lift (tt_order Serial T); act cols <- lift (run_columns order f); act cols <- lift (np_stack cols); k cols) m)
    ((act order <- lift (tt_order (Parallel (Some c)) T); act cols <- lift (run_columns order f); act cols <- lift (np_stack cols); k' cols) m).
Proof.
  intros Hc a E. destruct T as [|T].
  - exfalso. cbv in E. discriminate.
  - unfold mbind at 1, lift at 1. unfold tt_order. rewrite chunk_hang by lia. reflexivity.
Qed.

Lemma raise_hang {A B} e m (r : res B * mdl) : then_hang (@raise A e m) r.
Proof. intros a E; discriminate. Qed.

Lemma strat_hang m Ncol rad thr dr c : (c <= 0)%Z -> Ncol <> Some 1 ->
  then_hang (set_stratiform Ncol rad Serial thr dr m) (set_stratiform Ncol rad (Parallel (Some c)) thr dr m).
Proof.
  intros Hc Hn. unfold set_stratiform.
  do 4 (apply bind_hang; intros).
  destruct (match Ncol with Some 1 => true | _ => false end) eqn:E.
  { exfalso. apply Hn. destruct Ncol as [[|[|]]|]; congruence. }
  apply bind_hang; intros a4 m4. destruct (dim_sub a4); [|apply raise_hang].
  do 3 (apply bind_hang; intros). apply order_hang, Hc.
Qed.

Lemma precip_hang m is_conv Ncol rad hs thr dr c : (c <= 0)%Z -> Ncol <> Some 1 -> num_sub m <> 1 ->
  then_hang (set_precip is_conv Ncol rad Serial hs thr dr m) (set_precip is_conv Ncol rad (Parallel (Some c)) hs thr dr m).
Proof.
  intros Hc Hn Hm. unfold set_precip. rewrite !bind_get.
  apply bind_hang; intros _ m1. cbv zeta. do 3 (apply bind_hang; intros).
  destruct (Nat.eqb_spec (match Ncol with None => num_sub m | Some n => n end) 1) as [E|_].
  { exfalso. destruct Ncol; [subst; contradiction|contradiction]. }
  apply bind_hang; intros. destruct (negb _); [apply raise_hang|].
  do 3 (apply bind_hang; intros). apply order_hang, Hc.
Qed.

Lemma qn_order_hang c T : (c <= 0)%Z -> 1 <= T -> qn_order (Parallel (Some c)) T = Raise Hang.
Proof. intros Hc HT. unfold qn_order. apply qn_hang; lia. Qed.

Lemma qn_call_hang m h thr perm gam c : (c <= 0)%Z -> num_sub m <> 1 ->
  then_hang (set_q_n h false true false Serial thr perm gam m) (set_q_n h false true false (Parallel (Some c)) thr perm gam m).
Proof.
  intros Hc Hm. unfold set_q_n. rewrite !bind_get. cbv zeta. destruct (num_sub m =? 0); [apply raise_hang|].
  apply bind_hang; intros frac m1. do 5 (apply bind_hang; intros).
  destruct (Nat.eqb_spec (num_sub m) 1) as [E|_]; [contradiction|]. simpl orb. cbv iota.
  intros z E. rewrite !bind_assoc in *. revert z E.
  match goal with |- forall z, fst ?x = Ok z -> fst ?y = _ => change (then_hang x y) end.
  apply bind_hang; intros mean mm.
  destruct frac as [|fr frs].
  - intros z E. exfalso. cbv in E. discriminate.
  - intros z _. unfold mbind at 1, lift at 1. rewrite qn_order_hang; [reflexivity|exact Hc|simpl; lia].
Qed.
