(** Concrete runs that violate the full statements of C05, C06 and C07. *)
From Verif Require Import Gen_Facts Conv_Proofs Strat_Spec Strat_Level Strat_Api Strat_Corol Witness.
From Coq Require Import Lqa ZifyBool ZifyNat.
Local Open Scope nat_scope.

Definition x_m' : mdl := snd (set_stratiform (Some 4) false Serial 0%Q w_dr x_m).
Definition x_gl := w_flags x_m' "strat_frac_subcolumns_cl".
Definition x_gi := w_flags x_m' "strat_frac_subcolumns_ci".

Lemma x_no_conv t j i : ~ convective x_m t j i.
Proof. intros [H _]; discriminate. Qed.

Lemma x_req : requested false 0 (at2 0%Q (pick x_fl x_fi "cl") 0 0) (at2 0%Q (pick x_fl x_fi "cl") 0 0) 4 2.
Proof. exact (count_requested_micro 0 _ (1#2) 4). Qed.

Lemma count_refuted :
  exists m Ncol rad sch thr dr N T H F Qv m' gl t j kl a,
  strat_ready m Ncol rad N T H F Qv /\ good_sched sch /\ draws_ok dr /\
  set_stratiform Ncol rad sch thr dr m = (Ok tt, m') /\ flags m' "strat_frac_subcolumns_cl" gl /\
  t < T /\ S j < H /\ requested rad thr (at2 0%Q (Qv "cl"%string) t j) (at2 0%Q (F "cl"%string) t j) N kl /\
  number_of (fun i => i < N /\ ~ convective m t j i) a /\
  (Z.of_nat (occ (at2 [] gl t j)) < Z.min kl (Z.of_nat a))%Z.
Proof.
  exists x_m, (Some 4), false, Serial, 0%Q, w_dr, 4, 1, 3, (pick x_fl x_fi), (pick x_fl x_fi), x_m', x_gl, 0, 0, 2%Z, 4.
  split; [exact x_ready|]. split; [exact I|]. split; [exact w_draws_ok|].
  split; [vm_compute; reflexivity|]. split; [vm_compute; reflexivity|].
  split; [lia|]. split; [lia|]. split; [exact x_req|]. split.
  - exists (seq 0 4). split; [apply seq_NoDup|]. split; [reflexivity|]. intro i. rewrite in_seq.
    pose proof (x_no_conv 0 0 i). intuition lia.
  - vm_compute. reflexivity.
Qed.

Lemma overlap_refuted :
  exists m Ncol rad sch thr dr N T H F Qv m' gl gi t j kl n,
  strat_ready m Ncol rad N T H F Qv /\ good_sched sch /\ draws_ok dr /\
  set_stratiform Ncol rad sch thr dr m = (Ok tt, m') /\
  flags m' "strat_frac_subcolumns_cl" gl /\ flags m' "strat_frac_subcolumns_ci" gi /\
  t < T /\ S j < H /\ requested rad thr (at2 0%Q (Qv "cl"%string) t j) (at2 0%Q (F "cl"%string) t j) N kl /\
  let below i := (flagged (at2 [] gl t (S j)) i \/ flagged (at2 [] gi t (S j)) i) /\ ~ convective m t j i in
  number_of below n /\
  ~ number_of (fun i => flagged (at2 [] gl t j) i /\ below i) (Z.to_nat (Z.min kl (Z.of_nat n))).
Proof.
  exists x_m, (Some 4), false, Serial, 0%Q, w_dr, 4, 1, 3, (pick x_fl x_fi), (pick x_fl x_fi), x_m', x_gl, x_gi, 0, 0, 2%Z, 2.
  split; [exact x_ready|]. split; [exact I|]. split; [exact w_draws_ok|].
  split; [vm_compute; reflexivity|]. split; [vm_compute; reflexivity|]. split; [vm_compute; reflexivity|].
  split; [lia|]. split; [lia|]. split; [exact x_req|]. intro below. split.
  - assert (E : forall i, below i <-> flagged (at2 [] x_gl 0 1) i).
    { intro i. unfold below. replace (at2 [] x_gi 0 1) with (at2 [] x_gl 0 1) by (vm_compute; reflexivity).
      pose proof (x_no_conv 0 0 i). tauto. }
    eapply number_of_ext; [intro i; symmetry; apply E|]. apply occ_number.
  - intros (L & _ & EL & HL). assert (Hin : In (nth 0 L 0) L) by (apply nth_In; rewrite EL; vm_compute; lia).
    apply HL in Hin as [Hin _]. unfold flagged in Hin.
    assert (B : at2 [] x_gl 0 0 = repeat false 4) by (vm_compute; reflexivity).
    rewrite B, nth_repeat_bool in Hin. discriminate.
Qed.

Definition y_m' : mdl := snd (set_stratiform None false Serial 0%Q w_dr y_m).
Definition y_gl := w_flags y_m' "strat_frac_subcolumns_cl".

Lemma conv_refuted :
  exists m Ncol rad sch thr dr N T H F Qv m' gl t j i,
  strat_ready m Ncol rad N T H F Qv /\ good_sched sch /\ draws_ok dr /\
  set_stratiform Ncol rad sch thr dr m = (Ok tt, m') /\ flags m' "strat_frac_subcolumns_cl" gl /\
  t < T /\ j < H /\ convective m t j i /\ flagged (at2 [] gl t j) i.
Proof.
  exists y_m, None, false, Serial, 0%Q, w_dr, 2, 1, 2, (pick y_f y_f), (pick y_f y_f), y_m', y_gl, 0, 0, 0.
  split; [exact y_ready|]. split; [exact I|]. split; [exact w_draws_ok|].
  split; [vm_compute; reflexivity|]. split; [vm_compute; reflexivity|].
  split; [lia|]. split; [lia|]. split; [|vm_compute; reflexivity].
  split; [reflexivity|]. exists "cl"%string, [[[true; false]; [false; false]]].
  split; [left; reflexivity|]. split; vm_compute; reflexivity.
Qed.

Lemma columns_once s T : good_sched s -> tt_order s T = Ok (map Z.of_nat (seq 0 T)).
Proof. intro H. rewrite (tt_order_good s T H). f_equal. apply (arange_nat 0 T). Qed.
