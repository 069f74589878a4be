(** Concrete objects meeting the hypotheses of the properties of the
    mixing-ratio and number distribution. *)
From Verif Require Import Gen_Model Spec_Common Gen_Spec QN_Spec Witness.
Local Open Scope string_scope.
Local Open Scope list_scope.
Local Open Scope Q_scope.

Definition with_var (m : mdl) (name : string) (v : val) : mdl :=
  {| ds := put (ds m) name v; dim_sub := dim_sub m; ntime := ntime m; process_conv := process_conv m; nm := nm m |}.

(** The witness after stratiform generation, with liquid wherever the fraction is positive. *)
Definition v_q : list (list Q) := [[1#100; 1#50; 1#100]; [1#100; 1#20; 1#25]].
Definition v_m : mdl := with_var w_ms "q_strat_cl" (VGrid v_q).
Definition v_perm : nat -> nat -> nat -> list nat := fun _ _ n => rev (seq 0 n).
Definition v_fl := w_flags v_m "strat_frac_subcolumns_cl".
Definition v_gam : gdraws := fun t j => map Fin (repeat (1#300) (occ (at2 [] v_fl t j))).
Lemma v_q_shape : shape2 2 3 v_q. Proof. shape. Qed.

Lemma v_ready : qn_ready v_m false false 4 2 3 "cl" w_f1 v_q w_q v_fl.
Proof.
  split; [repeat constructor|]. split; [repeat constructor|]. split; [reflexivity|]. split; [reflexivity|].
  split; [exists "cf_cl"; split; reflexivity|]. split; [exact w_f1_shape|].
  split; [exists "q_strat_cl"; split; vm_compute; reflexivity|]. split; [exact v_q_shape|].
  split; [intros _; split; [exists "n_cl"; split; vm_compute; reflexivity|exact w_q_shape]|].
  split; [vm_compute; reflexivity|]. apply shape3b_ok. vm_compute; reflexivity.
Qed.
Lemma w_qn_ready : qn_ready w_ms false false 4 2 3 "cl" w_f1 w_q w_q v_fl.
Proof.
  split; [repeat constructor|]. split; [repeat constructor|]. split; [reflexivity|]. split; [reflexivity|].
  split; [exists "cf_cl"; split; reflexivity|]. split; [exact w_f1_shape|].
  split; [exists "q_strat_cl"; split; vm_compute; reflexivity|]. split; [exact w_q_shape|].
  split; [intros _; split; [exists "n_cl"; split; vm_compute; reflexivity|exact w_q_shape]|].
  split; [vm_compute; reflexivity|]. apply shape3b_ok. vm_compute; reflexivity.
Qed.
Lemma v_perm_ok : perms_ok v_perm.
Proof. intros t j n. unfold v_perm, is_perm. symmetry. apply Permutation_rev. Qed.
Lemma v_gam_ok : gammas_ok 2 3 v_fl v_gam.
Proof.
  intros t j _ _. eexists. split; [reflexivity|]. split; [apply repeat_length|].
  intros x Hx. apply repeat_spec in Hx. subst x. discriminate.
Qed.
Lemma v_present : present_where_fraction 2 3 w_f1 v_fl.
Proof.
  intros t j i Ht Hj Hi.
  destruct t as [|[|]]; [| |lia]; (destruct j as [|[|[|]]]; [| | |lia]); try (vm_compute; reflexivity);
    exfalso; unfold flagged in Hi; destruct i as [|[|[|[|[|]]]]]; vm_compute in Hi; discriminate.
Qed.

(** One subcolumn: after stratiform generation with N_columns = 1. *)
Definition o_m : mdl := snd (set_stratiform (Some 1%nat) false Serial (1#1000) w_dr (w_m false)).
Definition o_mp : mdl := snd (set_precip false None false Serial ["pl"; "pi"] (1#1000) w_dr o_m).
Lemma o_ready : qn_ready o_mp false false 1 2 3 "pi" w_f1 w_q w_q (w_flags o_mp "strat_frac_subcolumns_pi").
Proof.
  split; [repeat constructor|]. split; [repeat constructor|]. split; [reflexivity|]. split; [reflexivity|].
  split; [exists "cf_pi"; split; reflexivity|]. split; [exact w_f1_shape|].
  split; [exists "q_strat_pi"; split; vm_compute; reflexivity|]. split; [exact w_q_shape|].
  split; [intros _; split; [exists "n_pi"; split; vm_compute; reflexivity|exact w_q_shape]|].
  split; [vm_compute; reflexivity|]. apply shape3b_ok. vm_compute; reflexivity.
Qed.
