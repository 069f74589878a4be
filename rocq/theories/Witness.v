(** A small concrete model object used to show that the hypotheses of the
    property theorems are met: 2 times, 3 heights, types cl, ci, pl, pi. *)
From Verif Require Import Gen_Model Spec_Common Gen_Spec.
Local Open Scope string_scope.
Local Open Scope list_scope.

Definition wnames (p : string) : list (string * string) :=
  [("cl", (p ++ "cl")%string); ("ci", (p ++ "ci")%string); ("pl", (p ++ "pl")%string); ("pi", (p ++ "pi")%string)].

Definition w_names : names := {|
  q_strat := wnames "q_strat_"; q_conv := wnames "q_conv_"; n_field := wnames "n_";
  frac_strat := wnames "cf_"; frac_strat_rad := wnames "rcf_";
  frac_conv := wnames "ccf_"; frac_conv_rad := wnames "rccf_" |}.

Local Open Scope Q_scope.
Definition w_f1 : list (list Q) := [[1#2; 1#4; 1#2]; [3#4; 1; 0]].
Definition w_f2 : list (list Q) := [[1#4; 1#2; 0]; [1#3; 1#2; 1#2]].
Definition w_c1 : list (list Q) := [[1#4; 0; 1#4]; [1#8; 1#4; 0]].
Definition w_c2 : list (list Q) := [[1#2; 1#4; 0]; [0; 1#2; 0]].
Definition w_q : list (list Q) := [[1#100; 1#50; 1#100]; [1#100; 0; 1#25]].

Definition w_ds : list (string * val) :=
  [("cf_cl", VGrid w_f1); ("cf_ci", VGrid w_f2); ("cf_pl", VGrid w_f2); ("cf_pi", VGrid w_f1);
   ("rcf_cl", VGrid w_f2); ("rcf_ci", VGrid w_f1); ("rcf_pl", VGrid w_f2); ("rcf_pi", VGrid w_f1);
   ("ccf_cl", VGrid w_c1); ("ccf_ci", VGrid w_c2); ("ccf_pl", VGrid w_c1); ("ccf_pi", VGrid w_c2);
   ("rccf_cl", VGrid w_c1); ("rccf_ci", VGrid w_c2); ("rccf_pl", VGrid w_c1); ("rccf_pi", VGrid w_c2);
   ("q_strat_cl", VGrid w_q); ("q_strat_ci", VGrid w_q); ("q_strat_pl", VGrid w_q); ("q_strat_pi", VGrid w_q);
   ("q_conv_cl", VGrid w_q); ("q_conv_ci", VGrid w_q); ("q_conv_pl", VGrid w_q); ("q_conv_pi", VGrid w_q);
   ("n_cl", VGrid w_q); ("n_ci", VGrid w_q); ("n_pl", VGrid w_q); ("n_pi", VGrid w_q)].

Definition w_m (conv : bool) : mdl :=
  {| ds := w_ds; dim_sub := None; ntime := 2; process_conv := conv; nm := w_names |}.

Definition w_dr : draws := fun _ _ _ n => rev (seq 0 n).

Ltac shape := split; [reflexivity|simpl; intros; repeat (match goal with H : _ \/ _ |- _ => destruct H as [<-|H] end); try contradiction; reflexivity].
Ltac props := intros r Hr f Hf; simpl in Hr; repeat (destruct Hr as [<-|Hr]); try contradiction;
  simpl in Hf; repeat (destruct Hf as [<-|Hf]); try contradiction; split; discriminate.

Lemma w_f1_shape : shape2 2 3 w_f1. Proof. shape. Qed.
Lemma w_f2_shape : shape2 2 3 w_f2. Proof. shape. Qed.
Lemma w_c1_shape : shape2 2 3 w_c1. Proof. shape. Qed.
Lemma w_c2_shape : shape2 2 3 w_c2. Proof. shape. Qed.
Lemma w_q_shape : shape2 2 3 w_q. Proof. shape. Qed.
Lemma w_f1_prop : proportions w_f1. Proof. props. Qed.
Lemma w_f2_prop : proportions w_f2. Proof. props. Qed.
Lemma w_c1_prop : proportions w_c1. Proof. props. Qed.
Lemma w_c2_prop : proportions w_c2. Proof. props. Qed.

(** No input field of the witness bears an output name. *)
Lemma w_not_input conv p h : In p ["conv_frac_subcolumns_"; "strat_frac_subcolumns_"] -> not_input (w_m conv) (p ++ h)%string.
Proof.
  intros Hp d k Hd E. simpl in Hd, Hp.
  repeat (destruct Hd as [<-|Hd]); try contradiction; simpl in E;
  repeat match type of E with (if ?b then _ else _) = _ => destruct b end; try discriminate;
  repeat (destruct Hp as [<-|Hp]); try contradiction; discriminate.
Qed.

(** Inputs as functions of the type name. *)
Definition pick {A} (a b : A) (h : string) : A := if String.eqb h "cl" then a else if String.eqb h "pl" then a else b.

Lemma w_draws_ok : draws_ok w_dr.
Proof. intros t k site n. unfold w_dr, is_perm. symmetry. apply Permutation_rev. Qed.

(** The witness after convective generation with 4 subcolumns. *)
Definition w_mc : mdl :=
  snd (mapMM (fun h => set_convective h (Some 4%nat) false 0) ["cl"; "ci"]%string (w_m true)).

(** ... and after stratiform generation. *)
Definition w_ms : mdl := snd (set_stratiform None false Serial 0 w_dr w_mc).

Definition shape2b {A} (T H : nat) (g : list (list A)) : bool :=
  Nat.eqb (length g) T && forallb (fun r => Nat.eqb (length r) H) g.
Lemma shape2b_ok {A} T H (g : list (list A)) : shape2b T H g = true -> shape2 T H g.
Proof.
  unfold shape2b. rewrite andb_true_iff. intros [A1 A2]. split; [apply Nat.eqb_eq, A1|].
  rewrite forallb_forall in A2. intros r Hr. apply Nat.eqb_eq, A2, Hr.
Qed.
Definition shape3b {A} (T H N : nat) (g : list (list (list A))) : bool :=
  shape2b T H g && forallb (forallb (fun r => Nat.eqb (length r) N)) g.
Lemma shape3b_ok {A} T H N (g : list (list (list A))) : shape3b T H N g = true -> shape3 T H N g.
Proof.
  unfold shape3b. rewrite andb_true_iff. intros [A1 A2]. split; [apply shape2b_ok, A1|].
  rewrite forallb_forall in A2. intros r Hr c Hc. specialize (A2 r Hr). rewrite forallb_forall in A2.
  apply Nat.eqb_eq, A2, Hc.
Qed.

Ltac in_list H := simpl in H; repeat (destruct H as [<-|H]); try contradiction.

Ltac unset_now := split; [reflexivity|unfold no_subcolumn_fields; simpl; repeat (apply Forall_cons; [eexists; reflexivity|]); apply Forall_nil].

Lemma w_unset b : unset (w_m b).
Proof. unset_now. Qed.

Lemma w_strat_ready : strat_ready w_mc None false 4 2 3 (pick w_f1 w_f2) (pick w_q w_q).
Proof.
  split; [repeat constructor|]. split; [repeat constructor|]. split; [reflexivity|]. split.
  { left. split; [reflexivity|]. split; [reflexivity|]. split; [discriminate|].
    intros h Hh. in_list Hh; eexists; (split; [vm_compute; reflexivity|apply shape3b_ok; reflexivity]). }
  split.
  { intros h Hh. in_list Hh; unfold pick; simpl.
    - split; [exists "cf_cl"; split; reflexivity|]. split; [exact w_f1_shape|]. split; [exact w_f1_prop|discriminate].
    - split; [exists "cf_ci"; split; reflexivity|]. split; [exact w_f2_shape|]. split; [exact w_f2_prop|discriminate]. }
  exists w_f2, "rcf_cl". split; reflexivity.
Qed.

Lemma w_strat_ready_noconv : strat_ready (w_m false) (Some 4%nat) true 4 2 3 (pick w_f2 w_f1) (pick w_q w_q).
Proof.
  split; [repeat constructor|]. split; [repeat constructor|]. split; [reflexivity|]. split.
  { right. split; [reflexivity|]. split; [reflexivity|]. split; [left; unset_now|].
    exists w_f1. split; [exists "cf_cl"; split; reflexivity|exact w_f1_shape]. }
  split.
  { intros h Hh. in_list Hh; unfold pick; simpl.
    - split; [exists "rcf_cl"; split; reflexivity|]. split; [exact w_f2_shape|]. split; [exact w_f2_prop|].
      intros _. split; [exists "q_strat_cl"; split; reflexivity|exact w_q_shape].
    - split; [exists "rcf_ci"; split; reflexivity|]. split; [exact w_f1_shape|]. split; [exact w_f1_prop|].
      intros _. split; [exists "q_strat_ci"; split; reflexivity|exact w_q_shape]. }
  exists w_f2, "rcf_cl". split; reflexivity.
Qed.

Definition w_flags (m : mdl) (name : string) : list (list (list bool)) :=
  match assoc (ds m) name with Some (VFlag g) => g | _ => [] end.

Lemma w_precip_ready : precip_ready w_ms false true 4 2 3 ["pl"; "pi"] (pick w_f2 w_f1) (pick w_q w_q)
  (w_flags w_ms "strat_frac_subcolumns_ci") (w_flags w_ms "strat_frac_subcolumns_cl").
Proof.
  split; [repeat constructor|]. split; [repeat constructor|]. split; [reflexivity|]. split; [reflexivity|].
  split. { constructor; [intros [E|[]]; discriminate|]. constructor; [intros []|constructor]. }
  split; [discriminate|]. split; [vm_compute; reflexivity|]. split; [apply shape3b_ok; vm_compute; reflexivity|].
  split; [vm_compute; reflexivity|]. split; [apply shape3b_ok; vm_compute; reflexivity|].
  intros h Hh. in_list Hh; unfold pick; simpl.
  - split; [exists "rcf_pl"; split; reflexivity|]. split; [exact w_f2_shape|]. split; [exact w_f2_prop|].
    intros _. split; [exists "q_strat_pl"; split; reflexivity|exact w_q_shape].
  - split; [exists "rcf_pi"; split; reflexivity|]. split; [exact w_f1_shape|]. split; [exact w_f1_prop|].
    intros _. split; [exists "q_strat_pi"; split; reflexivity|exact w_q_shape].
Qed.

(** An object for which the larger type is under-allocated: 4 subcolumns,
    liquid and ice in half of them at level 1, only liquid at level 0. *)
Definition x_fl : list (list Q) := [[1#2; 1#2; 0]].
Definition x_fi : list (list Q) := [[0; 1#2; 0]].
Definition x_m : mdl :=
  {| ds := [("cf_cl", VGrid x_fl); ("cf_ci", VGrid x_fi); ("rcf_cl", VGrid x_fl)];
     dim_sub := None; ntime := 1; process_conv := false; nm := w_names |}.
Lemma x_ready : strat_ready x_m (Some 4%nat) false 4 1 3 (pick x_fl x_fi) (pick x_fl x_fi).
Proof.
  split; [repeat constructor|]. split; [repeat constructor|]. split; [reflexivity|]. split.
  { right. split; [reflexivity|]. split; [reflexivity|]. split; [left; unset_now|].
    exists x_fl. split; [exists "cf_cl"; split; reflexivity|shape]. }
  split.
  { intros h Hh. in_list Hh; unfold pick; simpl.
    - split; [exists "cf_cl"; split; reflexivity|]. split; [shape|]. split; [props|discriminate].
    - split; [exists "cf_ci"; split; reflexivity|]. split; [shape|]. split; [props|discriminate]. }
  exists x_fl, "rcf_cl". split; reflexivity.
Qed.

(** An overcast level with convection. *)
Definition y_f : list (list Q) := [[1; 0]].
Definition y_m : mdl :=
  {| ds := [("cf_cl", VGrid y_f); ("cf_ci", VGrid y_f); ("rcf_cl", VGrid y_f);
            ("conv_frac_subcolumns_cl", VFlag [[[true; false]; [false; false]]]);
            ("conv_frac_subcolumns_ci", VFlag [[[false; false]; [false; false]]])];
     dim_sub := Some 2%nat; ntime := 1; process_conv := true; nm := w_names |}.
Lemma y_ready : strat_ready y_m None false 2 1 2 (pick y_f y_f) (pick y_f y_f).
Proof.
  split; [repeat constructor|]. split; [repeat constructor|]. split; [reflexivity|]. split.
  { left. split; [reflexivity|]. split; [reflexivity|]. split; [discriminate|].
    intros h Hh. in_list Hh; eexists; (split; [vm_compute; reflexivity|apply shape3b_ok; reflexivity]). }
  split.
  { intros h Hh. in_list Hh; unfold pick; simpl.
    - split; [exists "cf_cl"; split; reflexivity|]. split; [shape|]. split; [props|discriminate].
    - split; [exists "cf_ci"; split; reflexivity|]. split; [shape|]. split; [props|discriminate]. }
  exists y_f, "rcf_cl". split; reflexivity.
Qed.
