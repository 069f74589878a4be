(** Sizes of the subcolumn fields over the life of an object: property C135. *)
From Verif Require Import Life_Model Spec_Common Gen_Spec Life_Spec Life_Proofs Life_Direct Life_Remove Witness.
Local Open Scope nat_scope.

(** C135: sizes after any history of calls, direct assignments and removals. *)
Theorem C135_sizes_agree :
  forall es m, sizes_agree m -> sizes_agree (life es m).
Proof. exact life_sizes. Qed.
Print Assumptions C135_sizes_agree.

(** C135: an object whose fields have no subcolumns is a start. *)
Theorem C135_start :
  forall m, no_subcolumn_fields m -> sizes_agree m.
Proof. exact no_fields_agree. Qed.
Print Assumptions C135_start.

(** C135: once a field has subcolumns their number stays. *)
Theorem C135_number_kept :
  forall es m n, (forall e, In e es -> forall c, e <> Remove c) ->
  dim_sub m = Some n -> has_subcolumn_field m ->
  dim_sub (life es m) = Some n /\ has_subcolumn_field (life es m).
Proof. exact life_kept. Qed.
Print Assumptions C135_number_kept.

(** C135: direct assignment of the number of subcolumns. *)
Theorem C135_setter :
  forall n m, 
  (no_subcolumn_fields m \/ num_sub m = n /\ dim_sub m <> None ->
     exists m', set_num_subcolumns n m = (Ok tt, m') /\ num_sub m' = n /\ ds m' = ds m /\
       ntime m' = ntime m /\ process_conv m' = process_conv m /\ nm m' = nm m) /\
  (has_subcolumn_field m -> num_sub m <> n -> set_num_subcolumns n m = (Raise ValueError, m)).
Proof. exact setter_spec. Qed.
Print Assumptions C135_setter.

(** C135: setting the number first, or giving it to the first call. *)
Theorem C135_set_then_generate :
  forall m N hyd rad thr, 2 <= N -> unset m ->
  let r1 := set_convective hyd (Some N) rad thr m in
  let r2 := set_convective hyd None rad thr (snd (set_num_subcolumns N m)) in
  fst r1 = fst r2 /\ (fst r1 = Ok tt -> snd r1 = snd r2).
Proof. exact direct_convective. Qed.
Print Assumptions C135_set_then_generate.

(** C135: a removal takes out exactly the fields whose name contains the cloud
    class and a subcolumn marker, and keeps the number of subcolumns. *)
Theorem C135_removal : forall cl m k v, In (k, v) (ds (life [Remove cl] m)) <->
  In (k, v) (ds m) /\
  ~ ((exists x y, k = (x ++ cl ++ y)%string) /\
     exists t, In t ["sub_col"; "subcol"; "phase_mask"]%string /\ exists x y, k = (x ++ t ++ y)%string).
Proof. exact remove_event. Qed.
Print Assumptions C135_removal.
Theorem C135_removal_keeps : forall cl m, dim_sub (life [Remove cl] m) = dim_sub m /\ ntime (life [Remove cl] m) = ntime m.
Proof. exact remove_rest. Qed.
Print Assumptions C135_removal_keeps.

Example C135_witness :
  let es := [SetN 3; SetN 4; Call (Conv "cl" None false 0%Q); Call (Conv "ci" None false 0%Q); SetN 5;
             Call (Strat None false Serial 0%Q w_dr); Call (Precip false None false Serial ["pl"]%string 0%Q w_dr);
             Call (Precip false (Some 7) false Serial ["pl"]%string 0%Q w_dr)] in
  let m := life es (w_m true) in
  unset (w_m true) /\ sizes_agree (w_m true) /\ num_sub m = 4 /\ has_subcolumn_field m /\
  map (map (@length bool)) (w_flags m "strat_frac_subcolumns_pl") = [[4; 4; 4]; [4; 4; 4]] /\
  set_num_subcolumns 5 m = (Raise ValueError, m) /\
  num_sub (life [Remove "conv"; Remove "strat"; SetN 5] m) = 5 /\
  fst (set_convective "cl" (Some 4) true 0%Q (w_m true)) = Ok tt.
Proof.
  cbv zeta. split; [apply w_unset|]. split; [apply no_fields_agree, w_unset|]. split; [vm_compute; reflexivity|].
  split. { eexists _, (VFlag _). split; [|exact I]. vm_compute. do 100 (first [left; reflexivity|right]). }
  split; [vm_compute; reflexivity|]. split; [vm_compute; reflexivity|]. split; vm_compute; reflexivity.
Qed.
