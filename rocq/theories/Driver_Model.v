(** Model of the subcolumn-generation part of [make_simulated_data],
    emc2/simulator/main.py lines 58-163. *)
From Verif Require Export Gen_Model.
Local Open Scope string_scope.
Local Open Scope list_scope.
Local Open Scope nat_scope.

(** Default of [q_trunc_thresh] (subcolumn.py 8, 90, 235, 420); the driver
    never passes another one. *)
Definition default_thr : Q := 1 # 1000000000000000000.

(** main.py 58: [model.conv_frac_names.keys()]. *)
Definition classes (m : mdl) : list string := map fst (frac_conv (nm m)).

(** main.py 132-136: the classes without "cl" and "ci" (keys are unique). *)
Definition precip_classes (m : mdl) : list string :=
  filter (fun h => negb (String.eqb h "cl") && negb (String.eqb h "ci")) (classes m).

(** Random draws of one driver call: of the stratiform, the stratiform
    precipitation and the convective precipitation call, and of the variable
    distribution of liquid. *)
Record drng := { d_strat : draws; d_precip : draws; d_conv : draws;
                 d_perm : nat -> nat -> nat -> list nat; d_gam : gdraws }.

(** main.py 117-144: subcolumn flags. *)
Definition driver_flags (N_columns : option nat) (rad : bool) (sch : sched) (d : drng) : M unit :=
  act m <- get;
  act _ <- (if process_conv m
            then mapMM (fun h => set_convective h N_columns rad default_thr) (classes m)
            else ret []);
  act _ <- set_stratiform N_columns rad sch default_thr (d_strat d);
  act _ <- set_precip false None rad sch (precip_classes m) default_thr (d_precip d);
  if process_conv m then set_precip true None rad sch ["pl"; "pi"] default_thr (d_conv d) else ret tt.

(** main.py 145-163: mixing ratio and number of one class. *)
Definition driver_qn (m : mdl) (rad : bool) (sch : sched) (d : drng) (h : string) : M unit :=
  act _ <- set_q_n h false (String.eqb h "cl") rad sch default_thr (d_perm d) (d_gam d);
  if process_conv m then set_q_n h true false rad sch default_thr (d_perm d) (d_gam d) else ret tt.

Definition driver_values (rad : bool) (sch : sched) (d : drng) : M unit :=
  act m <- get;
  act _ <- mapMM (driver_qn m rad sch d) (classes m);
  ret tt.

(** main.py 117-163. *)
Definition driver_subcolumns (N_columns : option nat) (rad : bool) (sch : sched) (d : drng) : M unit :=
  act _ <- driver_flags N_columns rad sch d;
  driver_values rad sch d.
