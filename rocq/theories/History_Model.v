(** Histories of calls of the public generation functions
    (emc2/simulator/subcolumn.py 7-580) on one model object.  A call that
    raises leaves the object in the state it had reached; the caller may catch
    the exception and go on. *)
From Verif Require Export Gen_Model.
Local Open Scope nat_scope.

Inductive call :=
| Conv (hyd : string) (N_columns : option nat) (rad : bool) (thr : Q)
| Strat (N_columns : option nat) (rad : bool) (sch : sched) (thr : Q) (dr : draws)
| Precip (is_conv : bool) (N_columns : option nat) (rad : bool) (sch : sched) (types : list string) (thr : Q) (dr : draws)
| QN (hyd : string) (is_conv qc_flag rad : bool) (sch : sched) (thr : Q) (perm : nat -> nat -> nat -> list nat) (gam : gdraws).

Definition run_call (c : call) : M unit :=
  match c with
  | Conv h n r t => set_convective h n r t
  | Strat n r s t dr => set_stratiform n r s t dr
  | Precip c n r s hs t dr => set_precip c n r s hs t dr
  | QN h c qc r s t p g => set_q_n h c qc r s t p g
  end.

Definition history (cs : list call) (m : mdl) : mdl := fold_left (fun m c => snd (run_call c m)) cs m.
