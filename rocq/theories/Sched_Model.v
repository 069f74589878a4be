(** Model of the loops over columns: which time index is processed when, and
    so at which position of the stacked result its column lands.
    emc2/simulator/subcolumn.py 187-206, 374-393, 538-557. *)
From Verif Require Export Np.
Local Open Scope Z_scope.

(** The [parallel] and [chunk] arguments of the generator functions. *)
Inductive sched := Serial | Parallel (chunk : option Z).

(** [np.arange(a, b, 1)]. *)
Definition arange (a b : Z) : list Z := map (fun k => a + Z.of_nat k) (seq 0 (Z.to_nat (b - a))).

(** subcolumn.py 194-204 and 380-391: chunked loop of the stratiform and
    precipitation allocators.  Each pass advances [j] by [chunk]; with
    [chunk >= 1] the loop makes at most [t] passes, otherwise it never ends,
    so running out of [fuel = t] is [Hang]. *)
Fixpoint chunk_loop (fuel : nat) (t chunk j : Z) : res (list Z) :=
  if j <? t then
    match fuel with
    | O => Raise Hang
    | S fuel' =>
        let ind_max := if j + chunk >=? t then t else j + chunk in
        do rest <- chunk_loop fuel' t chunk (j + chunk);
        Ok (arange j ind_max ++ rest)
    end
  else Ok [].

(** subcolumn.py 187-206, 374-393: order in which columns are processed. *)
Definition tt_order (s : sched) (t : nat) : res (list Z) :=
  match s with
  | Serial | Parallel None => Ok (arange 0 (Z.of_nat t))
  | Parallel (Some c) => chunk_loop t (Z.of_nat t) c 0
  end.

(** subcolumn.py 544-555: chunked loop of [set_q_n], which runs from the last
    column downwards. *)
Fixpoint qn_loop (fuel : nat) (t chunk j : Z) : res (list Z) :=
  if j >=? 0 then
    match fuel with
    | O => Raise Hang
    | S fuel' =>
        let ind_max := if j + chunk >? t then t else j + chunk in
        do rest <- qn_loop fuel' t chunk (j - chunk);
        Ok (arange j ind_max ++ rest)
    end
  else Ok [].

(** subcolumn.py 538-557. *)
Definition qn_order (s : sched) (t : nat) : res (list Z) :=
  match s with
  | Serial | Parallel None => Ok (arange 0 (Z.of_nat t))
  | Parallel (Some c) => qn_loop t (Z.of_nat t) c (Z.of_nat t - 1)
  end.
