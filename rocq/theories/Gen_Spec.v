(** Specification vocabulary for the public generation functions: how to read
    fields of a model object, and what the documentation promises. *)
From Verif Require Import Ds Spec_Common Sched_Model.
Local Open Scope nat_scope.

(** Value of a time x height array at (t, j). *)
Definition at2 {A} (d : A) (g : list (list A)) (t j : nat) : A := nth j (nth t g []) d.

Definition shape2 {A} (T H : nat) (g : list (list A)) : Prop :=
  length g = T /\ forall r, In r g -> length r = H.

Definition shape3 {A} (T H N : nat) (g : list (list (list A))) : Prop :=
  shape2 T H g /\ forall r, In r g -> forall c, In c r -> length c = N.

(** The model object maps hydrometeor [h] through dictionary [d] to the
    grid-box field [g]. *)
Definition field (m : mdl) (d : list (string * string)) (h : string) (g : list (list Q)) : Prop :=
  exists name, assoc d h = Some name /\ assoc (ds m) name = Some (VGrid g).

(** [name] is stored as the subcolumn flags / values [g]. *)
Definition flags (m : mdl) (name : string) (g : list (list (list bool))) : Prop :=
  assoc (ds m) name = Some (VFlag g).
Definition values (m : mdl) (name : string) (g : list (list (list xq))) : Prop :=
  assoc (ds m) name = Some (VSub g).

(** Everything but the variables [names] (and the subcolumn dimension) is as
    it was. *)
Definition unchanged_except (names : list string) (m m' : mdl) : Prop :=
  ntime m' = ntime m /\ process_conv m' = process_conv m /\ nm m' = nm m /\
  forall x, ~ In x names -> assoc (ds m') x = assoc (ds m) x.

(** [k] is [x] rounded to the nearest integer, ties to even. *)
Definition rounded (x : Q) (k : Z) : Prop :=
  (Qabs (x - inject_Z k) <= 1 # 2)%Q /\
  ((Qabs (x - inject_Z k) == 1 # 2)%Q -> Z.even k = true).

(** Number of subcolumns requested for fraction [f] out of [N]; under
    radiation logic none where the mixing ratio [q] is not above [thr]. *)
Definition requested (rad : bool) (thr q f : Q) (N : nat) (k : Z) : Prop :=
  (rad = true /\ (q <= thr)%Q /\ k = 0%Z) \/
  (~ (rad = true /\ (q <= thr)%Q) /\ rounded (f * inject_Z (Z.of_nat N)) k).

(** Fractions are proportions. *)
Definition proportions (g : list (list Q)) : Prop :=
  forall r, In r g -> forall f, In f r -> (0 <= f <= 1)%Q.

(** No number of subcolumns has been set and no field has subcolumns. *)
Definition no_subcolumn_fields (m : mdl) : Prop := Forall (fun p => exists g, snd p = VGrid g) (ds m).
Definition unset (m : mdl) : Prop := num_sub m = 0 /\ no_subcolumn_fields m.

(** [N_columns] either sets the number of subcolumns for the first time or
    agrees with it. *)
Definition columns_ok (m : mdl) (N_columns : option nat) (N : nat) : Prop :=
  (unset m /\ N_columns = Some N) \/ (dim_sub m = Some N /\ (N_columns = None \/ N_columns = Some N)).

(** What convective generation for type [hyd] reads: the fractions [f] of the
    chosen logic and, under radiation logic, the mixing ratios [q]; all fields
    have [T] times and [H] heights.  (The cloud fraction of the other logic is
    looked up for its dimensions.) *)
Definition conv_fracs (m : mdl) (hyd : string) (rad : bool) (T H : nat) (f q : list (list Q)) : Prop :=
  shape2 T H f /\ ntime m = T /\ (exists f0, field m (frac_conv (nm m)) hyd f0 /\ (rad = false -> f0 = f)) /\
  (rad = true -> field m (frac_conv_rad (nm m)) hyd f /\ field m (q_conv (nm m)) hyd q /\ shape2 T H q).

(** The dictionaries naming input fields, and the requirement that none of
    the input fields bears the name of an output field. *)
Definition dicts (m : mdl) : list (list (string * string)) :=
  [q_strat (nm m); q_conv (nm m); n_field (nm m); frac_strat (nm m);
   frac_strat_rad (nm m); frac_conv (nm m); frac_conv_rad (nm m)].
Definition not_input (m : mdl) (name : string) : Prop :=
  forall d h, In d (dicts m) -> assoc d h <> Some name.

(** Execution schedules: serial, parallel, or parallel in chunks of at least
    one column. *)
Definition good_sched (s : sched) : Prop :=
  match s with Parallel (Some c) => (1 <= c)%Z | _ => True end.

(** Random draws: by time index, level, call site and size; each is a
    permutation. *)
Definition draws_ok (dr : nat -> nat -> nat -> nat -> list nat) : Prop :=
  forall t k site n, is_perm (dr t k site n) n.

(** ** Stratiform generation *)

(** The field that generation reads for type [h]: stratiform fractions of the
    chosen logic. *)
Definition strat_frac_dict (m : mdl) (rad : bool) := if rad then frac_strat_rad (nm m) else frac_strat (nm m).

(** Fractions [F h] and, under radiation logic, mixing ratios [Qv h] of the
    types [hs], all of [T] times and [H] heights. *)
Definition strat_fracs (m : mdl) (hs : list string) (rad : bool) (T H : nat) (F Qv : string -> list (list Q)) : Prop :=
  forall h, In h hs ->
    field m (strat_frac_dict m rad) h (F h) /\ shape2 T H (F h) /\ proportions (F h) /\
    (rad = true -> field m (q_strat (nm m)) h (Qv h) /\ shape2 T H (Qv h)).

(** Subcolumn [i] of cell (t, j) is convective (cl or ci). *)
Definition convective (m : mdl) (t j i : nat) : Prop :=
  process_conv m = true /\
  exists h g, (h = "cl" \/ h = "ci")%string /\ flags m ("conv_frac_subcolumns_" ++ h) g /\ flagged (at2 [] g t j) i.

(** The convective subcolumns of cell (t, j) as a flag list. *)
Definition conv_here (m : mdl) (N t j : nat) (cv : list bool) : Prop :=
  length cv = N /\ forall i, flagged cv i <-> convective m t j i.

(** Either convection is processed and its subcolumns are there, or it is not
    and [N_columns] gives the number of subcolumns. *)
Definition strat_columns (m : mdl) (Ncol : option nat) (N T H : nat) : Prop :=
  (process_conv m = true /\ dim_sub m = Some N /\ Ncol <> Some 1 /\
   forall h, In h ["cl"; "ci"]%string -> exists g, flags m ("conv_frac_subcolumns_" ++ h) g /\ shape3 T H N g) \/
  (process_conv m = false /\ Ncol = Some N /\ (unset m \/ dim_sub m = Some N) /\
   exists f, field m (frac_strat (nm m)) "cl" f /\ shape2 T H f).

(** Everything stratiform generation needs. *)
Definition strat_ready (m : mdl) (Ncol : option nat) (rad : bool) (N T H : nat) (F Qv : string -> list (list Q)) : Prop :=
  2 <= N /\ 1 <= T /\ ntime m = T /\ strat_columns m Ncol N T H /\
  strat_fracs m ["cl"; "ci"]%string rad T H F Qv /\
  (exists f, field m (frac_strat_rad (nm m)) "cl" f).

(** ** Precipitation generation *)

(** "strat" or "conv" followed by the common part of output names. *)
Definition frac_out (is_conv : bool) (h : string) : string :=
  ((if is_conv then "conv" else "strat") ++ "_frac_subcolumns_" ++ h)%string.

Definition frac_dict (m : mdl) (is_conv rad : bool) :=
  if is_conv then if rad then frac_conv_rad (nm m) else frac_conv (nm m)
  else if rad then frac_strat_rad (nm m) else frac_strat (nm m).
Definition q_dict (m : mdl) (is_conv : bool) := if is_conv then q_conv (nm m) else q_strat (nm m).

(** Fractions [F h] and, under radiation logic, mixing ratios [Qv h] of type [h]. *)
Definition frac_input (m : mdl) (is_conv rad : bool) (T H : nat) (F Qv : string -> list (list Q)) (h : string) : Prop :=
  field m (frac_dict m is_conv rad) h (F h) /\ shape2 T H (F h) /\ proportions (F h) /\
  (rad = true -> field m (q_dict m is_conv) h (Qv h) /\ shape2 T H (Qv h)).

(** The counts requested for the classes [hs] at cell (t, j). *)
Definition requests (rad : bool) (thr : Q) (F Qv : string -> list (list Q)) (N t j : nat)
    (hs : list string) (ks : list Z) : Prop :=
  Forall2 (fun h k => requested rad thr (at2 0%Q (Qv h) t j) (at2 0%Q (F h) t j) N k) hs ks.

(** The cloudy subcolumns of cell (t, j) as a flag list. *)
Definition cloudy_here (ci cl : list (list (list bool))) (N t j : nat) (cv : list bool) : Prop :=
  length cv = N /\ forall i, flagged cv i <-> flagged (at2 [] ci t j) i \/ flagged (at2 [] cl t j) i.

(** Everything precipitation generation needs: the number of subcolumns is
    known, cloud subcolumns [ci], [cl] of the same kind exist, at least one
    class with a fraction field. *)
Definition precip_ready (m : mdl) (is_conv rad : bool) (N T H : nat) (hs : list string)
    (F Qv : string -> list (list Q)) (ci cl : list (list (list bool))) : Prop :=
  2 <= N /\ 1 <= T /\ ntime m = T /\ dim_sub m = Some N /\ NoDup hs /\ hs <> [] /\
  flags m (frac_out is_conv "ci") ci /\ shape3 T H N ci /\
  flags m (frac_out is_conv "cl") cl /\ shape3 T H N cl /\
  forall h, In h hs -> frac_input m is_conv rad T H F Qv h.
