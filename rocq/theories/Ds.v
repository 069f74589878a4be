(** The model object: the part of [emc2.core.Model] that the subcolumn
    generator reads and writes (emc2/core/model.py lines 24-311). *)
From Coq Require Export String.
From Verif Require Export Np Xq.
Open Scope list_scope.

(** Values of dataset variables.  Arrays of shape subcolumn x time x height
    are stored here as [time][height][subcolumn]; grid-box fields as
    [time][height].  Boolean arrays, and the 0./1. float arrays that the
    one-subcolumn mode stores instead, are both [VFlag]. *)
Inductive val :=
| VGrid (a : list (list Q))                (* input field; finite values *)
| VFlag (a : list (list (list bool)))
| VSub (a : list (list (list xq))).

(** The name dictionaries of a model object (model.py 47-120). *)
Record names := {
  q_strat : list (string * string);          (* q_names_stratiform *)
  q_conv : list (string * string);           (* q_names_convective *)
  n_field : list (string * string);          (* N_field *)
  frac_strat : list (string * string);       (* strat_frac_names *)
  frac_strat_rad : list (string * string);   (* strat_frac_names_for_rad *)
  frac_conv : list (string * string);        (* conv_frac_names *)
  frac_conv_rad : list (string * string)     (* conv_frac_names_for_rad *)
}.

(** A model object: variables of the xarray dataset, length of the
    "subcolumn" dimension when there is one, length of the time dimension. *)
Record mdl := {
  ds : list (string * val);
  dim_sub : option nat;
  ntime : nat;
  process_conv : bool;
  nm : names
}.

Fixpoint assoc {A} (l : list (string * A)) (k : string) : option A :=
  match l with
  | [] => None
  | (x, v) :: l' => if String.eqb x k then Some v else assoc l' k
  end.

Fixpoint put {A} (l : list (string * A)) (k : string) (v : A) : list (string * A) :=
  match l with
  | [] => [(k, v)]
  | (x, w) :: l' => if String.eqb x k then (k, v) :: l' else (x, w) :: put l' k v
  end.

(** Computations on the model object.  The object is mutable, so the state
    reached before an exception remains visible to the caller. *)
Definition M (A : Type) := mdl -> res A * mdl.
Definition ret {A} (a : A) : M A := fun m => (Ok a, m).
Definition raise {A} (e : exn) : M A := fun m => (Raise e, m).
Definition mbind {A B} (x : M A) (f : A -> M B) : M B :=
  fun m => match x m with
           | (Ok a, m') => f a m'
           | (Raise e, m') => (Raise e, m')
           end.
Notation "'act' x <- e ; f" := (mbind e (fun x => f))
  (at level 200, x pattern, e at level 100, f at level 200, right associativity).
Definition get : M mdl := fun m => (Ok m, m).
Definition lift {A} (x : res A) : M A := fun m => (x, m).

(** Dictionary lookup: KeyError when missing. *)
Definition get_name (d : list (string * string)) (k : string) : M string :=
  match assoc d k with Some v => ret v | None => raise KeyError end.

(** [model.ds[name]]. *)
Definition get_var (name : string) : M val :=
  fun m => match assoc (ds m) name with Some v => (Ok v, m) | None => (Raise KeyError, m) end.
Definition get_grid (name : string) : M (list (list Q)) :=
  act v <- get_var name;
  match v with VGrid a => ret a | _ => raise TypeError end.
Definition get_flag (name : string) : M (list (list (list bool))) :=
  act v <- get_var name;
  match v with VFlag a => ret a | _ => raise TypeError end.

Definition has_var (name : string) (m : mdl) : bool :=
  match assoc (ds m) name with Some _ => true | None => false end.

(** model.py 291-300: [num_subcolumns]. *)
Definition num_sub (m : mdl) : nat := match dim_sub m with Some n => n | None => 0 end.

(** [model.ds['subcolumn'] = xr.DataArray(np.arange(0, n), dims='subcolumn')]:
    xarray replaces the coordinate, and raises ValueError (leaving the dataset
    as it was) if a variable already has another number of subcolumns. *)
Definition is_sub (v : val) : bool := match v with VGrid _ => false | _ => true end.
Definition set_dim (n : nat) : M unit :=
  fun m =>
    if existsb (fun p => is_sub (snd p)) (ds m) && negb (match dim_sub m with Some k => Nat.eqb k n | None => false end)
    then (Raise ValueError, m)
    else (Ok tt, {| ds := ds m; dim_sub := Some n; ntime := ntime m;
                    process_conv := process_conv m; nm := nm m |}).

(** [model.ds[name] = xr.DataArray(a, dims=(subcolumn, time, height))] for an
    array of [width] subcolumns and [len] times: xarray raises ValueError when
    a length differs from that of the dataset's dimension. *)
Definition assign (name : string) (width len : nat) (v : val) : M unit :=
  fun m =>
    if match dim_sub m with Some n => Nat.eqb n width | None => true end && Nat.eqb len (ntime m)
    then (Ok tt, {| ds := put (ds m) name v; dim_sub := Some width; ntime := ntime m;
                    process_conv := process_conv m; nm := nm m |})
    else (Raise ValueError, m).

(** Element-wise operation on two arrays of the same shape. *)
Fixpoint map2r {A B C} (f : A -> B -> C) (a : list A) (b : list B) : res (list C) :=
  match a, b with
  | [], [] => Ok []
  | x :: a', y :: b' => do t <- map2r f a' b'; Ok (f x y :: t)
  | _, _ => Raise ValueError
  end.

Fixpoint map2m {A B C} (f : A -> B -> res C) (a : list A) (b : list B) : res (list C) :=
  match a, b with
  | [], [] => Ok []
  | x :: a', y :: b' => do z <- f x y; do t <- map2m f a' b'; Ok (z :: t)
  | _, _ => Raise ValueError
  end.

(** Element-wise operation on two time x height arrays. *)
Definition grid2 {A B C} (f : A -> B -> C) (a : list (list A)) (b : list (list B))
  : res (list (list C)) := map2m (map2r f) a b.
