(** The dataset and the model/instrument attributes used by the forward
    calculations (emc2/simulator/lidar_moments.py, radar_moments.py,
    attenuation.py, psd.py, classification.py).

    Arrays.  xarray guarantees one length per dimension name, so a variable
    over (subcolumn, time, height) is a function of three indices and a
    (time, height) variable a function of two; only indices below the
    dimension lengths are meaningful.  Broadcasting a (time, height) array
    over subcolumns ([np.tile(a, (num_subcolumns, 1, 1))]) ignores the first
    index. *)
From Coq Require Export String Ascii.
From Verif Require Export Np Xr.
From Verif Require Ds Sched_Model.
Export ListNotations.
Open Scope list_scope.

Definition arr2 := nat -> nat -> xr.
Definition arr3 := nat -> nat -> nat -> xr.

Inductive mv :=
| V2 (g : arr2)
| V3 (a : arr3)
| VB (b : nat -> nat -> nat -> bool).   (* generated flags *)

(** The mutable part of a model object: the variables of [model.ds], and the
    instruments for which [model.interpobj["single"]] has entries. *)
Record dset := mkds { dvars : list (string * mv); dseen : list string }.
Notation assoc := Ds.assoc.
Notation put := Ds.put.

(** [Rho_hyd] values: a density in kg m-3 or the string 'variable'. *)
Inductive rho := RConst (r : R) | RVar.

(** Attributes of a model object (core/model.py 137-180) that the forward
    calculations read, with the lengths of the three dimensions.  Unit
    conversion (pint) is a function per field. *)
Record menv := {
  nsub : nat;                               (* num_subcolumns *)
  ntm : nat;
  nht : nat;
  p_conv : bool;                            (* process_conv *)
  hyds : list string;                       (* hyd_types *)
  model_name : string;
  mcphys : string;                          (* mcphys_scheme *)
  rad_family : string;                      (* rad_scheme_family *)
  p_name : string; t_name : string; z_name : string; qv_name : string;
  p_pa : xr -> xr; p_hpa : xr -> xr;        (* pint conversions *)
  t_cel : xr -> xr; t_kel : xr -> xr;
  z_met : xr -> xr;
  rho_hyd : list (string * rho);
  var_density : list (string * string);
  fluffy : option (list (string * R));
  lidar_ratio : list (string * R);
  ldr_hyd : list (string * R);              (* LDR_per_hyd *)
  re_conv : list (string * string);         (* conv_re_fields *)
  re_strat : list (string * string);        (* strat_re_fields *)
  lam_field : option (list (string * option string));
  mu_field : option (list (string * option string));
  vel_a : list (string * R); vel_b : list (string * R);
  vd_ref : list (string * option R);        (* Vd_rhoa_scaling_ref *)
  hybrid : nat;                             (* p3_kws["use_hybrid_scat"] *)
  p3_ni : string; p3_n0 : string            (* p3_kws names *)
}.

(** A bulk scattering table vs. effective radius, and the two-dimensional
    interpolants of a table vs. (mu, lambda) (scipy LinearNDInterpolator). *)
Record btab := {
  b_re : list xr; b_back : list xr; b_ext : list xr;
  b_back2 : xr -> xr -> xr; b_ext2 : xr -> xr -> xr
}.
(** A single-particle scattering table. *)
Record stab := { s_diam : list xr; s_diam_eqv : list xr; s_beta : list xr; s_alpha : list xr }.

(** Attributes of an instrument (core/instrument.py).  The P3 table
    interpolants (scipy RegularGridInterpolator) are functions. *)
Record inst := {
  i_str : string;                           (* instrument_str *)
  i_class : string;                         (* instrument_class *)
  freq : R;                                 (* Hz: core/instrument.py 102-110 *)
  wavelen : R;                              (* micron *)
  k_w : R;
  eps_im : R;                               (* ((eps_liq-1)/(eps_liq+2)).imag *)
  z_min_1km : R;
  ext_OD : R;
  r_d : R; grav : R; rho_ice : R;
  bulk_table : list (string * btab);
  mie_table : list (string * stab);
  scat_table : list (string * stab);
  p3_bulk : string -> xr -> xr -> xr -> xr;   (* bulk P3 tables by key *)
  p3_single : string -> xr -> xr -> xr -> xr
}.

(** Computations on the dataset: the state reached before an exception
    remains visible. *)
Definition L (A : Type) := dset -> res A * dset.
Definition lret {A} (a : A) : L A := fun s => (Ok a, s).
Definition lraise {A} (e : exn) : L A := fun s => (Raise e, s).
Definition lbind {A B} (x : L A) (f : A -> L B) : L B :=
  fun s => match x s with
           | (Ok a, s') => f a s'
           | (Raise e, s') => (Raise e, s')
           end.
Notation "'run' x <- e ; f" := (lbind e (fun x => f))
  (at level 200, x pattern, e at level 100, f at level 200, right associativity).
(** A computation that only reads the dataset. *)
Definition rd {A} (f : dset -> res A) : L A := fun s => (f s, s).
Definition assign (name : string) (v : mv) : L unit := fun s => (Ok tt, mkds (put (dvars s) name v) (dseen s)).

(** [model.ds[name]] read as an array over (time, height), over
    (subcolumn, time, height), or as flags; KeyError when missing. *)
Definition has (s : dset) (name : string) : bool :=
  match assoc (dvars s) name with Some _ => true | None => false end.
Definition g2 (s : dset) (name : string) : res arr2 :=
  match assoc (dvars s) name with
  | Some (V2 g) => Ok g
  | Some _ => Raise ValueError
  | None => Raise KeyError
  end.
Definition g3 (s : dset) (name : string) : res arr3 :=
  match assoc (dvars s) name with
  | Some (V3 a) => Ok a
  | Some _ => Raise ValueError
  | None => Raise KeyError
  end.
Definition gb (s : dset) (name : string) : res (nat -> nat -> nat -> bool) :=
  match assoc (dvars s) name with
  | Some (VB b) => Ok b
  | Some _ => Raise ValueError
  | None => Raise KeyError
  end.
Definition dict {A} (d : list (string * A)) (k : string) : res A :=
  match assoc d k with Some v => Ok v | None => Raise KeyError end.

(** model.py 548-556: [set_hyd_types]. *)
Definition set_hyd_types (e : menv) (hs : option (list string)) : res (list string) :=
  match hs with
  | Some l => Ok l
  | None => match hyds e with [] => Raise ValueError | l => Ok l end
  end.

(** Element-wise operations. *)
Definition lift2 (f : xr -> xr -> xr) (a b : arr3) : arr3 := fun i t k => f (a i t k) (b i t k).
Definition map3 (f : xr -> xr) (a : arr3) : arr3 := fun i t k => f (a i t k).
Definition tile (g : arr2) : arr3 := fun _ t k => g t k.
Definition zeros3 : arr3 := fun _ _ _ => XF 0.
Definition fill0 : arr3 -> arr3 := map3 (fillna 0).

(** The height profile of an array, and the array with given profiles. *)
Definition prof3 (e : menv) (a : arr3) (i t : nat) : list xr := map (a i t) (seq 0 (nht e)).
Definition prof2 (e : menv) (g : arr2) (t : nat) : list xr := map (g t) (seq 0 (nht e)).
Definition of_prof3 (f : nat -> nat -> list xr) : arr3 := fun i t k => nth k (f i t) XNaN.
Definition of_prof2 (f : nat -> list xr) : arr2 := fun t k => nth k (f t) XNaN.

(** [model.ds[name] += a] on an existing variable. *)
Definition add_to (name : string) (a : arr3) : L unit :=
  run v <- rd (fun s => g3 s name); assign name (V3 (lift2 xadd v a)).

(** "conv" / "strat", and the variable names built from it. *)
Definition cs (c : bool) : string := if c then "conv" else "strat".
Definition qn (c : bool) (h : string) : string := (cs c ++ "_q_subcolumns_" ++ h)%string.
Definition nn (c : bool) (h : string) : string := (cs c ++ "_n_subcolumns_" ++ h)%string.
Definition fn (c : bool) (h : string) : string := (cs c ++ "_frac_subcolumns_" ++ h)%string.
Definition out (field h : string) (c : bool) : string :=
  ("sub_col_" ++ field ++ "_" ++ h ++ "_" ++ cs c)%string.

Definition memb (x : string) (l : list string) : bool := existsb (String.eqb x) l.
(** lidar_moments.py 333, 567; radar_moments.py 281, 515. *)
Definition ice_classes : list string :=
  ["ci"; "pi"; "sn"; "gr"; "ha"; "pir"; "pid"; "pif"]%string.

(** [hyd_type[-1] == 'l']; IndexError on the empty string. *)
Fixpoint last_is_l (h : string) : res bool :=
  match h with
  | EmptyString => Raise IndexError
  | String c EmptyString => Ok (Ascii.eqb c "l"%char)
  | String _ h' => last_is_l h'
  end.

(** [str.lower()] on ASCII strings. *)
Definition lower_char (c : ascii) : ascii :=
  let n := nat_of_ascii c in
  if Nat.leb 65 n && Nat.leb n 90 then ascii_of_nat (n + 32) else c.
Fixpoint lower (s : string) : string :=
  match s with EmptyString => EmptyString | String c s' => String (lower_char c) (lower s') end.
