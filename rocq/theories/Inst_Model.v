(** emc2/core/instrument.py (constructor and table loading) and
    emc2/core/instruments.py (the shipped instruments). *)
From Coq Require Import Reals ZArith.
From Verif Require Export Mom_Base Class_Model.
Local Open Scope string_scope.
Local Open Scope list_scope.
Local Open Scope R_scope.

(** ** The shipped instruments (instruments.py).  MPL is HSRL; MWACR and BASTA are
    WACR; HSRL1064 is Ten64nm. *)
Inductive device := CSAPR | XSACR | KAZR | WACR | RL | HSRL | CEIL | Ten64nm | NEXRAD | CALIOP.
(** [instrument_str]: 21, 46, 73, 136, 195, 226, 260, 281, 307, 336. *)
Definition inst_str (d : device) : string :=
  match d with
  | CSAPR => "CSAPR" | XSACR => "XSACR" | KAZR => "KAZR" | WACR => "WACR" | RL => "RL"
  | HSRL | CALIOP => "HSRL" | CEIL => "CEIL" | Ten64nm => "1064nm" | NEXRAD => "NEXRAD"
  end.
(** A positional argument. *)
Inductive pyarg := PB (b : bool) | PZ (z : Z) | PR (r : R) | PS (s : string).
(** Truth of [a & b] for a boolean [b]; floats and strings have no [&]. *)
Definition py_and (a : pyarg) (b : bool) : res bool :=
  match a with
  | PB x => Ok (x && b)
  | PZ z => Ok (negb (Z.eqb (Z.land z (Z.b2z b)) 0))
  | PR _ | PS _ => Raise TypeError
  end.
Definition is_dharma (a : pyarg) : bool := match a with PS s => String.eqb s "DHARMA" | _ => false end.

(** Table name -> file it is read from. *)
Record tables := { t_mie : list (string * string); t_scat : list (string * string); t_bulk : list (string * string) }.

(** instrument.py 131-211: [load_instrument_scat_files(supercooled, *args)]: the
    file behind each table.  (The conversion of the contents is in Scat_Model.) *)
Definition load_files (i : string) (supercooled : pyarg) (args : list pyarg) : res tables :=
  do c1 <- py_and supercooled (negb (memb i ["RL"; "HSRL"]));
  let liq : string := if c1 then "_liq_c" else "_liq" in
  let mie (k : string) := ("mie_tables/Mie" ++ i ++ k ++ ".dat")%string in
  let pi : string := if existsb is_dharma args then "_pi1" else "_pi" in
  do c2 <- py_and supercooled (negb (memb i ["RL"; "HSRL"]));
  let bc6 (k : string) := ("bulk_c6_tables/bulk_" ++ i ++ "_C6PSD_" ++ k ++ ".dat")%string in
  do c3 <- py_and supercooled (negb (memb i ["RL"; "HSRL"]));
  let bmd (k : string) := ("bulk_mDAD_tables/bulk_" ++ i ++ "_mDAD_" ++ k)%string in
  let cesm_liq := bmd (if c3 then "mie_liq_c.nc" else "mie_liq.nc")%string in
  let p3 := ("p3_tables/emc2_p3_ice_lut_abrv_full_" ++ i ++ ".nc")%string in
  Ok {| t_mie := [("cl", mie liq); ("pl", mie liq); ("ci", mie "_ci"); ("pi", mie pi)];
        t_scat := [("E3_ice", "c6_tables/C6_" ++ i ++ "_8col_agg_rough_270K.dat");
                   ("CESM_ice", "mDAD_tables/mDAD_" ++ i ++ "_ice.dat"); ("p3_ice", p3)]%string;
        t_bulk := [("E3_ice", bc6 "c6_8col_ice_agg_rough_270K"); ("E3_liq", bc6 (if c2 then "mie_liq_c" else "mie_liq"));
                   ("mie_ice_E3_PSD", bc6 "mie_ice"); ("CESM_ice", bmd "mDAD_ice_263K.dat"); ("CESM_liq", cesm_liq);
                   ("mie_ice_CESM_PSD", bmd "mie_ice.dat"); ("p3_ice", p3); ("p3_liq", cesm_liq);
                   ("mie_ice_P3_PSD", p3)]%string |}.

(** First positional argument or its default [True]. *)
Definition arg_or_true (args : list pyarg) : pyarg := match args with a :: _ => a | [] => PB true end.
(** Sites accepted by KAZR (67-68) and WACR (130-131); [None]: no site argument. *)
Definition sites (d : device) : option (list string) :=
  match d with
  | KAZR => Some ["sgp"; "nsa"; "awr"; "ena"; "mos"]
  | WACR => Some ["sgp"; "awr"; "mos"; "micre"]
  | _ => None
  end.
(** The constructors' argument handling: 14-37, 40-62, 65-123, 126-176, 189-215,
    220-246, 253-270, 274-291, 299-326, 329-358.  A site that is not a string raises
    AttributeError in Python, [TypeError] here. *)
Definition construct (d : device) (args : list pyarg) : res tables :=
  match sites d with
  | Some ok =>
      match args with
      | PS site :: r =>
          if memb (lower site) ok then load_files (inst_str d) (arg_or_true r) (tl r) else Raise ValueError
      | _ => Raise TypeError
      end
  | None =>
      match d with
      | CSAPR => load_files (inst_str d) (arg_or_true args) (tl (tl args))
      | _ => load_files (inst_str d) (arg_or_true args) (tl args)
      end
  end.

(** ** Phase thresholds of the depolarisation lidars (196-207, 227-238, 337-348) *)
Definition ldr4 : list R := [0; 2 / 10; 200001 / 10 ^ 6; 1].
Definition ldr5 : list R := [0; 1 / 10; 100001 / 10 ^ 6; 2 / 10; 1].
Definition ldr6 : list R := [0; 1 / 10; 100001 / 10 ^ 6; 2 / 10; 200001 / 10 ^ 6; 1].
Definition th_ice : thr := {| th_ind := 2; th_ldr := ldr5;
  th_beta := [2 / 10 ^ 5; 2 / 10 ^ 5; 2 / 10 ^ 6; 5 / 10 ^ 7; 5 / 10 ^ 7] |}.
Definition th_undef2 : thr := {| th_ind := 4; th_ldr := ldr6;
  th_beta := [2 / 10 ^ 5; 2 / 10 ^ 5; 2 / 10 ^ 6; 9 / 10 ^ 6; 1; 1] |}.
Definition th_undef1 : thr := {| th_ind := 3; th_ldr := ldr6;
  th_beta := [2 / 10 ^ 5; 2 / 10 ^ 5; 141421 / 10 ^ 9; 1 / 10 ^ 3; 1; 1] |}.
Definition th_liquid : thr := {| th_ind := 1; th_ldr := ldr4;
  th_beta := [2 / 10 ^ 5; 1 / 10 ^ 3; 1; 1] |}.
(** Other instruments keep the base class's empty list (instrument.py 79). *)
Definition thresholds (d : device) : list thr :=
  match d with RL | HSRL | CALIOP => [th_ice; th_undef2; th_undef1; th_liquid] | _ => [] end.
