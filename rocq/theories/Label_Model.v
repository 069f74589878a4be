(** Axis labels: plotting/subcol_display.py 209-267. *)
From Verif Require Import Mom_Base Xds_Model.
Local Open Scope string_scope.

(** The attributes of a field that are looked at. *)
Record attrs := { a_units : option string; a_long : option string }.

(** 237-241: the class named last in the list among those contained in the
    name of the field; none gives the empty text. *)
Definition label_class (v : string) : string :=
  fold_left (fun acc h => if contains v h then h else acc) ["cl"; "ci"; "pl"; "pi"; "tot"] "".

(** 246-257: the label of one of the quantities. *)
Definition quantity_label (q h : string) : string :=
  if String.eqb q "Ze" then "$Z_{e, " ++ h ++ "}$ [dBZ]"
  else if String.eqb q "Vd" then "$V_{d, " ++ h ++ "}$ [m/s]"
  else if String.eqb q "sigma_d" then "$\sigma_{d, " ++ h ++ "}$ [m/s]"
  else if String.eqb q "od" || String.eqb q "OD" then "$\tau_{" ++ h ++ "}$"
  else if String.eqb q "beta" then "$\beta_{" ++ h ++ "}$ [$m^{-1} sr^{-1}$]"
  else if String.eqb q "alpha" then "$\alpha_{" ++ h ++ "}$ [$m^{-1}$]"
  else "LDR".
Definition quantities : list string := ["Ze"; "Vd"; "sigma_d"; "od"; "OD"; "beta"; "alpha"; "LDR"].
(** 243-257: the last quantity in the list whose name is contained. *)
Definition prespecified (v : string) : option string :=
  fold_left (fun acc q => if contains v q then Some (quantity_label q (label_class v)) else acc) quantities None.

(** 209-267.  The field is looked up only if there is no label yet. *)
Definition set_axis_label (ds : list (string * attrs)) (v : string) (max_long : nat) (use : bool) : res string :=
  match (if use then prespecified v else None) with
  | Some l => Ok l
  | None =>
      match assoc ds v with
      | None => Raise KeyError
      | Some a =>
          match a_units a with
          | None => Ok v
          | Some u =>
              Ok (match a_long a with
                  | Some l => if Nat.leb (String.length l) max_long then l ++ " [" ++ u ++ "]" else "[" ++ u ++ "]"
                  | None => "[" ++ u ++ "]"
                  end)
          end
      end
  end.
