(** What an axis label should say. *)
From Verif Require Import Mom_Base Lidar_Model Xds_Spec Label_Model.
Local Open Scope string_scope.

(** The label of a simulated quantity of a class. *)
Inductive quantity := QZe | QVd | QWidth | QDepth | QBack | QExt.
Definition field_part (q : quantity) : string :=
  match q with QZe => "Ze" | QVd => "Vd" | QWidth => "sigma_d" | QDepth => "OD" | QBack => "beta_p" | QExt => "alpha_p" end.
Definition symbol (q : quantity) (h : string) : string :=
  match q with
  | QZe => "$Z_{e, " ++ h ++ "}$ [dBZ]"
  | QVd => "$V_{d, " ++ h ++ "}$ [m/s]"
  | QWidth => "$\sigma_{d, " ++ h ++ "}$ [m/s]"
  | QDepth => "$\tau_{" ++ h ++ "}$"
  | QBack => "$\beta_{" ++ h ++ "}$ [$m^{-1} sr^{-1}$]"
  | QExt => "$\alpha_{" ++ h ++ "}$ [$m^{-1}$]"
  end.

(** A field's own label: its long name if it is short enough, and its units;
    its name if it has no units. *)
Definition own_label (v : string) (a : attrs) (max_long : nat) (l : string) : Prop :=
  match a_units a, a_long a with
  | None, _ => l = v
  | Some u, Some n => if Nat.leb (String.length n) max_long then l = n ++ " [" ++ u ++ "]" else l = "[" ++ u ++ "]"
  | Some u, None => l = "[" ++ u ++ "]"
  end.

(** The label of a quantity (by the part of the name that gives it away) and a class. *)
Definition labelled (q h l : string) : Prop :=
  In (q, l) [("Ze", "$Z_{e, " ++ h ++ "}$ [dBZ]"); ("Vd", "$V_{d, " ++ h ++ "}$ [m/s]"); ("sigma_d", "$\sigma_{d, " ++ h ++ "}$ [m/s]");
    ("od", "$\tau_{" ++ h ++ "}$"); ("OD", "$\tau_{" ++ h ++ "}$"); ("beta", "$\beta_{" ++ h ++ "}$ [$m^{-1} sr^{-1}$]");
    ("alpha", "$\alpha_{" ++ h ++ "}$ [$m^{-1}$]"); ("LDR", "LDR")].
(** [h] is the last of [codes] that occurs in [v], or empty if none does. *)
Definition last_code (codes : list string) (v h : string) : Prop :=
  (h = "" /\ forall h', In h' codes -> ~ occurs_in h' v) \/
  exists pre post, codes = (pre ++ h :: post)%list /\ occurs_in h v /\ forall h', In h' post -> ~ occurs_in h' v.
Definition quantity_names : list string := ["Ze"; "Vd"; "sigma_d"; "od"; "OD"; "beta"; "alpha"; "LDR"].
