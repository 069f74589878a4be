(** C134: axis labels.  [symbol] gives the label of a simulated quantity of a
    class, [own_label] that of any other field. *)
From Verif Require Import Mom_Base Xds_Model Xds_Spec Label_Model Label_Spec Label_Facts.
Local Open Scope string_scope.

(** Missing for the full property: other classes, and fields whose name
    happens to contain that of a quantity. *)
Theorem C134_moment_labels_partial : forall ds q h c m, In h ["cl"; "ci"; "pl"; "pi"; "tot"] ->
  set_axis_label ds (out (field_part q) h c) m true = Ok (symbol q h).
Proof. exact moment_labels. Qed.
Print Assumptions C134_moment_labels_partial.
Theorem C134_own_labels_partial : forall ds v a m use,
  use = false \/ (forall q, In q quantity_names -> ~ occurs_in q v) -> assoc ds v = Some a ->
  exists l, set_axis_label ds v m use = Ok l /\ own_label v a m l.
Proof. exact own_labels. Qed.
Print Assumptions C134_own_labels_partial.
(** The class shown is the last of the five whose name occurs anywhere in the
    name of the field, and the quantity likewise. *)
Theorem C134_any_name : forall ds m v q h l, In q quantity_names -> occurs_in q v ->
  (forall q', In q' quantity_names -> occurs_in q' v -> q' = q) ->
  last_code ["cl"; "ci"; "pl"; "pi"; "tot"] v h -> labelled q h l -> set_axis_label ds v m true = Ok l.
Proof. exact any_name_label. Qed.
Print Assumptions C134_any_name.
Example C134_any_name_case : occurs_in "Ze" "my_Ze_ci_tot" /\ (forall q', In q' quantity_names -> occurs_in q' "my_Ze_ci_tot" -> q' = "Ze") /\
  last_code ["cl"; "ci"; "pl"; "pi"; "tot"] "my_Ze_ci_tot" "tot" /\ labelled "Ze" "tot" "$Z_{e, tot}$ [dBZ]".
Proof. exact any_name_case. Qed.
(** Snow, graupel and hail cannot be told apart, nor the three kinds of
    precipitating ice. *)
Theorem C134_other_classes_refuted : forall ds q c m,
  (forall h, In h ["sn"; "gr"; "ha"] -> set_axis_label ds (out (field_part q) h c) m true = Ok (symbol q "")) /\
  (forall h, In h ["pir"; "pid"; "pif"] -> set_axis_label ds (out (field_part q) h c) m true = Ok (symbol q "pi")).
Proof. intros ds q c m. split; intros h; [apply snow_graupel|apply ice_kinds]. Qed.
Print Assumptions C134_other_classes_refuted.
(** A rate of production of rain is labelled as an optical depth. *)
Theorem C134_foreign_field_refuted : exists ds v a, assoc ds v = Some a /\ a_units a = Some "kg/kg/s" /\
  set_axis_label ds v 20 true = Ok "$\tau_{}$".
Proof. exact foreign_field. Qed.
Print Assumptions C134_foreign_field_refuted.
Example C134_case : set_axis_label [("RH", {| a_units := Some "%"; a_long := Some "Humidity" |})] "RH" 20 true = Ok "Humidity [%]" /\
  forall q, In q quantity_names -> ~ occurs_in q "RH".
Proof. exact label_case. Qed.
