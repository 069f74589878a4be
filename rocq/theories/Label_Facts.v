(** Proofs about axis labels. *)
From Verif Require Import Mom_Base Lidar_Model Xds_Model Xds_Fields Xds_Spec Label_Model Label_Spec.
Local Open Scope string_scope.

Lemma contains_occurs b a : contains b a = true <-> occurs_in a b.
Proof. apply contains_spec. Qed.

Lemma moment_labels ds q h c m : In h ["cl"; "ci"; "pl"; "pi"; "tot"] ->
  set_axis_label ds (out (field_part q) h c) m true = Ok (symbol q h).
Proof. intro H. simpl in H. destruct q, c; repeat (destruct H as [<-|H]; [reflexivity|]); destruct H. Qed.
Lemma total_labels ds q m : In q [QZe; QDepth; QBack; QExt] ->
  set_axis_label ds ("sub_col_" ++ field_part q ++ "_tot") m true = Ok (symbol q "tot").
Proof. intro H. simpl in H. repeat (destruct H as [<-|H]; [reflexivity|]); destruct H. Qed.

Lemma prespecified_none v : (forall q, In q quantities -> ~ occurs_in q v) -> prespecified v = None.
Proof.
  intro H. unfold prespecified.
  assert (K : forall l, (forall q, In q l -> ~ occurs_in q v) ->
    fold_left (fun acc q => if contains v q then Some (quantity_label q (label_class v)) else acc) l None = None).
  { induction l as [|q l IH]; intro Hl; [reflexivity|]. cbn [fold_left].
    destruct (contains v q) eqn:E; [apply contains_occurs in E; destruct (Hl q (or_introl eq_refl) E)|].
    apply IH. intros; apply Hl; right; assumption. }
  apply K, H.
Qed.
Lemma own_labels ds v a m use : use = false \/ (forall q, In q quantities -> ~ occurs_in q v) -> assoc ds v = Some a ->
  exists l, set_axis_label ds v m use = Ok l /\ own_label v a m l.
Proof.
  intros H E. unfold set_axis_label.
  assert ((if use then prespecified v else None) = None) as ->.
  { destruct use; [|reflexivity]. destruct H as [H|H]; [discriminate|apply prespecified_none, H]. }
  rewrite E. unfold own_label. destruct (a_units a) as [u|]; [|eauto].
  destruct (a_long a) as [n|]; [|eauto]. destruct (Nat.leb (String.length n) m); eauto.
Qed.
Lemma label_class_none v : (forall h, In h ["cl"; "ci"; "pl"; "pi"; "tot"] -> ~ occurs_in h v) -> label_class v = "".
Proof.
  intro H. unfold label_class.
  assert (K : forall l, (forall h, In h l -> ~ occurs_in h v) -> fold_left (fun acc h => if contains v h then h else acc) l "" = "").
  { induction l as [|h l IH]; intro Hl; [reflexivity|]. cbn [fold_left].
    destruct (contains v h) eqn:E; [apply contains_occurs in E; destruct (Hl h (or_introl eq_refl) E)|].
    apply IH. intros; apply Hl; right; assumption. }
  apply K, H.
Qed.
(** Nothing distinguishes the labels of snow, graupel and hail, or of the
    three kinds of precipitating ice. *)
Lemma snow_graupel ds q c m h : In h ["sn"; "gr"; "ha"] -> set_axis_label ds (out (field_part q) h c) m true = Ok (symbol q "").
Proof. intro H. simpl in H. destruct q, c; repeat (destruct H as [<-|H]; [reflexivity|]); destruct H. Qed.
Lemma ice_kinds ds q c m h : In h ["pir"; "pid"; "pif"] -> set_axis_label ds (out (field_part q) h c) m true = Ok (symbol q "pi").
Proof. intro H. simpl in H. destruct q, c; repeat (destruct H as [<-|H]; [reflexivity|]); destruct H. Qed.
Lemma any_name_labels v q : In q quantities -> occurs_in q v -> (forall q', In q' quantities -> occurs_in q' v -> q' = q) ->
  prespecified v = Some (quantity_label q (label_class v)).
Proof.
  intros I O U. unfold prespecified.
  assert (K : forall l acc, (forall q', In q' l -> In q' quantities) -> (In q l \/ acc = Some (quantity_label q (label_class v))) ->
    fold_left (fun acc q => if contains v q then Some (quantity_label q (label_class v)) else acc) l acc
    = Some (quantity_label q (label_class v))).
  { induction l as [|x l IH]; intros acc Hl [Hq|Ha]; cbn [fold_left]; [destruct Hq|exact Ha|destruct Hq as [Hq|Hq]|].
    - subst x. apply contains_occurs in O. rewrite O. apply IH; [intros; apply Hl; right; assumption|right; reflexivity].
    - apply IH; [intros; apply Hl; right; assumption|left; exact Hq].
    - apply IH; [intros; apply Hl; right; assumption|right].
      destruct (contains v x) eqn:E; [|exact Ha]. apply contains_occurs in E. rewrite (U x (Hl x (or_introl eq_refl)) E). reflexivity. }
  apply K; auto.
Qed.
Lemma last_code_fold v codes : last_code codes v (fold_left (fun acc h => if contains v h then h else acc) codes "").
Proof.
  induction codes as [|c codes IH] using rev_ind; [left; split; [reflexivity|intros h []]|].
  rewrite fold_left_app. cbn [fold_left]. destruct (contains v c) eqn:E.
  - apply contains_occurs in E. right. exists codes, []. split; [reflexivity|]. split; [exact E|intros h []].
  - assert (N : ~ occurs_in c v) by (intro O; apply contains_occurs in O; congruence).
    destruct IH as [[-> N0]|(pre & post & E0 & O & N0)].
    + left. split; [reflexivity|]. intros h I. apply in_app_iff in I as [I|[<-|[]]]; auto.
    + right. exists pre, (post ++ [c])%list. rewrite E0 at 1. rewrite <- app_assoc. split; [reflexivity|]. split; [exact O|].
      intros h I. apply in_app_iff in I as [I|[<-|[]]]; auto.
Qed.
Lemma last_code_fun codes v a b : NoDup codes -> last_code codes v a -> last_code codes v b -> a = b.
Proof.
  intros ND [[-> A]|(p & q & E & O & N)] [[-> B]|(p' & q' & E' & O' & N')].
  - reflexivity.
  - exfalso. apply (A b); [rewrite E'; apply in_elt|exact O'].
  - exfalso. apply (B a); [rewrite E; apply in_elt|exact O].
  - rewrite E in E'. clear ND E. revert p' E'. induction p as [|x p IH]; intros [|y p'] E'; cbn [app] in E'.
    + congruence.
    + injection E' as -> Eq. exfalso. apply (N b); [rewrite Eq; apply in_elt|exact O'].
    + injection E' as -> Eq. exfalso. apply (N' a); [rewrite <- Eq; apply in_elt|exact O].
    + injection E' as _ Eq. exact (IH p' Eq).
Qed.
Lemma any_name_label ds m v q h l : In q quantity_names -> occurs_in q v -> (forall q', In q' quantity_names -> occurs_in q' v -> q' = q) ->
  last_code ["cl"; "ci"; "pl"; "pi"; "tot"] v h -> labelled q h l -> set_axis_label ds v m true = Ok l.
Proof.
  intros I O U L X. unfold set_axis_label. rewrite (any_name_labels v q I O U).
  assert (H : label_class v = h).
  { apply (last_code_fun ["cl"; "ci"; "pl"; "pi"; "tot"] v); [|apply last_code_fold|exact L].
    repeat constructor; cbn; intuition discriminate. }
  rewrite H. f_equal. unfold labelled in X. cbn in X.
  repeat (destruct X as [X|X]; [injection X as <- <-; reflexivity|]). destruct X.
Qed.
Lemma any_name_case : occurs_in "Ze" "my_Ze_ci_tot" /\ (forall q', In q' quantity_names -> occurs_in q' "my_Ze_ci_tot" -> q' = "Ze") /\
  last_code ["cl"; "ci"; "pl"; "pi"; "tot"] "my_Ze_ci_tot" "tot" /\ labelled "Ze" "tot" "$Z_{e, tot}$ [dBZ]".
Proof.
  split; [apply contains_occurs; reflexivity|]. split.
  - intros q' I O. apply contains_occurs in O. cbn in I. repeat (destruct I as [<-|I]; [first [reflexivity|discriminate O]|]). destruct I.
  - split; [right; exists ["cl"; "ci"; "pl"; "pi"], []; split; [reflexivity|]; split; [apply contains_occurs; reflexivity|intros h []]|].
    left. reflexivity.
Qed.
Lemma foreign_field : exists ds v a, assoc ds v = Some a /\ a_units a = Some "kg/kg/s" /\
  set_axis_label ds v 20 true = Ok "$\tau_{}$".
Proof.
  exists [("PRODPREC", {| a_units := Some "kg/kg/s"; a_long := Some "rain production" |})], "PRODPREC".
  eexists. split; [reflexivity|]. split; reflexivity.
Qed.
Lemma label_case : set_axis_label [("RH", {| a_units := Some "%"; a_long := Some "Humidity" |})] "RH" 20 true = Ok "Humidity [%]" /\
  forall q, In q quantities -> ~ occurs_in q "RH".
Proof.
  split; [reflexivity|]. intros q Hq O. apply contains_occurs in O. simpl in Hq.
  repeat (destruct Hq as [<-|Hq]; [discriminate O|]). destruct Hq.
Qed.
