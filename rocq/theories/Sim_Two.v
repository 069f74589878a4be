(** A radar and a lidar simulated on one model object. *)
From Verif Require Import Mom_Base Mom_Spec Mom_Facts Sched_Model Atm_Model Psd_Model Lidar_Model Lidar_Spec Lidar_Loop Lidar_Api
  Radar_Model Radar_Spec Radar_Loop Radar_Api Class_Model Sim_Model Sim_Spec Sim_Commute Sim_Frame.
Local Open Scope R_scope.

(** *** Names *)
Lemma len_app (a b : string) : String.length (a ++ b) = (String.length a + String.length b)%nat.
Proof. induction a as [|x a IH]; simpl; [reflexivity|]. rewrite IH. reflexivity. Qed.
Lemma cancel_r (a b c : string) : (a ++ c = b ++ c)%string -> a = b.
Proof.
  revert b. induction a as [|x a IH]; intros [|y b] H; [reflexivity| | |].
  - exfalso. apply (f_equal String.length) in H. simpl in H. rewrite len_app in H. lia.
  - exfalso. apply (f_equal String.length) in H. simpl in H. rewrite len_app in H. lia.
  - simpl in H. injection H as -> H. f_equal. apply IH. exact H.
Qed.
Lemma app_assoc_s (a b c : string) : ((a ++ b) ++ c = a ++ b ++ c)%string.
Proof. induction a as [|x a IH]; simpl; [reflexivity|]. rewrite IH. reflexivity. Qed.
Lemma apart ir il x : i_str il <> (i_str ir ++ "_sounding")%string -> radar_result ir x -> lidar_result il x -> False.
Proof.
  intros N [A|[[y A]|A]] [B|[(f & z & F & B)|B]].
  - simpl in A, B. intuition (subst; discriminate).
  - subst x. simpl in A, F. intuition (subst; discriminate).
  - simpl in A, B. intuition (subst; discriminate).
  - subst x. simpl in B. intuition discriminate.
  - subst x. simpl in F. intuition (subst; discriminate).
  - subst x. simpl in B. intuition discriminate.
  - simpl in A, B. intuition (subst; discriminate).
  - subst x. simpl in A. intuition discriminate.
  - simpl in A, B.
    destruct A as [A|[A|[A|[]]]]; destruct B as [B|[B|[B|[B|[B|[B|[]]]]]]]; subst x; try discriminate.
    + injection B as B. exact (N B).
    + injection B as B. exact (N B).
    + injection B as B. apply N. apply (cancel_r _ _ "_all_hyd"). rewrite B, app_assoc_s. reflexivity.
Qed.
Lemma radar_is_result ins x : radar_result ins x -> result_name x.
Proof.
  intros [A|[[y ->]|A]].
  - left. left. unfold moment_names. simpl in *. tauto.
  - left. right. exists ("Ze_" ++ y)%string. reflexivity.
  - right. simpl in A. destruct A as [<-|[<-|[<-|[]]]]; eexists; simpl; tauto.
Qed.
Lemma lidar_is_result ins x : lidar_result ins x -> result_name x.
Proof.
  intros [A|[(f & y & _ & ->)|A]].
  - left. left. unfold moment_names. simpl in *. tauto.
  - left. right. exists (f ++ y)%string. reflexivity.
  - simpl in A. destruct A as [<-|[<-|[<-|[<-|[<-|[<-|[]]]]]]]; right; [exists (i_str ins)|exists (i_str ins)|exists (i_str ins ++ "_all_hyd")%string
      |exists ""%string|exists ""%string|exists "all_hyd"%string]; simpl; tauto.
Qed.
Lemma radar_outs_names ins c hs x : In x (radar_outs c hs) -> radar_result ins x.
Proof.
  unfold radar_outs, ze_outs, att_outs, kappas. rewrite !in_app_iff. intros [A|[A|[A|[A|[]]]]].
  - left. simpl in *. tauto.
  - right. left. destruct A as [<-|A]; [eexists; reflexivity|]. apply in_map_iff in A as (h & <- & _). eexists; reflexivity.
  - left. destruct c; simpl in *; tauto.
  - right. left. subst x. exists ("att_tot_" ++ cs c)%string. reflexivity.
Qed.
Lemma lidar_outs_names ins c hs x : In x (lidar_outs c hs) -> lidar_result ins x.
Proof.
  assert (O : forall h f, In f ["beta_p"; "alpha_p"; "OD"; "beta_att"]%string -> lidar_result ins (out f h c)).
  { intros h f I. right. left. simpl in I.
    destruct I as [<-|[<-|[<-|[<-|[]]]]]; [exists "beta_p_"%string|exists "alpha_p_"%string|exists "OD_"%string|exists "beta_att_"%string];
    exists (h ++ "_" ++ cs c)%string; (split; [simpl; tauto|reflexivity]). }
  unfold lidar_outs, loop_outs. rewrite !in_app_iff, in_flat_map. unfold class_outs.
  intros [I|[[I|(h & _ & I)]|[I|[]]]].
  - left. unfold atm_fields in I. simpl in *. tauto.
  - simpl in I. destruct I as [<-|[<-|[<-|[]]]]; apply O; simpl; tauto.
  - simpl in I. destruct I as [<-|[<-|[<-|[]]]]; apply O; simpl; tauto.
  - subst x. apply O. simpl; tauto.
Qed.

(** *** Computations that write only [P] and read nothing of [Q]. *)
Definition within {A} (P : string -> Prop) (m : L A) : Prop := forall s x, ~ P x -> assoc (dvars (snd (m s))) x = assoc (dvars s) x.
Definition blind {A} (Q : string -> Prop) (m : L A) : Prop := dep (fun x => ~ Q x) m (fun x => ~ Q x).
Definition sep {A} (P Q : string -> Prop) (m : L A) : Prop := within P m /\ blind Q m.
Section Sep.
Variables P Q : string -> Prop.
Lemma sep_ret {A} (a : A) : sep P Q (lret a).
Proof. split; [intros s x _; reflexivity|apply dep_ret]. Qed.
Lemma sep_raise {A} e : sep P Q (@lraise A e).
Proof. split; [intros s x _; reflexivity|apply dep_raise]. Qed.
Lemma sep_rd {A} (f : dset -> res A) : (forall s t, agree (fun x => ~ Q x) s t -> f s = f t) -> sep P Q (rd f).
Proof. intro F. split; [intros s x _; reflexivity|apply dep_rd; exact F]. Qed.
Lemma sep_g3 n : ~ Q n -> sep P Q (rd (fun s => g3 s n)).
Proof. intro N. apply sep_rd. intros s t A. exact (agree_g3 _ _ _ n A N). Qed.
Lemma sep_g2 n : ~ Q n -> sep P Q (rd (fun s => g2 s n)).
Proof. intro N. apply sep_rd. intros s t A. exact (agree_g2 _ _ _ n A N). Qed.
Lemma sep_gb n : ~ Q n -> sep P Q (rd (fun s => gb s n)).
Proof. intro N. apply sep_rd. intros s t A. exact (agree_gb _ _ _ n A N). Qed.
Lemma sep_pure {A} (r : res A) : sep P Q (rd (fun _ => r)).
Proof. apply sep_rd. reflexivity. Qed.
Lemma sep_assign n v : P n -> sep P Q (assign n v).
Proof.
  intro R. split.
  - intros s x N. rewrite assign_eq. apply upd_other. intros ->. exact (N R).
  - eapply dep_weaken; [intros x Hx; exact Hx| |apply dep_assign]. intros x Hx. left. exact Hx.
Qed.
Lemma sep_bind {A B} (m : L A) (f : A -> L B) : sep P Q m -> (forall a, sep P Q (f a)) -> sep P Q (lbind m f).
Proof.
  intros [M1 M2] F. split.
  - intros s x N. unfold lbind. specialize (M1 s x N). destruct (m s) as [[a|e] s']; cbn [snd] in *; [|exact M1].
    rewrite (proj1 (F a)) by exact N. exact M1.
  - apply dep_bind with (fun x => ~ Q x); [exact M2|]. intro a. exact (proj2 (F a)).
Qed.
End Sep.

(** Both orders. *)
Lemma other_first (m1 m2 : L unit) (P1 P2 : string -> Prop) s : within P1 m1 -> blind P1 m2 ->
  fst (m2 (snd (m1 s))) = fst (m2 s) /\
  (fst (m2 s) = Ok tt -> forall x, ~ P1 x -> assoc (dvars (snd (m2 (snd (m1 s))))) x = assoc (dvars (snd (m2 s))) x) /\
  (within P2 m2 -> forall x, ~ P2 x -> assoc (dvars (snd (m2 (snd (m1 s))))) x = assoc (dvars (snd (m1 s))) x).
Proof.
  intros F B. assert (A : agree (fun x => ~ P1 x) s (snd (m1 s))) by (intros x N; symmetry; exact (F s x N)).
  specialize (B _ _ A). split; [|split].
  - destruct (m2 s) as [[[]|a] s2], (m2 (snd (m1 s))) as [[[]|b] s12]; cbn; try contradiction; [reflexivity|congruence].
  - intros O x N. destruct (m2 s) as [[[]|a] s2]; [|discriminate]. destruct (m2 (snd (m1 s))) as [[[]|b] s12]; [|contradiction].
    destruct B as [_ B]. symmetry. exact (B x N).
  - intros W x N. apply W. exact N.
Qed.
Lemma both_orders (m1 m2 : L unit) (P1 P2 : string -> Prop) s : (forall x, P1 x -> P2 x -> False) -> (forall x, P1 x \/ ~ P1 x) ->
  sep P1 P2 m1 -> sep P2 P1 m2 -> fst (m1 s) = Ok tt -> fst (m2 s) = Ok tt ->
  forall x, assoc (dvars (snd (m2 (snd (m1 s))))) x = assoc (dvars (snd (m1 (snd (m2 s))))) x.
Proof.
  intros A D [W1 B1] [W2 B2] O1 O2 x.
  destruct (other_first m1 m2 P1 P2 s W1 B2) as (_ & K1 & K2). destruct (other_first m2 m1 P2 P1 s W2 B1) as (_ & J1 & J2).
  destruct (D x) as [H|H].
  - rewrite (K2 W2 x) by (intro; eapply A; eassumption). symmetry. apply (J1 O1). intro. eapply A; eassumption.
  - rewrite (K1 O2 x H). symmetry. exact (J2 W1 x H).
Qed.

(** *** What a simulation reads. *)
Lemma qn_fn_not_result c h : ~ result_name (qn c h) /\ ~ result_name (fn c h).
Proof.
  split; (intros [[M|[y M]]|[y M]];
    [unfold moment_names in M; destruct c; simpl in M; intuition discriminate|destruct c; discriminate|destruct c; simpl in M; intuition discriminate]).
Qed.
Lemma inp_not_result e c x : separate_inputs e -> inp e c x -> ~ result_name x.
Proof.
  intros T [H|[[h [->| ->]]|H]]; [exact (T c x H)|apply qn_fn_not_result|apply qn_fn_not_result|].
  simpl in H. destruct H as [<-|[<-|[<-|[]]]]; (intros [[M|[y M]]|[y M]];
    [unfold moment_names in M; simpl in M; intuition discriminate|discriminate|simpl in M; intuition discriminate]).
Qed.

Section Runs.
Variable Gam : R -> R.
Variables (e : menv) (ir il : inst).
Hypothesis Sep : separate_inputs e.
Hypothesis Own : i_str il <> (i_str ir ++ "_sounding")%string.
Let RR := radar_result ir.
Let LR := lidar_result il.
Lemma rl x : RR x -> ~ LR x. Proof. intros A B. exact (apart ir il x Own A B). Qed.
Lemma lr x : LR x -> ~ RR x. Proof. intros A B. exact (apart ir il x Own B A). Qed.
Lemma in_r c x : inp e c x -> ~ RR x. Proof. intros A B. exact (inp_not_result e c x Sep A (radar_is_result _ _ B)). Qed.
Lemma in_l c x : inp e c x -> ~ LR x. Proof. intros A B. exact (inp_not_result e c x Sep A (lidar_is_result _ _ B)). Qed.
Lemma no_hyds {A B} (f : A -> L B) P Q x : sep P Q (lbind (rd (fun _ => Raise x)) f).
Proof. split; [intros s y _; reflexivity|]. intros s t _. reflexivity. Qed.
Lemma asked arg : (exists hs, classes_of e arg hs) \/ exists x, set_hyd_types e arg = Raise x.
Proof.
  destruct arg as [l|]; [left; exists l; reflexivity|]. simpl. destruct (hyds e) as [|h hs]; [right; eauto|].
  left. exists (h :: hs). split; [reflexivity|discriminate].
Qed.
Lemma sep_rmom o c : not_micro_r o c = true -> sep RR LR (calc_radar_moments Gam e ir o c).
Proof.
  intro NM. destruct (asked (r_hyds o)) as [[hs H]|[x H]]; [|unfold calc_radar_moments; rewrite H; apply no_hyds].
  split.
  - intros s x N. apply (radar_dep Gam e ir o c hs); [|exact H|exact NM|].
    + intros y I R. apply (Sep c y I). destruct R as [R|[z ->]]; [left; left; unfold radar_fields in R; simpl in *; tauto|left; right; eauto].
    + intro I. apply N. exact (radar_outs_names ir c hs x I).
  - eapply dep_weaken; [intros x Hx; exact Hx| |apply (radar_reads Gam e ir o c hs); [intros x I; exact (in_l c x I)|exact H|exact NM]].
    intros x Hx. left. exact Hx.
Qed.
Lemma sep_lmom o c : not_micro o c = true -> sep LR RR (calc_lidar_moments Gam e il o c).
Proof.
  intro NM. destruct (asked (o_hyds o)) as [[hs H]|[x H]]; [|unfold calc_lidar_moments; rewrite H; apply no_hyds].
  split.
  - intros s x N. apply (moments_dep Gam e il o c hs); [|exact H|exact NM|].
    + intros y I R. apply (Sep c y I). destruct R as [R|[z ->]]; [left; left; unfold atm_fields in R; simpl in *; tauto|left; right; eauto].
    + intro I. apply N. exact (lidar_outs_names il c hs x I).
  - eapply dep_weaken; [intros x Hx; exact Hx| |apply (lidar_reads Gam e il o c hs); [intros x I; exact (in_r c x I)|exact H|exact NM]].
    intros x Hx. left. exact Hx.
Qed.
Lemma r_sub y : RR ("sub_col_Ze_" ++ y)%string. Proof. right. left. eauto. Qed.
Lemma l_sub f y : In f ["beta_p_"; "beta_att_"; "alpha_p_"; "OD_"; "LDR_"]%string -> LR ("sub_col_" ++ f ++ y)%string.
Proof. intro I. right. left. eauto. Qed.
Ltac rname := first [exact (r_sub _) | apply (r_sub ("tot_" ++ _)) | left; simpl; tauto | right; right; simpl; tauto].
Ltac lname := first [apply (l_sub "beta_p_"); simpl; tauto | apply (l_sub "beta_att_"); simpl; tauto | apply (l_sub "alpha_p_"); simpl; tauto
  | apply (l_sub "OD_"); simpl; tauto | apply (l_sub "LDR_"); simpl; tauto | left; simpl; tauto | right; right; simpl; tauto].
Lemma in_tab n c : In n [p_name e; t_name e; z_name e; qv_name e] -> inp e c n.
Proof. intro I. left. unfold table_names. apply in_or_app. left. simpl in *. tauto. Qed.
Ltac rpure := first [apply rl; rname | apply (in_l false), in_tab; simpl; tauto
  | apply (in_l false); right; left; eexists; solve [left; reflexivity | right; reflexivity]
  | apply (in_l true); right; left; eexists; solve [left; reflexivity | right; reflexivity]].
Ltac lpure := first [apply lr; lname | apply (in_r false), in_tab; simpl; tauto
  | apply (in_r false); right; left; eexists; solve [left; reflexivity | right; reflexivity]
  | apply (in_r true); right; left; eexists; solve [left; reflexivity | right; reflexivity]].
Ltac step W N :=
  match goal with
  | |- sep _ _ (lret _) => apply sep_ret
  | |- sep _ _ (lraise _) => apply sep_raise
  | |- sep _ _ (rd (fun s => g3 s _)) => apply sep_g3; N
  | |- sep _ _ (rd (fun s => g2 s _)) => apply sep_g2; N
  | |- sep _ _ (rd (fun s => gb s _)) => apply sep_gb; N
  | |- sep _ _ (rd (fun _ => _)) => apply sep_pure
  | |- sep _ _ (assign _ _) => apply sep_assign; W
  | |- sep _ _ (lbind _ _) => apply sep_bind; [|intro]
  | |- sep _ _ (if ?b then _ else _) => destruct b
  | |- sep _ _ (match ?x with _ => _ end) => destruct x
  end.
Ltac rs := repeat (cbv beta zeta; step ltac:(rname) ltac:(rpure)).
Ltac ls := repeat (cbv beta zeta; step ltac:(lname) ltac:(lpure)).
Lemma sep_zemin r : sep RR LR (calc_radar_Ze_min e ir r).
Proof. unfold calc_radar_Ze_min. rs. Qed.
Lemma sep_total : sep RR LR (calc_total_reflectivity e).
Proof. unfold calc_total_reflectivity. rs. Qed.
Lemma sep_sound rng c0 mask ze cl : RR mask -> RR ze -> sep RR LR (sounding_one e rng c0 mask ze cl).
Proof. intros M Z. unfold sounding_one. repeat (cbv beta zeta; step ltac:(exact M) ltac:(first [apply rl; exact Z | rpure])). Qed.
Lemma sep_rclass rng c0 : sep RR LR (radar_classify_phase e ir rng c0).
Proof. unfold radar_classify_phase. repeat (cbv beta zeta; first [apply sep_sound; rname | step ltac:(rname) ltac:(rpure)]). Qed.
Lemma radar_sep a o : m_emp o || m_rad o = true -> sep RR LR (simulate_radar Gam e ir a o).
Proof.
  intro NM. unfold simulate_radar.
  repeat (cbv beta zeta; first [apply sep_rmom; unfold not_micro_r; cbn; rewrite NM; reflexivity | apply sep_zemin | apply sep_total | apply sep_rclass | step ltac:(rname) ltac:(rpure)]).
Qed.
Lemma sep_total_of f P : (forall c, ~ P (out f "tot" c)) -> sep LR P (rd (total_of e f)).
Proof.
  intro N. apply sep_rd. intros s t A. unfold total_of. rewrite !(agree_g3 _ s t _ A (N _)). reflexivity.
Qed.
Lemma sep_ab eta : sep LR RR (calc_total_alpha_beta e eta).
Proof. unfold calc_total_alpha_beta. repeat (cbv beta zeta; first [apply sep_total_of; intro; lpure | step ltac:(lname) ltac:(lpure)]). Qed.
Lemma ldr_sums_agree hs c s t : agree (fun x => ~ RR x) s t -> forall num den, ldr_sums e c hs num den s = ldr_sums e c hs num den t.
Proof.
  intro A. induction hs as [|h hs IH]; intros n d; [reflexivity|]. cbn [ldr_sums].
  rewrite (agree_g3 _ s t (out "beta_p" h c) A) by lpure. destruct (g3 t _); [|reflexivity]. cbn. destruct (dict _ h); [|reflexivity]. apply IH.
Qed.
Lemma sep_ldr_loop hs cls : forall num den, sep LR RR (ldr_loop e cls hs num den).
Proof.
  induction cls as [|c cls IH]; intros num den; cbn [ldr_loop]; [apply sep_ret|].
  apply sep_bind.
  - apply sep_rd. intros s t A. apply ldr_sums_agree. exact A.
  - intros [n d]. apply sep_bind; [apply sep_assign; lname|]. intro. apply IH.
Qed.
Lemma sep_ldr ext sfc l h : sep LR RR (calc_LDR_and_ext e ext sfc l h).
Proof. unfold calc_LDR_and_ext. repeat (cbv beta zeta; first [apply sep_ldr_loop | step ltac:(lname) ltac:(lpure)]). Qed.
Lemma sep_class ext ths c0 rm mask l o b : LR mask -> LR l -> LR o -> LR b -> sep LR RR (classify_one ext ths c0 rm mask l o b).
Proof.
  intros M A B C. unfold classify_one.
  repeat (cbv beta zeta; step ltac:(exact M) ltac:(first [apply lr; first [exact A|exact B|exact C] | lpure])).
Qed.
Lemma sep_lclass d a c0 rm : sep LR RR (lidar_classify_phase e il d a c0 rm).
Proof. unfold lidar_classify_phase. repeat (cbv beta zeta; first [apply sep_class; lname | step ltac:(lname) ltac:(lpure)]). Qed.
Lemma sep_group c hs g : sep LR RR (cosp_group c hs g).
Proof. induction g; cbn [cosp_group]; repeat (cbv beta zeta; first [exact IHg | step ltac:(lname) ltac:(lpure)]). Qed.
Lemma sep_store o mask sf sig tau b cr od : c_atb o = false -> LR mask -> sep LR RR (cosp_store e o mask sf sig tau b cr od).
Proof.
  intros A M. unfold cosp_store. rewrite A.
  repeat (cbv beta zeta; step ltac:(exact M) ltac:(first [apply (in_r false); right; left; exists "cl"%string; left; reflexivity | lpure])).
Qed.
Lemma cosp_mask_l c : LR (cs c ++ "_COSP_phase_mask")%string.
Proof. right. right. destruct c; simpl; tauto. Qed.
Lemma sep_ctype o hs sig tau c acc : c_atb o = false -> sep LR RR (cosp_type e o hs sig tau c acc).
Proof. intro A. unfold cosp_type. repeat (cbv beta zeta; first [apply sep_group | apply sep_store; [exact A|exact (cosp_mask_l _)] | step ltac:(lname) ltac:(lpure)]). Qed.
Lemma sep_cosp o : c_atb o = false -> sep LR RR (lidar_emulate_cosp_phase e il o).
Proof. intro A. unfold lidar_emulate_cosp_phase. repeat (cbv beta zeta; first [apply sep_ctype; exact A | apply sep_store; [exact A|lname] | step ltac:(lname) ltac:(lpure)]). Qed.
Lemma lidar_sep a o : m_emp o || m_rad o = true -> sep LR RR (simulate_lidar Gam e il a o).
Proof.
  intro NM. unfold simulate_lidar.
  repeat (cbv beta zeta; first [apply sep_lmom; unfold not_micro; cbn; rewrite NM; reflexivity | apply sep_ab | apply sep_ldr | apply sep_lclass
    | apply sep_cosp; reflexivity | step ltac:(lname) ltac:(lpure)]).
Qed.
End Runs.

Lemma starts_dec p : forall x, (exists y, x = (p ++ y)%string) \/ ~ (exists y, x = (p ++ y)%string).
Proof.
  induction p as [|a p IH]; intro x; [left; exists x; reflexivity|].
  destruct x as [|b x]; [right; intros [y H]; discriminate|].
  destruct (Ascii.ascii_dec b a) as [->|N]; [|right; intros [y H]; injection H as H _; exact (N H)].
  destruct (IH x) as [[y ->]|N]; [left; exists y; reflexivity|]. right. intros [y H]. injection H as ->. apply N. exists y. reflexivity.
Qed.
Lemma radar_result_dec ins x : radar_result ins x \/ ~ radar_result ins x.
Proof.
  unfold radar_result.
  destruct (in_dec string_dec x ["kappa_o2"; "kappa_wv"; "kappa_att"; "atm_ext"; "hyd_ext_conv"; "hyd_ext_strat"; "Ze_min"; "detect_mask"]%string) as [A|A]; [tauto|].
  destruct (starts_dec "sub_col_Ze_" x) as [B|B]; [tauto|].
  match goal with |- _ \/ ~ (_ \/ _ \/ In x ?l) => destruct (in_dec string_dec x l) as [C|C]; [tauto|] end. tauto.
Qed.

Section Both.
Variable Gam : R -> R.
Variables (e : menv) (ir il : inst) (ar al : iattr) (o_r o_l : sopts).
Hypothesis Sep : separate_inputs e.
Hypothesis Own : i_str il <> (i_str ir ++ "_sounding")%string.
Hypothesis CR : lower (i_class ir) = "radar"%string.
Hypothesis CL : lower (i_class il) = "lidar"%string.
Hypothesis MR : m_emp o_r || m_rad o_r = true.
Hypothesis ML : m_emp o_l || m_rad o_l = true.
Lemma sim_r : sep (radar_result ir) (lidar_result il) (simulate Gam e ir ar o_r).
Proof. unfold simulate. rewrite CR. destruct (m_only o_r); [apply sep_ret|]. apply radar_sep; assumption. Qed.
Lemma sim_l : sep (lidar_result il) (radar_result ir) (simulate Gam e il al o_l).
Proof. unfold simulate. rewrite CL. destruct (m_only o_l); [apply sep_ret|]. apply lidar_sep; assumption. Qed.
Lemma lidar_after_radar s :
  let s1 := snd (simulate Gam e ir ar o_r s) in let s2 := snd (simulate Gam e il al o_l s1) in
  fst (simulate Gam e il al o_l s1) = fst (simulate Gam e il al o_l s) /\
  (fst (simulate Gam e il al o_l s) = Ok tt -> forall x, lidar_result il x -> assoc (dvars s2) x = assoc (dvars (snd (simulate Gam e il al o_l s))) x) /\
  (forall x, ~ lidar_result il x -> assoc (dvars s2) x = assoc (dvars s1) x).
Proof.
  intros s1 s2. destruct (other_first (simulate Gam e ir ar o_r) (simulate Gam e il al o_l) _ (lidar_result il) s (proj1 sim_r) (proj2 sim_l)) as (A & B & C).
  split; [exact A|]. split; [|exact (C (proj1 sim_l))]. intros O x I. apply (B O). intro J. exact (apart ir il x Own J I).
Qed.
Lemma radar_after_lidar s :
  let s1 := snd (simulate Gam e il al o_l s) in let s2 := snd (simulate Gam e ir ar o_r s1) in
  fst (simulate Gam e ir ar o_r s1) = fst (simulate Gam e ir ar o_r s) /\
  (fst (simulate Gam e ir ar o_r s) = Ok tt -> forall x, radar_result ir x -> assoc (dvars s2) x = assoc (dvars (snd (simulate Gam e ir ar o_r s))) x) /\
  (forall x, ~ radar_result ir x -> assoc (dvars s2) x = assoc (dvars s1) x).
Proof.
  intros s1 s2. destruct (other_first (simulate Gam e il al o_l) (simulate Gam e ir ar o_r) _ (radar_result ir) s (proj1 sim_l) (proj2 sim_r)) as (A & B & C).
  split; [exact A|]. split; [|exact (C (proj1 sim_r))]. intros O x I. apply (B O). intro J. exact (apart ir il x Own I J).
Qed.
Lemma either_order s : fst (simulate Gam e ir ar o_r s) = Ok tt -> fst (simulate Gam e il al o_l s) = Ok tt ->
  let s1 := snd (simulate Gam e ir ar o_r s) in let s2 := snd (simulate Gam e il al o_l s) in
  fst (simulate Gam e il al o_l s1) = Ok tt /\ fst (simulate Gam e ir ar o_r s2) = Ok tt /\
  forall x, assoc (dvars (snd (simulate Gam e il al o_l s1))) x = assoc (dvars (snd (simulate Gam e ir ar o_r s2))) x.
Proof.
  intros A B s1 s2. destruct (lidar_after_radar s) as (K & _). destruct (radar_after_lidar s) as (J & _).
  split; [unfold s1; rewrite K; exact B|]. split; [unfold s2; rewrite J; exact A|]. intro x.
  apply (both_orders (simulate Gam e ir ar o_r) (simulate Gam e il al o_l) (radar_result ir) (lidar_result il) s
           (fun x => apart ir il x Own) (radar_result_dec ir) sim_r sim_l A B).
Qed.
End Both.
