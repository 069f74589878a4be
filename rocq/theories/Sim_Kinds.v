(** Which variables a computation keeps, and which it leaves behind. *)
From Verif Require Import Mom_Base Mom_Spec Mom_Facts Sched_Model Atm_Model Psd_Model Lidar_Model Lidar_Spec
  Radar_Model Class_Model Sim_Model Sim_Spec.
Local Open Scope R_scope.

Inductive kind := K2 | K3 | KB | KX.
Definition haskind (s : dset) (x : string) (k : kind) : Prop :=
  match k with K2 => has2 s x | K3 => has3 s x | KB => hasb s x | KX => True end.
Definition kind_of (v : mv) : kind := match v with V2 _ => K2 | V3 _ => K3 | VB _ => KB end.
Definition other_names : list (string * kind) :=
  [("kappa_o2", K2); ("kappa_wv", K2); ("kappa_att", K2); ("atm_ext", K2); ("hyd_ext_conv", K3); ("hyd_ext_strat", K3);
   ("tau", K2); ("u_atm", K2); ("beta", K2); ("sigma_180_vol", K2); ("sigma_180", K2); ("sigma", K2); ("kappa", K2);
   ("N_s", K2); ("n_s", K2); ("N_0", KX); ("lambda", KX); ("mu", KX); ("Ze_min", K2); ("detect_mask", KB);
   ("ext_mask", K3)]%string.
Definition kindof (x : string) : option kind :=
  if String.prefix "sub_col_" x then Some K3 else assoc other_names x.

Definition keeps {A} (m : L A) : Prop := forall s x,
  match kindof x with
  | Some k => haskind s x k -> haskind (snd (m s)) x k
  | None => assoc (dvars (snd (m s))) x = assoc (dvars s) x
  end.

Lemma prefix_app p y : String.prefix p (p ++ y) = true.
Proof. induction p as [|a p IH]; [destruct y; reflexivity|]. simpl. destruct (ascii_dec a a); [exact IH|congruence]. Qed.
Lemma prefix_split p x : String.prefix p x = true -> exists y, x = (p ++ y)%string.
Proof.
  revert x. induction p as [|a p IH]; intros x H; [exists x; reflexivity|].
  destruct x as [|b x]; [discriminate|]. simpl in H. destruct (ascii_dec a b) as [->|]; [|discriminate].
  destruct (IH x H) as [y ->]. exists y. reflexivity.
Qed.
Lemma kindof_out f h c : kindof (out f h c) = Some K3.
Proof. unfold kindof, out. rewrite prefix_app. reflexivity. Qed.
Lemma kindof_hyd_ext c : kindof (hyd_ext_name c) = Some K3.
Proof. destruct c; reflexivity. Qed.
Lemma kindof_none x : ~ moment_name x -> kindof x = None.
Proof.
  intro H. unfold kindof. destruct (String.prefix "sub_col_" x) eqn:E.
  - exfalso. apply H. right. apply prefix_split. exact E.
  - destruct (assoc other_names x) as [k|] eqn:E'; [|reflexivity].
    exfalso. apply H. left. change moment_names with (map fst other_names).
    revert E'. generalize other_names. induction l as [|[a b] l IH]; simpl; [discriminate|].
    destruct (String.eqb_spec a x) as [->|]; [left; reflexivity|]; intro; right; auto.
Qed.

Lemma keeps_ret {A} (a : A) : keeps (lret a).
Proof. intros s x. destruct (kindof x); auto. Qed.
Lemma keeps_raise {A} e : keeps (@lraise A e).
Proof. intros s x. simpl. destruct (kindof x); auto. Qed.
Lemma keeps_rd {A} (f : dset -> res A) : keeps (rd f).
Proof. intros s x. simpl. destruct (kindof x); auto. Qed.
Lemma haskind_put s n v x k : haskind s x k -> (x = n -> k = KX \/ k = kind_of v) -> haskind (upd s n v) x k.
Proof.
  intros H E. destruct (string_dec x n) as [->|N].
  - destruct (E eq_refl) as [->| ->]; [exact I|].
    destruct v; eexists; apply upd_same.
  - destruct k; simpl in *; try exact I; destruct H as [a Ha]; exists a; red in Ha |- *; rewrite upd_other by exact N; exact Ha.
Qed.
Lemma keeps_assign n v : (kindof n = Some KX \/ kindof n = Some (kind_of v)) -> keeps (assign n v).
Proof.
  intros H s x. rewrite assign_eq. cbn [snd]. destruct (kindof x) as [k|] eqn:E.
  - intro K. apply haskind_put; [exact K|]. intros ->. rewrite E in H. destruct H as [[= ->]|[= ->]]; auto.
  - apply upd_other. intros ->. rewrite E in H. destruct H; discriminate.
Qed.
Lemma keeps_bind {A B} (m : L A) (k : A -> L B) : keeps m -> (forall a, keeps (k a)) -> keeps (lbind m k).
Proof.
  intros Hm Hk s x. unfold lbind. specialize (Hm s x).
  destruct (m s) as [[a|e] s']; simpl in *; [|exact Hm].
  specialize (Hk a s' x). destruct (kindof x); [tauto|congruence].
Qed.
Lemma keeps_add_to n a : kindof n = Some K3 -> keeps (add_to n a).
Proof. intro H. apply keeps_bind; [apply keeps_rd|]. intro. apply keeps_assign. right. exact H. Qed.
Lemma keeps_if {A} (b : bool) (m n : L A) : keeps m -> keeps n -> keeps (if b then m else n).
Proof. destruct b; auto. Qed.

Ltac kstep :=
  match goal with
  | |- keeps (lret _) => apply keeps_ret
  | |- keeps (lraise _) => apply keeps_raise
  | |- keeps (rd _) => apply keeps_rd
  | |- keeps (assign _ _) => apply keeps_assign; first [right; apply kindof_out | right; apply kindof_hyd_ext
        | right; reflexivity | left; reflexivity]
  | |- keeps (add_to _ _) => apply keeps_add_to; first [apply kindof_out | reflexivity]
  | |- keeps (lbind _ _) => apply keeps_bind; [|intro]
  | |- keeps (if ?b then _ else _) => destruct b
  | |- keeps (match ?x with _ => _ end) => destruct x
  | |- keeps (let _ := _ in _) => cbv zeta
  end.
Ltac kp := repeat (cbv beta zeta; kstep).

Section Keeps.
Variable Gam : R -> R.
Variables (e : menv) (ins : inst).

Lemma keeps_atm : keeps (calc_radar_atm_attenuation e ins).
Proof. unfold calc_radar_atm_attenuation. kp. Qed.
Lemma keeps_beta_m lam sfc : keeps (calc_theory_beta_m e lam sfc).
Proof. unfold calc_theory_beta_m. kp. Qed.
Lemma keeps_attenuation c z hyd atm sfc emp : keeps (accumulate_attenuation e c z hyd atm sfc emp).
Proof. unfold accumulate_attenuation. kp. Qed.
Lemma keeps_ze_loop {loc} c (opt : string -> loc -> dset -> res (loc * arr3)) hs l : keeps (ze_loop c opt hs l).
Proof. revert l. induction hs as [|h hs IH]; intro l; simpl; kp. apply IH. Qed.
Lemma keeps_remp c p t z atm sfc hs : keeps (calc_radar_empirical e ins c p t z atm sfc hs).
Proof.
  unfold calc_radar_empirical, zero_Ze. kp; [apply keeps_ze_loop|apply keeps_attenuation].
Qed.
Lemma keeps_rbulk c p z atm sfc hs mie : keeps (calc_radar_bulk e ins c p z atm sfc hs mie).
Proof.
  unfold calc_radar_bulk, zero_Ze. kp; [apply keeps_ze_loop|apply keeps_attenuation].
Qed.
Lemma keeps_mu_lambda kw h c : keeps (calc_mu_lambda Gam e kw h c).
Proof. unfold calc_mu_lambda. kp. Qed.
Lemma keeps_psd kw h : keeps (calc_and_set_psd_params Gam e kw h).
Proof. unfold calc_and_set_psd_params, psd_fit3. kp; apply keeps_mu_lambda. Qed.
Lemma keeps_seen x : keeps (fun s => (Ok tt, mkds (dvars s) (x :: dseen s))).
Proof. intros s y. simpl. destruct (kindof y) as [k|]; [|reflexivity]. intro H. destruct k; exact H. Qed.
Lemma keeps_micro_kw h l : keeps (micro_kw e ins h l).
Proof. unfold micro_kw. kp. apply keeps_seen. Qed.
Lemma keeps_radar_class mie width sch kw lut h l : keeps (radar_class Gam e ins mie width sch kw lut h l).
Proof. unfold radar_class, radar_totals. kp; first [apply keeps_psd|apply keeps_micro_kw]. Qed.
Lemma keeps_radar_classes mie width sch kw lut hs l : keeps (radar_classes Gam e ins mie width sch kw lut hs l).
Proof. revert l. induction hs as [|h hs IH]; intro l; simpl; kp; [apply keeps_radar_class|apply IH]. Qed.
Lemma keeps_sigma_loop mie sch kw lut p3 corr hs acc : keeps (sigma_loop Gam e ins mie sch kw lut p3 corr hs acc).
Proof. revert acc. induction hs as [|h hs IH]; intro acc; simpl; kp; first [apply keeps_psd|apply IH]. Qed.
Lemma assoc_filter_out {A} (l : list (string * A)) names x : memb x names = false ->
  assoc (filter (fun p => negb (memb (fst p) names)) l) x = assoc l x.
Proof.
  intro H. induction l as [|[k v] l IH]; [reflexivity|]. cbn [filter fst].
  destruct (memb k names) eqn:E; cbn [negb Ds.assoc]; rewrite IH; [|reflexivity].
  destruct (String.eqb_spec k x) as [->|]; [congruence|]. reflexivity.
Qed.
Lemma keeps_drop : keeps (drop_vars ["N_0"; "lambda"; "mu"]%string).
Proof.
  intros s x. unfold drop_vars. destruct (forallb _ _); cbn [snd]; [|destruct (kindof x); auto].
  destruct (memb x ["N_0"; "lambda"; "mu"]%string) eqn:E.
  - assert (K : kindof x = Some KX).
    { unfold memb in E. cbn [existsb] in E.
      destruct (String.eqb_spec x "N_0"%string) as [E1|]; [rewrite E1; reflexivity|].
      destruct (String.eqb_spec x "lambda"%string) as [E1|]; [rewrite E1; reflexivity|].
      destruct (String.eqb_spec x "mu"%string) as [E1|]; [rewrite E1; reflexivity|]. discriminate. }
    rewrite K. auto.
  - assert (Q := assoc_filter_out (dvars s) _ x E).
    destruct (kindof x) as [k|]; [|exact Q].
    intro H. destruct k; simpl in *; try exact I; destruct H as [a Ha]; exists a; red in Ha |- *; simpl; rewrite Q; exact Ha.
Qed.
Lemma keeps_rmicro z atm sfc hs mie width sch kw : keeps (calc_radar_micro Gam e ins z atm sfc hs mie width sch kw).
Proof.
  unfold calc_radar_micro. kp; first [apply keeps_radar_classes|apply keeps_sigma_loop|apply keeps_drop|apply keeps_attenuation].
Qed.
Lemma keeps_dbz c hs : keeps (dbz_loop c hs).
Proof. induction hs as [|h hs IH]; simpl; kp. exact IH. Qed.
Lemma keeps_radar o c : keeps (calc_radar_moments Gam e ins o c).
Proof.
  unfold calc_radar_moments. kp; first [apply keeps_atm|apply keeps_remp|apply keeps_rbulk|apply keeps_rmicro|apply keeps_dbz].
Qed.

Lemma keeps_OD c z h sfc : keeps (accumulate_OD e c z h sfc).
Proof. unfold accumulate_OD. kp. Qed.
Lemma keeps_finish c z sfc h : keeps (finish_class e c z sfc h).
Proof. unfold finish_class. kp. apply keeps_OD. Qed.
Lemma keeps_class_loop {loc} c z sfc (opt : string -> loc -> dset -> res (loc * (arr3 * arr3))) hs l :
  keeps (class_loop e c z sfc (fun _ => lret tt) opt hs l).
Proof. revert l. induction hs as [|h hs IH]; intro l; simpl; kp; [apply keeps_finish|apply IH]. Qed.
Lemma keeps_lemp c p t z sfc hs : keeps (calc_lidar_empirical e ins c p t z sfc hs).
Proof. unfold calc_lidar_empirical, zero_totals. kp. apply keeps_class_loop. Qed.
Lemma keeps_lbulk c p z sfc hs mie : keeps (calc_lidar_bulk e ins c p z sfc hs mie).
Proof. unfold calc_lidar_bulk, zero_totals. kp. apply keeps_class_loop. Qed.
Lemma keeps_micro_loop z sfc mie sch kw lut hs l : keeps (micro_loop Gam e ins z sfc mie sch kw lut hs l).
Proof.
  revert l. induction hs as [|h hs IH]; intro l; simpl; unfold micro_totals; kp;
    first [apply keeps_psd|apply keeps_micro_kw|apply keeps_finish|apply IH].
Qed.
Lemma keeps_lmicro z sfc hs mie sch kw : keeps (calc_lidar_micro Gam e ins z sfc hs mie sch kw).
Proof. unfold calc_lidar_micro. kp. apply keeps_micro_loop. Qed.
Lemma keeps_lidar o c : keeps (calc_lidar_moments Gam e ins o c).
Proof.
  unfold calc_lidar_moments. kp; first [apply keeps_beta_m|apply keeps_lemp|apply keeps_lbulk|apply keeps_lmicro].
Qed.
End Keeps.
