(** Which names the forward calculations may write, by predicate. *)
From Verif Require Import Mom_Base Mom_Spec Mom_Facts Sched_Model Psd_Model Lidar_Model.
Local Open Scope R_scope.

Definition writes {A} (P : string -> Prop) (m : L A) : Prop :=
  forall s x, ~ P x -> assoc (dvars (snd (m s))) x = assoc (dvars s) x.
Lemma writes_ret {A} P (a : A) : writes P (lret a). Proof. intros s x _. reflexivity. Qed.
Lemma writes_raise {A} P e : writes P (@lraise A e). Proof. intros s x _. reflexivity. Qed.
Lemma writes_rd {A} P (f : dset -> res A) : writes P (rd f). Proof. intros s x _. reflexivity. Qed.
Lemma writes_assign (P : string -> Prop) n v : P n -> writes P (assign n v).
Proof. intros H s x N. apply upd_other. intros ->. auto. Qed.
Lemma writes_bind {A B} P (m : L A) (k : A -> L B) :
  writes P m -> (forall a, writes P (k a)) -> writes P (lbind m k).
Proof.
  intros Hm Hk s x N. unfold lbind. specialize (Hm s x N).
  destruct (m s) as [[a|e] s']; simpl in *; [|exact Hm]. rewrite (Hk a s' x N). exact Hm.
Qed.
Lemma writes_add_to (P : string -> Prop) n a : P n -> writes P (add_to n a).
Proof. intro H. apply writes_bind; [apply writes_rd|]. intro. apply writes_assign; exact H. Qed.
Lemma writes_weaken {A} (P Q : string -> Prop) (m : L A) : (forall x, P x -> Q x) -> writes P m -> writes Q m.
Proof. intros H F s x N. apply F. auto. Qed.
Lemma writes_run {A} P (m : L A) s r s' x : writes P m -> m s = (r, s') -> ~ P x ->
  assoc (dvars s') x = assoc (dvars s) x.
Proof. intros F E N. specialize (F s x N). rewrite E in F. exact F. Qed.
Lemma writes_seen P y : writes P (fun s => (Ok tt, mkds (dvars s) (y :: dseen s))).
Proof. intros s x _. reflexivity. Qed.

Definition psd_names : list string := ["mu"; "lambda"; "N_0"]%string.
(** Fields of the classes and totals of cloud type [c], and the
    size-distribution scratch variables. *)
Definition lidar_name (c : bool) (x : string) : Prop := (exists f h, x = out f h c) \/ In x psd_names.
Lemma ln_out f h c : lidar_name c (out f h c). Proof. left. eauto. Qed.
Global Hint Resolve ln_out : writes.

Ltac wr := repeat match goal with
  | |- writes _ (lret _) => apply writes_ret
  | |- writes _ (lraise _) => apply writes_raise
  | |- writes _ (rd _) => apply writes_rd
  | |- writes _ (assign _ _) => apply writes_assign; solve [eauto with writes | right; simpl; tauto]
  | |- writes _ (add_to _ _) => apply writes_add_to; solve [eauto with writes | right; simpl; tauto]
  | |- writes _ (lbind _ _) => apply writes_bind; [|intro]
  | |- writes _ (if ?b then _ else _) => destruct b
  | |- writes _ (match ?x with _ => _ end) => destruct x
  | |- writes _ (let _ := _ in _) => cbv zeta
  | |- writes _ (fun s => (Ok tt, mkds (dvars s) (_ :: dseen s))) => apply writes_seen
  end.

Section W.
Variables (Gam : R -> R) (e : menv) (ins : inst).
Lemma writes_OD c z h sfc : writes (lidar_name c) (accumulate_OD e c z h sfc).
Proof. unfold accumulate_OD. wr. Qed.
Lemma writes_finish c z sfc h : writes (lidar_name c) (finish_class e c z sfc h).
Proof. unfold finish_class. wr. apply writes_OD. Qed.
Lemma writes_loop {loc} c z sfc (opt : string -> loc -> dset -> res (loc * (arr3 * arr3))) hs l :
  writes (lidar_name c) (class_loop e c z sfc (fun _ => lret tt) opt hs l).
Proof. revert l. induction hs as [|h hs IH]; intro l; simpl; wr; [apply writes_finish|apply IH]. Qed.
Lemma writes_lemp c p t z sfc hs : writes (lidar_name c) (calc_lidar_empirical e ins c p t z sfc hs).
Proof. unfold calc_lidar_empirical, zero_totals. wr. apply writes_loop. Qed.
Lemma writes_lbulk c p z sfc hs mie : writes (lidar_name c) (calc_lidar_bulk e ins c p z sfc hs mie).
Proof. unfold calc_lidar_bulk, zero_totals. wr. apply writes_loop. Qed.
Lemma writes_psd kw h c : writes (lidar_name c) (calc_and_set_psd_params Gam e kw h).
Proof. unfold calc_and_set_psd_params, psd_fit3, calc_mu_lambda. wr. Qed.
Lemma writes_kw h l P : writes P (micro_kw e ins h l).
Proof. unfold micro_kw. wr. Qed.
Lemma writes_micro_loop z sfc mie sch kw lut hs l :
  writes (lidar_name false) (micro_loop Gam e ins z sfc mie sch kw lut hs l).
Proof.
  revert l. induction hs as [|h hs IH]; intro l; simpl; unfold micro_totals; wr;
    first [apply writes_psd|apply writes_kw|apply writes_finish|apply IH].
Qed.
Lemma writes_lmicro z sfc hs mie sch kw : writes (lidar_name false) (calc_lidar_micro Gam e ins z sfc hs mie sch kw).
Proof. unfold calc_lidar_micro. wr. apply writes_micro_loop. Qed.
End W.
