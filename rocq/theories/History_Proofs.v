(** What any generation call, failing or not, may change. *)
From Verif Require Import History_Model Gen_Facts Conv_Proofs Precip_Api QN_Spec QN_Api History_Spec.
Local Open Scope nat_scope.

Section Keep.
Context (outs : list string) (m0 : mdl).

Definition R (m : mdl) : Prop := unchanged_except outs m0 m /\ (num_sub m0 <> 0 -> dim_sub m = dim_sub m0).
Definition pres {A} (x : M A) : Prop := forall m, R m -> R (snd (x m)).

Lemma pres_bind {A B} (x : M A) (k : A -> M B) : pres x -> (forall a, pres (k a)) -> pres (mbind x k).
Proof.
  intros Hx Hk m HR. unfold mbind. specialize (Hx m HR). destruct (x m) as [[a|e] m']; [apply Hk, Hx|exact Hx].
Qed.
Lemma pres_ret {A} (a : A) : pres (ret a). Proof. intros m H; exact H. Qed.
Lemma pres_raise {A} e : pres (@raise A e). Proof. intros m H; exact H. Qed.
Lemma pres_get : pres get. Proof. intros m H; exact H. Qed.
Lemma pres_lift {A} (x : res A) : pres (lift x). Proof. intros m H; exact H. Qed.
Lemma pres_name d k : pres (get_name d k). Proof. unfold get_name. destruct (assoc d k); [apply pres_ret|apply pres_raise]. Qed.
Lemma pres_var n : pres (get_var n). Proof. intros m H. unfold get_var. destruct (assoc (ds m) n); exact H. Qed.
Lemma pres_grid n : pres (get_grid n). Proof. apply pres_bind; [apply pres_var|]. intros []; first [apply pres_ret|apply pres_raise]. Qed.
Lemma pres_flag n : pres (get_flag n). Proof. apply pres_bind; [apply pres_var|]. intros []; first [apply pres_ret|apply pres_raise]. Qed.
Lemma pres_set_dim n : num_sub m0 = 0 -> pres (set_dim n).
Proof.
  intros H0 m [H1 H2]. unfold set_dim.
  match goal with |- context[if ?b then _ else _] => destruct b end; (split; [exact H1|]; intro; contradiction).
Qed.
Lemma pres_assign n w l v : In n outs -> pres (assign n w l v).
Proof.
  intros Hn m [(U1 & U2 & U3 & U4) H2]. unfold assign.
  destruct (match dim_sub m with Some k => k =? w | None => true end && (l =? ntime m)) eqn:E; cbn [snd]; [|repeat split; assumption].
  split.
  - do 3 (split; [assumption|]). intros x Hx. cbn [ds]. rewrite assoc_put_other; [apply U4, Hx|]. intros ->; contradiction.
  - intro Hz. specialize (H2 Hz). cbn [dim_sub]. apply andb_true_iff in E as [E _].
    unfold num_sub in Hz. rewrite <- H2 in *. destruct (dim_sub m) as [k|]; [|contradiction].
    apply Nat.eqb_eq in E. congruence.
Qed.
Lemma pres_mapMM {A B} (f : A -> M B) l : (forall x, In x l -> pres (f x)) -> pres (mapMM f l).
Proof.
  induction l as [|x l IH]; intro Hf; cbn [mapMM]; [apply pres_ret|].
  apply pres_bind; [apply Hf; left; reflexivity|]. intro. apply pres_bind; [apply IH; intros; apply Hf; right; assumption|].
  intro. apply pres_ret.
Qed.
Lemma pres_precip_frac nms c rad thr h : pres (precip_frac nms c rad thr h).
Proof.
  unfold precip_frac. destruct rad;
  repeat (first [apply pres_name|apply pres_grid|apply pres_lift|apply pres_bind; [|intro]]).
Qed.
End Keep.

Ltac keep :=
  repeat first
   [ apply pres_name | apply pres_grid | apply pres_flag | apply pres_lift | apply pres_get | apply pres_ret | apply pres_raise
   | apply pres_precip_frac
   | apply pres_set_dim; apply Nat.eqb_eq; assumption
   | apply pres_assign; simpl; solve [auto]
   | apply pres_bind; [|intro]
   | match goal with |- pres _ _ (if ?b then _ else _) => destruct b eqn:? end
   | match goal with |- pres _ _ (match ?b with Some _ => _ | None => _ end) => destruct b eqn:? end ].

Lemma R_refl outs m : R outs m m.
Proof. split; [repeat split|reflexivity]. Qed.

Lemma start outs m (x : mdl -> M unit) : pres outs m (x m) -> R outs m (snd (mbind get x m)).
Proof. intro H. rewrite bind_get. apply H, R_refl. Qed.

Lemma conv_R m h n r t : R [frac_out true h] m (snd (set_convective h n r t m)).
Proof. unfold set_convective. apply start. keep. Qed.

Lemma strat_R m n r s t dr : R [frac_out false "cl"; frac_out false "ci"] m (snd (set_stratiform n r s t dr m)).
Proof. unfold set_stratiform. apply start. keep. Qed.

Lemma precip_R m c n r s hs t dr : R (map (frac_out c) hs) m (snd (set_precip c n r s hs t dr m)).
Proof.
  unfold set_precip. apply start. cbv zeta.
  apply pres_bind; [keep|intro]. apply pres_bind; [keep|intro].
  apply pres_bind; [apply pres_mapMM; intros; keep|intro]. apply pres_bind; [keep|intro].
  destruct (_ =? 1).
  - apply pres_bind; [|intro; apply pres_ret]. apply pres_mapMM. intros h Hh. rewrite kind_out.
    apply pres_bind; [keep|intro]. apply pres_bind; [keep|intro]. apply pres_assign. apply in_map, Hh.
  - apply pres_bind; [keep|intro]. destruct (negb _); [keep|].
    do 6 (apply pres_bind; [keep|intro]). apply pres_bind; [|intro; apply pres_ret].
    apply pres_mapMM. intros [i h] Hh. rewrite kind_out. apply pres_assign. apply in_map. cbn [snd].
    apply in_combine_r in Hh. exact Hh.
Qed.

Lemma qn_R m h c qc r s t p g : R (q_out c h :: if c then [] else [n_out h]) m (snd (set_q_n h c qc r s t p g m)).
Proof.
  unfold set_q_n. apply start. cbv zeta.
  change (kind c ++ "_q_subcolumns_" ++ h)%string with (q_out c h).
  destruct c.
  - keep.
  - change (kind false ++ "_n_subcolumns_" ++ h)%string with (n_out h). keep.
Qed.

Lemma call_R c m : R (writes c) m (snd (run_call c m)).
Proof. destruct c; [apply conv_R|apply strat_R|apply precip_R|apply qn_R]. Qed.

Lemma call_changes_only c m : unchanged_except (writes c) m (snd (run_call c m)).
Proof. apply call_R. Qed.

Lemma history_dim cs m : num_sub m <> 0 -> dim_sub (history cs m) = dim_sub m.
Proof.
  revert m; induction cs as [|c cs IH]; intros m Hm; [reflexivity|]. simpl.
  destruct (call_R c m) as [_ D]. specialize (D Hm). unfold history in IH. rewrite IH; [exact D|].
  unfold num_sub in *. rewrite D. exact Hm.
Qed.

Lemma history_changes_only cs m x : (forall c, In c cs -> ~ In x (writes c)) -> assoc (ds (history cs m)) x = assoc (ds m) x.
Proof.
  revert m; induction cs as [|c cs IH]; intros m Hx; [reflexivity|]. simpl. unfold history in IH. rewrite IH.
  - apply (call_changes_only c m). apply Hx. left; reflexivity.
  - intros c' Hc. apply Hx; right; exact Hc.
Qed.

Lemma number_fixed cs m : num_sub m <> 0 ->
  num_sub (history cs m) = num_sub m /\
  (forall hyd n rad thr, n <> num_sub m ->
     set_convective hyd (Some n) rad thr (history cs m) = (Raise ValueError, history cs m)) /\
  (forall is_conv n rad sch hs thr dr,
     set_precip is_conv (Some n) rad sch hs thr dr (history cs m) = (Raise ValueError, history cs m)).
Proof.
  intro Hm. assert (E : num_sub (history cs m) = num_sub m) by (unfold num_sub; rewrite history_dim by exact Hm; reflexivity).
  split; [exact E|]. set (m1 := history cs m) in *. split.
  - intros hyd n rad thr Hn. unfold set_convective. rewrite bind_get, bind_ret, E.
    destruct (Nat.eqb_spec (num_sub m) n); [congruence|]. destruct (Nat.eqb_spec (num_sub m) 0); [contradiction|]. reflexivity.
  - intros. unfold set_precip. rewrite bind_get, E. destruct (Nat.eqb_spec (num_sub m) 0); [contradiction|]. reflexivity.
Qed.

(** ** Order of the steps *)
Lemma strat_needs_conv m n r s t dr : process_conv m = true ->
  (assoc (ds m) "conv_frac_subcolumns_cl" = None \/ assoc (ds m) "conv_frac_subcolumns_ci" = None) ->
  set_stratiform n r s t dr m = (Raise KeyError, m).
Proof.
  intros Hp Hm. unfold set_stratiform. rewrite bind_get, Hp. unfold has_var.
  destruct (assoc (ds m) "conv_frac_subcolumns_cl"); [|reflexivity].
  destruct (assoc (ds m) "conv_frac_subcolumns_ci"); [|reflexivity]. destruct Hm; discriminate.
Qed.

Lemma precip_needs_number m c r s hs t dr : num_sub m = 0 -> set_precip c None r s hs t dr m = (Raise RuntimeError, m).
Proof. intro H. unfold set_precip. rewrite bind_get, H. reflexivity. Qed.

Lemma qn_needs_number m h c qc r s t p g : num_sub m = 0 -> set_q_n h c qc r s t p g m = (Raise RuntimeError, m).
Proof. intro H. unfold set_q_n. rewrite bind_get, H. reflexivity. Qed.

Lemma precip_needs_ice m c r s hs t dr T H F Qv : num_sub m <> 0 ->
  (forall h, In h hs -> frac_input m c r T H F Qv h) ->
  assoc (ds m) (frac_out c "ci") = None ->
  set_precip c None r s hs t dr m = (Raise KeyError, m).
Proof.
  intros Hn Hfr Hci. unfold set_precip. rewrite bind_get.
  destruct (Nat.eqb_spec (num_sub m) 0); [contradiction|]. rewrite bind_ret. cbv zeta. rewrite bind_ret.
  destruct (mapMM_read (precip_frac (nm m) c r t) (fun _ _ => True) m hs) as (fs & Ef & _).
  { intros h Hh. destruct (precip_frac_ok m c r t T H F Qv h (Hfr h Hh)) as (y & E & _). eauto. }
  unfold mbind at 1. rewrite Ef. change (kind c ++ "_frac_subcolumns_ci")%string with (frac_out c "ci"). unfold mbind at 1, get_flag, mbind, get_var. rewrite Hci. reflexivity.
Qed.

Lemma order_enforced m :
  (forall n r s t dr, process_conv m = true ->
     (assoc (ds m) "conv_frac_subcolumns_cl" = None \/ assoc (ds m) "conv_frac_subcolumns_ci" = None) ->
     set_stratiform n r s t dr m = (Raise KeyError, m)) /\
  (forall c r s hs t dr, num_sub m = 0 -> set_precip c None r s hs t dr m = (Raise RuntimeError, m)) /\
  (forall c r s hs t dr T H F Qv, num_sub m <> 0 -> (forall h, In h hs -> frac_input m c r T H F Qv h) ->
     assoc (ds m) (frac_out c "ci") = None -> set_precip c None r s hs t dr m = (Raise KeyError, m)) /\
  (forall h c qc r s t p g, num_sub m = 0 -> set_q_n h c qc r s t p g m = (Raise RuntimeError, m)).
Proof.
  split; [apply strat_needs_conv|]. split; [apply precip_needs_number|]. split; [apply precip_needs_ice|apply qn_needs_number].
Qed.
