(** Every subcolumn field has the object's number of subcolumns. *)
From Verif Require Import Gen_Facts QN_Spec Life_Model Life_Spec Life_Len.
Local Open Scope nat_scope.

(** ** An object invariant kept by every step that stores only values of the
    declared size *)

Definition keep (x : mdl -> Prop) {A} (c : M A) : Prop := forall m, x m -> x (snd (c m)).

Lemma in_put {A} (l : list (string * A)) k v x w : In (x, w) (put l k v) -> (x = k /\ w = v) \/ In (x, w) l.
Proof.
  induction l as [|[y u] l IH]; cbn [put]; [intros [E|[]]; injection E as <- <-; left; auto|].
  destruct (String.eqb y k).
  - intros [E|H]; [injection E as <- <-; left; auto|right; right; exact H].
  - intros [E|H]; [right; left; exact E|]. destruct (IH H) as [E|E]; [left; exact E|right; right; exact E].
Qed.

Lemma in_put_same {A} (l : list (string * A)) k v : In (k, v) (put l k v).
Proof. induction l as [|[y u] l IH]; cbn [put]; [left; reflexivity|]. destruct (String.eqb y k); [left; reflexivity|right; exact IH]. Qed.

Definition fits (len w : nat) (v : val) : Prop := is_sub v = true /\ val_sized len w v.

Lemma keep_assign n w l v : fits l w v -> keep sizes_agree (assign n w l v).
Proof.
  intros [Hs Hv] m Hm. unfold assign.
  destruct (match dim_sub m with Some k => k =? w | None => true end && (l =? ntime m)) eqn:E; cbn [snd]; [|exact Hm].
  apply andb_true_iff in E as [E1 E2]. apply Nat.eqb_eq in E2. subst l.
  intros x u Hx. cbn [ds dim_sub ntime] in *. apply in_put in Hx as [[-> ->]|Hx].
  - destruct v; [discriminate Hs| |]; (exists w; split; [reflexivity|exact Hv]).
  - specialize (Hm x u Hx). destruct u; [exact I| |]; destruct Hm as (k & D & V); rewrite D in E1; apply Nat.eqb_eq in E1; subst k;
      (exists w; split; [reflexivity|exact V]).
Qed.

Lemma keep_set_dim n : keep sizes_agree (set_dim n).
Proof.
  intros m Hm. unfold set_dim.
  destruct (existsb (fun p => is_sub (snd p)) (ds m)) eqn:E.
  - cbn [andb]. destruct (dim_sub m) as [k|] eqn:D; [|exact Hm].
    destruct (Nat.eqb_spec k n) as [->|Hn]; [|exact Hm]. cbn [negb snd].
    intros x v Hx. specialize (Hm x v Hx). rewrite D in Hm. exact Hm.
  - cbn [andb snd]. intros x v Hx. cbn [ds dim_sub ntime] in *.
    assert (F : is_sub v = false).
    { destruct (is_sub v) eqn:F; [|reflexivity]. rewrite <- E. symmetry. apply existsb_exists. exists (x, v). auto. }
    destruct v; [exact I|discriminate F|discriminate F].
Qed.

Lemma keep_remove c : keep sizes_agree (remove_fields c).
Proof. intros m Hm x v Hx. cbn [remove_fields snd ds] in Hx. apply filter_In in Hx as [Hx _]. exact (Hm x v Hx). Qed.

(** ... and by the number of subcolumns when a field has some. *)
Definition fixed (k : nat) (m : mdl) : Prop := dim_sub m = Some k /\ has_subcolumn_field m.

Lemma fixed_assign k n w l v : fits l w v -> keep (fixed k) (assign n w l v).
Proof.
  intros [Hs _] m [D F]. unfold assign. rewrite D.
  destruct ((k =? w) && (l =? ntime m)) eqn:E; cbn [snd]; [|split; assumption].
  apply andb_true_iff in E as [E _]. apply Nat.eqb_eq in E. subst w. split; [reflexivity|].
  exists n, v. split; [apply in_put_same|]. destruct v; [discriminate Hs|exact I|exact I].
Qed.

Lemma has_sub_existsb m : has_subcolumn_field m -> existsb (fun p => is_sub (snd p)) (ds m) = true.
Proof.
  intros (x & v & Hx & Hv). apply existsb_exists. exists (x, v). split; [exact Hx|]. destruct v; [destruct Hv|reflexivity|reflexivity].
Qed.

Lemma fixed_set_dim k n : keep (fixed k) (set_dim n).
Proof.
  intros m [D F]. unfold set_dim. rewrite (has_sub_existsb m F), D. cbn [andb].
  destruct (Nat.eqb_spec k n) as [->|Hn]; cbn [negb snd]; split; [reflexivity|exact F|exact D|exact F].
Qed.

Section Keep.
Context (Inv : mdl -> Prop).
Context (Hassign : forall n w l v, fits l w v -> keep Inv (assign n w l v)).
Context (Hdim : forall n, keep Inv (set_dim n)).

Lemma k_bind {A B} (x : M A) (k : A -> M B) : keep Inv x -> (forall a, keep Inv (k a)) -> keep Inv (mbind x k).
Proof. intros Hx Hk m HR. unfold mbind. specialize (Hx m HR). destruct (x m) as [[a|e] m']; [apply Hk, Hx|exact Hx]. Qed.
Lemma k_ret {A} (a : A) : keep Inv (ret a). Proof. intros m H; exact H. Qed.
Lemma k_raise {A} e : keep Inv (@raise A e). Proof. intros m H; exact H. Qed.
Lemma k_get : keep Inv get. Proof. intros m H; exact H. Qed.
Lemma k_lift {A} (x : res A) : keep Inv (lift x). Proof. intros m H; exact H. Qed.
Lemma k_blift {A B} (x : res A) (k : A -> M B) : (forall a, x = Ok a -> keep Inv (k a)) -> keep Inv (mbind (lift x) k).
Proof. intros Hk m HR. unfold mbind, lift. destruct x as [a|e] eqn:E; [apply (Hk a eq_refl), HR|exact HR]. Qed.
Lemma k_name d k : keep Inv (get_name d k). Proof. unfold get_name. destruct (assoc d k); [apply k_ret|apply k_raise]. Qed.
Lemma k_var n : keep Inv (get_var n). Proof. intros m H. unfold get_var. destruct (assoc (ds m) n); exact H. Qed.
Lemma k_grid n : keep Inv (get_grid n). Proof. apply k_bind; [apply k_var|]. intros []; first [apply k_ret|apply k_raise]. Qed.
Lemma k_flag n : keep Inv (get_flag n). Proof. apply k_bind; [apply k_var|]. intros []; first [apply k_ret|apply k_raise]. Qed.
Lemma k_mapMM {A B} (f : A -> M B) l : (forall x, In x l -> keep Inv (f x)) -> keep Inv (mapMM f l).
Proof.
  induction l as [|x l IH]; intro Hf; cbn [mapMM]; [apply k_ret|].
  apply k_bind; [apply Hf; left; reflexivity|]. intro. apply k_bind; [apply IH; intros; apply Hf; right; assumption|].
  intro. apply k_ret.
Qed.
Lemma k_bmapMM {A B C} (f : A -> M B) l (k : list B -> M C) :
  (forall x, In x l -> keep Inv (f x)) -> (forall r, length r = length l -> keep Inv (k r)) -> keep Inv (mbind (mapMM f l) k).
Proof.
  intros Hf Hk m HR. unfold mbind.
  assert (L : forall l m r m', mapMM f l m = (Ok r, m') -> length r = length l).
  { clear. induction l as [|x l IH]; intros m r m' H; cbn [mapMM] in H; [injection H as <- _; reflexivity|].
    unfold mbind in H. destruct (f x m) as [[y|e] m1]; [|discriminate H]. destruct (mapMM f l m1) as [[t|e] m2] eqn:E; [|discriminate H].
    injection H as <- _. cbn [length]. f_equal. eapply IH, E. }
  pose proof (k_mapMM f l Hf m HR) as K. destruct (mapMM f l m) as [[r|e] m'] eqn:E; [|exact K].
  apply Hk; [eapply L, E|exact K].
Qed.
Lemma k_precip_frac nms c rad thr h : keep Inv (precip_frac nms c rad thr h).
Proof.
  unfold precip_frac. destruct rad;
  repeat (first [apply k_name|apply k_grid|apply k_lift|apply k_bind; [|intro]]).
Qed.

Ltac kp :=
  repeat first
   [ apply k_name | apply k_grid | apply k_flag | apply k_lift | apply k_get | apply k_ret | apply k_raise
   | apply k_precip_frac | apply Hdim
   | match goal with |- keep _ (if ?b then _ else _) => destruct b eqn:? end
   | match goal with |- keep _ (match ?b with Some _ => _ | None => _ end) => destruct b eqn:? end
   | apply k_bind; [|intro] ].

Lemma off_fits thr q : fits (length q) 1 (VFlag (map (map (fun x => [above_thr thr x])) q)).
Proof.
  split; [reflexivity|]. split; [apply map_length|]. intros row Hr c Hc. apply in_map_iff in Hr as (r & <- & _).
  apply in_map_iff in Hc as (x & <- & _). reflexivity.
Qed.

Lemma k_conv h n r t : keep Inv (set_convective h n r t).
Proof.
  unfold set_convective. apply k_bind; [apply k_get|intro m]. apply k_bind; [kp|intro N].
  match goal with |- keep _ (if ?b then _ else _) => destruct b end; [apply k_raise|].
  apply k_bind; [kp|intro fn]. apply k_bind; [kp|intro fr]. apply k_bind; [kp|intro]. apply k_bind; [apply k_get|intro m']. cbv zeta.
  match goal with |- keep _ (if ?b then _ else _) => destruct b end; [kp|].
  apply k_bind; [kp|intro counts]. apply Hassign. split; [reflexivity|]. split; [apply map_length|].
  intros row Hr c Hc. apply in_map_iff in Hr as (r0 & <- & _). apply in_map_iff in Hc as (x & <- & _). apply conv_cell_length.
Qed.

Lemma k_strat n r s t dr : keep Inv (set_stratiform n r s t dr).
Proof.
  unfold set_stratiform. apply k_bind; [apply k_get|intro m]. apply k_bind; [kp|intro cv].
  apply k_bind; [kp|intro]. apply k_bind; [kp|intro].
  match goal with |- keep _ (if ?b then _ else _) => destruct b end.
  { apply k_bind; [kp|intro]. apply k_bind; [kp|intro q]. apply k_bind; [apply Hassign, off_fits|intro].
    apply k_bind; [kp|intro]. apply k_bind; [kp|intro q2]. apply Hassign, off_fits. }
  apply k_bind; [apply k_get|intro m']. destruct (dim_sub m') as [N|]; [|apply k_raise]. cbv zeta.
  apply k_bind; [kp|intro f1]. apply k_bind; [kp|intro f2]. apply k_bind; [kp|intro cs]. apply k_bind; [kp|intro order].
  apply k_blift. intros cols E. apply k_blift. intros cols' E'. apply np_stack_id in E'. subst cols'.
  assert (W : forall row, In row cols -> forall c, In c row -> lw N c).
  { intros row Hr. destruct (run_columns_in _ _ _ _ E Hr) as (tt & Ec).
    destruct (nth_res cs tt); [|discriminate Ec]. cbn [bind] in Ec. destruct (nth_res cv tt); [|discriminate Ec]. cbn [bind] in Ec.
    eapply strat_col_lw, Ec. }
  apply k_bind; [|intro]; apply Hassign; (split; [reflexivity|]; split; [apply map_length|];
    intros row Hr c Hc; apply in_map_iff in Hr as (r0 & <- & Hr); apply in_map_iff in Hc as (x & <- & Hc);
    destruct (W r0 Hr x Hc) as [W1 W2]; assumption).
Qed.

Lemma k_precip c n r s hs t dr : keep Inv (set_precip c n r s hs t dr).
Proof.
  unfold set_precip. apply k_bind; [apply k_get|intro m]. apply k_bind; [kp|intro]. cbv zeta. apply k_bind; [kp|intro].
  set (N := match n with None => num_sub m | Some n => n end).
  apply k_bmapMM; [intros; kp|]. intros fracs Lf. apply k_bind; [kp|intro ci].
  match goal with |- keep _ (if ?b then _ else _) => destruct b end.
  { apply k_bind; [|intro; apply k_ret]. apply k_mapMM. intros h _.
    apply k_bind; [kp|intro]. apply k_bind; [kp|intro q]. apply Hassign, off_fits. }
  apply k_bind; [apply k_get|intro m']. match goal with |- keep _ (if ?b then _ else _) => destruct b end; [apply k_raise|].
  apply k_bind; [kp|intro cl]. apply k_bind; [kp|intro clouds].
  apply k_blift. intros css Ecss. apply k_bind; [kp|intro order].
  apply k_blift. intros cols E. apply k_blift. intros cols' E'. apply np_stack_id in E'. subst cols'.
  assert (W : forall row, In row cols -> forall c, In c row -> cw N (length hs) c).
  { intros row Hr. destruct (run_columns_in _ _ _ _ E Hr) as (tt & Ec).
    destruct (nth_res css tt) as [cr|] eqn:E1; [|discriminate Ec]. cbn [bind] in Ec. destruct (nth_res clouds tt); [|discriminate Ec]. cbn [bind] in Ec.
    eapply precip_col_cw; [|exact Ec]. apply nth_res_in in E1. intros x Hx.
    rewrite (stack_classes_len _ _ Ecss cr E1 x Hx), map_length. exact Lf. }
  apply k_bind; [|intro; apply k_ret]. apply k_mapMM. intros [i h] Hi. apply Hassign. split; [reflexivity|]. split; [apply map_length|].
  intros row Hr x Hx. apply in_map_iff in Hr as (r0 & <- & Hr). apply in_map_iff in Hx as (l & <- & Hl). cbn [fst].
  destruct (W r0 Hr l Hl) as [W1 W2]. apply W2. apply nth_In. apply in_combine_l, in_seq in Hi. lia.
Qed.

Lemma k_qn h c qc r s t p g : keep Inv (set_q_n h c qc r s t p g).
Proof.
  unfold set_q_n. apply k_bind; [apply k_get|intro m]. cbv zeta. destruct (num_sub m =? 0); [apply k_raise|].
  set (n := num_sub m). apply k_bind; [kp|intro frac]. apply k_bind; [kp|intro nprof]. apply k_bind; [kp|intro fl].
  assert (S2 : forall A (a : list (list (list bool))) (b : list (list xq)) (k : list (list (list xq)) -> M A),
     (forall r, val_sized (length r) n (VSub r) -> keep Inv (k r)) -> keep Inv (mbind (lift (map2m (map2m (spread_n n)) a b)) k)).
  { intros A a b k Hk. apply k_blift. intros q E. apply Hk. split; [reflexivity|]. intros row Hr x Hx.
    destruct (map2m_in _ _ _ _ _ E Hr) as (y & z & _ & _ & E1). destruct (map2m_in _ _ _ _ _ E1 Hx) as (u & w & _ & _ & E2).
    eapply spread_n_length, E2. }
  assert (X : forall nsub, (c = false -> val_sized (length nsub) n (VSub nsub)) -> keep Inv
   (act qn <- get_name (if c then q_conv (nm m) else q_strat (nm m)) h;
    act q <- get_grid qn;
    if n =? 1 then
      act qv <- lift (grid2 (fun q f => [q_incloud t q f]) q frac);
      act _ <- assign (kind c ++ "_q_subcolumns_" ++ h)%string 1 (length qv) (VSub qv);
      if c then ret tt
      else assign (kind c ++ "_n_subcolumns_" ++ h)%string 1 (length nprof) (VSub (map (map (fun x => [x])) nprof))
    else
      act qv <-
        (if if r || c then false else qc then
           act mean <- lift (grid2 (fun q f => nan0 (q_incloud t q f)) q frac);
           act order <- lift (qn_order s (length frac));
           act cols <- lift (run_columns order (fun tt =>
                         do f <- nth_res fl tt; do mn <- nth_res mean tt;
                         distribute_col n f mn (p tt) (g tt)));
           act cols <- lift (np_stack cols);
           ret (map (map (map nan0)) cols)
         else
           act qc <- lift (grid2 (q_incloud t) q frac);
           lift (map2m (map2m (spread_n n)) fl qc));
      act _ <- assign (kind c ++ "_q_subcolumns_" ++ h)%string n (length qv) (VSub qv);
      if c then ret tt
      else assign (kind c ++ "_n_subcolumns_" ++ h)%string n (length nsub) (VSub nsub))).
  { intros nsub Hn. apply k_bind; [kp|intro qn]. apply k_bind; [kp|intro q].
    destruct (n =? 1).
    { apply k_blift. intros qv E. apply k_bind; [|intro; destruct c; [apply k_ret|]]; apply Hassign; (split; [reflexivity|]).
      - split; [reflexivity|]. intros row Hr x Hx. destruct (grid2_in _ _ _ _ _ _ E Hr Hx) as (? & ? & ? & ? & _ & _ & _ & _ & <-). reflexivity.
      - split; [apply map_length|]. intros row Hr x Hx. apply in_map_iff in Hr as (? & <- & _). apply in_map_iff in Hx as (? & <- & _). reflexivity. }
    assert (Fin : forall qv, val_sized (length qv) n (VSub qv) -> keep Inv
      (act _ <- assign (kind c ++ "_q_subcolumns_" ++ h)%string n (length qv) (VSub qv);
       if c then ret tt else assign (kind c ++ "_n_subcolumns_" ++ h)%string n (length nsub) (VSub nsub))).
    { intros qv Hv. apply k_bind; [apply Hassign; split; [reflexivity|exact Hv]|intro].
      destruct c; [apply k_ret|apply Hassign; split; [reflexivity|apply Hn; reflexivity]]. }
    destruct (if r || c then false else qc).
    - intros m0 H0. rewrite bind_assoc. revert m0 H0. 
      match goal with |- forall m0, Inv m0 -> Inv (snd (?X m0)) => change (keep Inv X) end.
      apply k_blift. intros mean _. intros m0 H0. rewrite bind_assoc. revert m0 H0.
      match goal with |- forall m0, Inv m0 -> Inv (snd (?X m0)) => change (keep Inv X) end.
      apply k_blift. intros order _. intros m0 H0. rewrite bind_assoc. revert m0 H0.
      match goal with |- forall m0, Inv m0 -> Inv (snd (?X m0)) => change (keep Inv X) end.
      apply k_blift. intros cols E. intros m0 H0. rewrite bind_assoc. revert m0 H0.
      match goal with |- forall m0, Inv m0 -> Inv (snd (?X m0)) => change (keep Inv X) end.
      apply k_blift. intros cols' E'. apply np_stack_id in E'. subst cols'. intros m0 H0. rewrite bind_ret. revert m0 H0.
      match goal with |- forall m0, Inv m0 -> Inv (snd (?X m0)) => change (keep Inv X) end.
      apply Fin. split; [reflexivity|]. intros row Hr x Hx. apply in_map_iff in Hr as (r0 & <- & Hr). apply in_map_iff in Hx as (x0 & <- & Hx).
      rewrite map_length. destruct (run_columns_in _ _ _ _ E Hr) as (tt & Ec).
      destruct (nth_res fl tt); [|discriminate Ec]. cbn [bind] in Ec. destruct (nth_res mean tt); [|discriminate Ec]. cbn [bind] in Ec.
      eapply distribute_col_length; eassumption.
    - intros m0 H0. rewrite bind_assoc. revert m0 H0.
      match goal with |- forall m0, Inv m0 -> Inv (snd (?X m0)) => change (keep Inv X) end.
      apply k_blift. intros q2 _. apply S2. intros qv Hv. apply Fin, Hv. }
  destruct c.
  - intros m0 H0. rewrite bind_ret. apply (X []); [discriminate|exact H0].
  - apply S2. intros nsub Hv. apply (X nsub). intros _. exact Hv.
Qed.

Lemma k_call c : keep Inv (run_call c).
Proof. destruct c; [apply k_conv|apply k_strat|apply k_precip|apply k_qn]. Qed.
End Keep.

Lemma event_sizes e : keep sizes_agree (run_event e).
Proof. destruct e; [apply k_call; [apply keep_assign|apply keep_set_dim]|apply keep_set_dim|apply keep_remove]. Qed.

Lemma life_sizes es m : sizes_agree m -> sizes_agree (life es m).
Proof.
  revert m; induction es as [|e es IH]; intros m H; [exact H|]. cbn [life fold_left]. apply IH, event_sizes, H.
Qed.

Definition removal (e : event) : Prop := match e with Remove _ => True | _ => False end.

Lemma life_fixed es m n : (forall e, In e es -> ~ removal e) -> dim_sub m = Some n -> has_subcolumn_field m ->
  dim_sub (life es m) = Some n /\ has_subcolumn_field (life es m).
Proof.
  intros He D F. assert (X : fixed n m) by (split; assumption). clear D F. change (fixed n (life es m)).
  revert m X; induction es as [|e es IH]; intros m X; [exact X|]. cbn [life fold_left]. apply IH.
  - intros e' He'. apply He; right; exact He'.
  - specialize (He e (or_introl eq_refl)). destruct e; cbn [run_event].
    + apply k_call; [apply fixed_assign|apply fixed_set_dim|exact X].
    + apply fixed_set_dim, X.
    + exfalso. apply He; exact I.
Qed.

Lemma life_kept es m n : (forall e, In e es -> forall c, e <> Remove c) -> dim_sub m = Some n -> has_subcolumn_field m ->
  dim_sub (life es m) = Some n /\ has_subcolumn_field (life es m).
Proof.
  intros He. apply life_fixed. intros e Hi. destruct e; cbn [removal]; auto. intros _. apply (He _ Hi _ eq_refl).
Qed.

Lemma setter_spec n m :
  (no_subcolumn_fields m \/ num_sub m = n /\ dim_sub m <> None ->
     exists m', set_num_subcolumns n m = (Ok tt, m') /\ num_sub m' = n /\ ds m' = ds m /\
       ntime m' = ntime m /\ process_conv m' = process_conv m /\ nm m' = nm m) /\
  (has_subcolumn_field m -> num_sub m <> n -> set_num_subcolumns n m = (Raise ValueError, m)).
Proof.
  split.
  - intro H. exists (with_dim n m). split; [|repeat split]. destruct H as [H|[H1 H2]]; [apply set_dim_unset, H|].
    apply set_dim_same. unfold num_sub in H1. destruct (dim_sub m); congruence.
  - intros F Hn. unfold set_num_subcolumns, set_dim. rewrite (has_sub_existsb m F). unfold num_sub in Hn. cbn [andb].
    destruct (dim_sub m) as [k|]; [|reflexivity]. destruct (Nat.eqb_spec k n); [contradiction|reflexivity].
Qed.

Lemma no_fields_agree m : no_subcolumn_fields m -> sizes_agree m.
Proof.
  intros H x v Hx. unfold no_subcolumn_fields in H. rewrite Forall_forall in H.
  destruct (H _ Hx) as (g & E). cbn [snd] in E. subst v. exact I.
Qed.
