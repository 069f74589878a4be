(** Lengths of what the generator computes, whatever its inputs and draws. *)
From Verif Require Import Gen_Facts.
Local Open Scope nat_scope.

Ltac inv_do :=
  repeat match goal with
  | H : (do _ <- ?x; _) = Ok _ |- _ => let E := fresh "E" in destruct x eqn:E; [cbn [bind] in H|discriminate H]
  | H : (if ?b then _ else _) = Ok _ |- _ => destruct b
  | H : Ok _ = Ok _ |- _ => injection H; clear H; intros; subst
  | H : Raise _ = Ok _ |- _ => discriminate H
  | H : (let (_, _) := ?p in _) = Ok _ |- _ => destruct p; cbv beta iota in H
  end.

Lemma conv_cell_length n c : length (conv_cell n c) = n.
Proof.
  unfold conv_cell.
  assert (G : forall is fl, length fl = n -> (forall i, In i is -> i <= n) ->
    length (fold_left (fun fl i => if Z.eqb c (Z.of_nat i) then repeat true i ++ skipn i fl else fl) is fl) = n).
  { induction is as [|i is IH]; intros fl Hl Hi; [exact Hl|]. cbn [fold_left]. apply IH.
    - destruct (Z.eqb c (Z.of_nat i)); [|exact Hl]. rewrite app_length, repeat_length, skipn_length.
      pose proof (Hi i (or_introl eq_refl)). lia.
    - intros k Hk. apply Hi. right; exact Hk. }
  apply G; [apply repeat_length|]. intros i Hi. apply in_seq in Hi. lia.
Qed.

Lemma set_true_length l idx l' : set_true l idx = Ok l' -> length l' = length l.
Proof. unfold set_true. intro H. inv_do. rewrite map_length, seq_length. reflexivity. Qed.

Definition lw (N : nat) (s : lvl) : Prop := length (fst s) = N /\ length (snd s) = N.

Lemma mark_lw N I inds s s' : lw N s -> mark I inds s = Ok s' -> lw N s'.
Proof.
  unfold mark. intros [A B] H. inv_do. apply set_true_length in E. destruct I, s; simpl in *; split; simpl; congruence.
Qed.

Ltac marks :=
  repeat match goal with
  | L : lw ?N ?s, H : mark _ _ ?s = Ok ?s' |- _ => apply (mark_lw N) in H; [|exact L]
  end.

Lemma strat_overlap_lw N Imin Imax c conv above s perm r :
  lw N s -> strat_overlap Imin Imax c conv above s perm = Ok r -> lw N (fst r).
Proof.
  unfold strat_overlap. intros L H. cbv zeta in H.
  inv_do; marks; simpl; auto.
Qed.

Lemma strat_fill_lw N Imin Imax c conv s perm r :
  lw N s -> strat_fill Imin Imax c conv s perm = Ok r -> lw N r.
Proof. unfold strat_fill. intros L H. cbv zeta in H. inv_do; marks; auto. Qed.

Lemma strat_level_lw N c conv ovl above perm s b : strat_level N c conv ovl above perm = Ok (s, b) -> lw N s.
Proof.
  unfold strat_level. intro H. cbv zeta in H.
  assert (B : lw N (repeat false N, repeat false N)) by (split; apply repeat_length).
  destruct (sel (I_argmax c) c =? 0)%Z; [injection H as <- _; exact B|].
  destruct (sel (I_min c) c =? Z.of_nat N)%Z; [injection H as <- _; split; apply repeat_length|].
  destruct ovl.
  - destruct (strat_overlap _ _ _ _ _ _ _) as [[s1 c1]|] eqn:E1; [|discriminate H]. cbn [bind] in H.
    destruct (strat_fill _ _ _ _ _ _) eqn:E2; [|discriminate H]. injection H as <- _.
    apply (strat_overlap_lw N) in E1; [|exact B]. eapply strat_fill_lw; [|exact E2]. exact E1.
  - cbn [bind] in H. destruct (strat_fill _ _ _ _ _ _) eqn:E2; [|discriminate H]. injection H as <- _.
    eapply strat_fill_lw; [|exact E2]. exact B.
Qed.

Lemma strat_column_lw N ls perm p n : strat_column N ls perm = Ok (p, n) -> forall s, In s p -> lw N s.
Proof.
  revert p n. induction ls as [|l [|l2 tl] IH]; intros p n H.
  - injection H as <- <-. intros s [].
  - injection H as <- <-. intros s [<-|[]]. split; apply repeat_length.
  - cbn [strat_column] in H. fold (strat_column N (l2 :: tl) perm) in H.
    change (match tl with [] => _ | _ :: _ => _ end) with (strat_column N (l2 :: tl) perm) in H.
    destruct (strat_column N (l2 :: tl) perm) as [[q k]|] eqn:E; [|discriminate H]. cbn [bind] in H.
    destruct q as [|a q]; [discriminate H|].
    destruct (strat_level _ _ _ _ _ _) as [[s full]|] eqn:E2; [|discriminate H]. injection H as <- _.
    intros x [<-|Hx]; [eapply strat_level_lw, E2|]. eapply IH; [reflexivity|exact Hx].
Qed.

Lemma strat_col_lw N cs convs perm p : strat_col N cs convs perm = Ok p -> forall s, In s p -> lw N s.
Proof.
  unfold strat_col. intro H. destruct (strat_ovl cs); [|discriminate H]. cbn [bind] in H.
  destruct (mk_slevels _ _ _); [|discriminate H]. cbn [bind] in H.
  destruct (strat_column _ _ _) as [[q k]|] eqn:E; [|discriminate H]. injection H as <-.
  eapply strat_column_lw, E.
Qed.

(** ** Precipitation *)

Lemma mapM_length {A B} (f : A -> res B) l r : mapM f l = Ok r -> length r = length l.
Proof.
  revert r; induction l as [|x l IH]; intros r H; cbn [mapM] in H; [injection H as <-; reflexivity|].
  destruct (f x); [|discriminate H]. cbn [bind] in H. destruct (mapM f l); [|discriminate H]. injection H as <-.
  cbn [length]. f_equal. apply IH; reflexivity.
Qed.

Lemma mapM_in {A B} (f : A -> res B) l r y : mapM f l = Ok r -> In y r -> exists x, In x l /\ f x = Ok y.
Proof.
  revert r; induction l as [|x l IH]; intros r H Hy; cbn [mapM] in H; [injection H as <-; destruct Hy|].
  destruct (f x) eqn:E; [|discriminate H]. cbn [bind] in H. destruct (mapM f l); [|discriminate H]. injection H as <-.
  destruct Hy as [<-|Hy]; [exists x; split; [left; reflexivity|exact E]|].
  destruct (IH _ eq_refl Hy) as (z & A1 & A2). exists z. split; [right; exact A1|exact A2].
Qed.

Definition pw (N k : nat) (cls : list pcls) : Prop := length cls = k /\ forall p, In p cls -> length (p_fl p) = N.

Lemma place_more_w N locs rand p p' : length (p_fl p) = N -> place_more locs rand p = Ok p' -> length (p_fl p') = N.
Proof.
  unfold place_more. intros L H. destruct (_ >? _)%Z; [|injection H as <-; exact L].
  destruct (gather _ _); [|discriminate H]. cbn [bind] in H. destruct (set_true _ _) eqn:E; [|discriminate H].
  injection H as <-. apply set_true_length in E. cbn [p_fl]. congruence.
Qed.

Lemma place_less_w N locs rand p p' : length (p_fl p) = N -> place_less locs rand p = Ok p' -> length (p_fl p') = N.
Proof.
  unfold place_less. intros L H. destruct (p_req p >? 0)%Z; [|injection H as <-; exact L].
  destruct (_ >? _)%Z.
  - destruct (gather _ _); [|discriminate H]. cbn [bind] in H. destruct (set_true _ _) eqn:E; [|discriminate H].
    injection H as <-. apply set_true_length in E. cbn [p_fl]. congruence.
  - destruct (set_true _ _) eqn:E; [|discriminate H]. injection H as <-. apply set_true_length in E. cbn [p_fl]. congruence.
Qed.

Lemma mapM_pw (f : pcls -> res pcls) N k cls cls' :
  (forall p p', length (p_fl p) = N -> f p = Ok p' -> length (p_fl p') = N) ->
  pw N k cls -> mapM f cls = Ok cls' -> pw N k cls'.
Proof.
  intros Hf [L W] H. split; [rewrite (mapM_length _ _ _ H); exact L|].
  intros p Hp. destruct (mapM_in _ _ _ _ H Hp) as (x & X1 & X2). eapply Hf; [apply W, X1|exact X2].
Qed.

Lemma precip_round_pw N k locs perm st st' : pw N k (snd st) -> precip_round locs perm st = Ok st' -> pw N k (snd st').
Proof.
  destruct st as [pf cls]. unfold precip_round. cbn [snd]. intros P H. cbv zeta in H.
  destruct (_ >? _)%Z; (destruct (mapM _ _) eqn:E; [|discriminate H]; injection H as <-; cbn [snd];
    eapply mapM_pw; [|exact P|exact E]).
  - intros; eapply place_more_w; eassumption.
  - intros; eapply place_less_w; eassumption.
Qed.

Lemma precip_free_pw N k cond perm st st' : pw N k (snd st) -> precip_free N cond perm st = Ok st' -> pw N k (snd st').
Proof.
  unfold precip_free. intros P H. destruct (_ >? _)%Z; [|injection H as <-; exact P].
  destruct (zipb _ _ _); [|discriminate H]. cbn [bind] in H. cbv zeta in H.
  destruct (_ >? _)%Z; [eapply precip_round_pw; eassumption|injection H as <-; exact P].
Qed.

Definition cw (N k : nat) (l : list (list bool)) : Prop := length l = k /\ forall fl, In fl l -> length fl = N.

Lemma precip_level_cw N cs cloudy ovl above perm s b :
  precip_level N cs cloudy ovl above perm = Ok (s, b) -> cw N (length cs) s.
Proof.
  unfold precip_level. intro H. destruct (forallb _ cs).
  { injection H as <- _. split; [apply repeat_length|]. intros fl Hf. apply repeat_spec in Hf. subst. apply repeat_length. }
  cbv zeta in H.
  set (st0 := (max_list cs, map (fun c => {| p_req := c; p_rem := c; p_fl := repeat false N |}) cs)) in H.
  assert (P0 : pw N (length cs) (snd st0)).
  { split; [apply map_length|]. intros p Hp. apply in_map_iff in Hp as (c & <- & _). apply repeat_length. }
  assert (X : exists st1, pw N (length cs) (snd st1) /\
    (do st2 <- precip_free N cloudy (perm 1%nat) st1; do st3 <- precip_free N (np_not cloudy) (perm 2%nat) st2;
     Ok (map p_fl (snd st3), false)) = Ok (s, b)).
  { destruct ovl.
    - destruct (precip_round _ _ _) as [st1|] eqn:E1; [|discriminate H]. exists st1.
      split; [eapply precip_round_pw; eassumption|exact H].
    - exists st0. split; [exact P0|exact H]. }
  destruct X as (st1 & P1 & X). destruct (precip_free _ _ _ st1) as [st2|] eqn:E2; [|discriminate X]. cbn [bind] in X.
  destruct (precip_free _ _ _ st2) as [st3|] eqn:E3; [|discriminate X]. injection X as <- _.
  apply (precip_free_pw N (length cs)) in E2; [|exact P1]. apply (precip_free_pw N (length cs)) in E3; [|exact E2].
  destruct E3 as [L W]. split; [rewrite map_length; exact L|].
  intros fl Hf. apply in_map_iff in Hf as (p & <- & Hp). apply W, Hp.
Qed.

Lemma precip_column_cw N k ls perm p n : (forall l, In l ls -> length (q_cs l) = k) ->
  precip_column N k ls perm = Ok (p, n) -> forall s, In s p -> cw N k s.
Proof.
  revert p n. induction ls as [|l [|l2 tl] IH]; intros p n Hk H.
  - injection H as <- <-. intros s [].
  - injection H as <- <-. intros s [<-|[]]. split; [apply repeat_length|].
    intros fl Hf. apply repeat_spec in Hf. subst. apply repeat_length.
  - cbn [precip_column] in H. 
    change (match tl with [] => _ | _ :: _ => _ end) with (precip_column N k (l2 :: tl) perm) in H.
    destruct (precip_column N k (l2 :: tl) perm) as [[q j]|] eqn:E; [|discriminate H]. cbn [bind] in H.
    destruct q as [|a q]; [discriminate H|].
    destruct (precip_level _ _ _ _ _ _) as [[s full]|] eqn:E2; [|discriminate H]. injection H as <- _.
    intros x [<-|Hx].
    + rewrite <- (Hk l) by (left; reflexivity). eapply precip_level_cw, E2.
    + eapply IH; [|reflexivity|exact Hx]. intros l' Hl. apply Hk. right; exact Hl.
Qed.

Lemma mk_plevels_cs css clouds ovl ls : mk_plevels css clouds ovl = Ok ls -> forall l, In l ls -> In (q_cs l) css.
Proof.
  revert clouds ovl ls; induction css as [|c css IH]; intros [|cv clouds] [|o ovl] ls H l Hl; cbn [mk_plevels] in H;
    try discriminate H; try (injection H as <-; destruct Hl).
  destruct (mk_plevels css clouds ovl) eqn:E; [|discriminate H]. injection H as <-.
  destruct Hl as [<-|Hl]; [left; reflexivity|right; eapply IH; eassumption].
Qed.

Lemma precip_col_cw N k css clouds perm p : (forall cs, In cs css -> length cs = k) ->
  precip_col N k css clouds perm = Ok p -> forall s, In s p -> cw N k s.
Proof.
  unfold precip_col. intros Hk H. destruct (precip_ovl css); [|discriminate H]. cbn [bind] in H.
  destruct (mk_plevels _ _ _) eqn:E0; [|discriminate H]. cbn [bind] in H.
  destruct (precip_column _ _ _ _) as [[q j]|] eqn:E; [|discriminate H]. injection H as <-.
  eapply precip_column_cw; [|exact E]. intros l Hl. apply Hk. eapply mk_plevels_cs; eassumption.
Qed.

Lemma map2m_in {A B C} (f : A -> B -> res C) a b r z : map2m f a b = Ok r -> In z r -> exists x y, In x a /\ In y b /\ f x y = Ok z.
Proof.
  revert b r; induction a as [|x a IH]; intros [|y b] r H Hz; cbn [map2m] in H; try discriminate H.
  { injection H as <-. destruct Hz. }
  destruct (f x y) eqn:E; [|discriminate H]. cbn [bind] in H. destruct (map2m f a b) eqn:E2; [|discriminate H]. injection H as <-.
  destruct Hz as [<-|Hz]; [exists x, y; simpl; auto|].
  destruct (IH _ _ E2 Hz) as (x' & y' & A1 & A2 & A3). exists x', y'. simpl; auto.
Qed.
Lemma map2m_length {A B C} (f : A -> B -> res C) a b r : map2m f a b = Ok r -> length r = length a.
Proof.
  revert b r; induction a as [|x a IH]; intros [|y b] r H; cbn [map2m] in H; try discriminate H.
  { injection H as <-. reflexivity. }
  destruct (f x y); [|discriminate H]. cbn [bind] in H. destruct (map2m f a b) eqn:E2; [|discriminate H]. injection H as <-.
  cbn [length]. f_equal. eapply IH, E2.
Qed.
Lemma map2r_in {A B C} (f : A -> B -> C) a b r z : map2r f a b = Ok r -> In z r -> exists x y, In x a /\ In y b /\ f x y = z.
Proof.
  revert b r; induction a as [|x a IH]; intros [|y b] r H Hz; cbn [map2r] in H; try discriminate H.
  { injection H as <-. destruct Hz. }
  destruct (map2r f a b) eqn:E2; [|discriminate H]. injection H as <-.
  destruct Hz as [<-|Hz]; [exists x, y; simpl; auto|].
  destruct (IH _ _ E2 Hz) as (x' & y' & A1 & A2 & A3). exists x', y'. simpl; auto.
Qed.

Lemma grid2_in {A B C} (f : A -> B -> C) a b r row z : grid2 f a b = Ok r -> In row r -> In z row ->
  exists rx ry x y, In rx a /\ In ry b /\ In x rx /\ In y ry /\ f x y = z.
Proof.
  intros H Hr Hz. destruct (map2m_in _ _ _ _ _ H Hr) as (rx & ry & A1 & A2 & A3).
  destruct (map2r_in _ _ _ _ _ A3 Hz) as (x & y & B1 & B2 & B3). exists rx, ry, x, y. auto.
Qed.

Lemma stack_classes_len fs css : stack_classes fs = Ok css -> forall row, In row css -> forall cs, In cs row -> length cs = length fs.
Proof.
  revert css. induction fs as [|f [|f2 fs] IH]; intros css H row Hr cs Hc.
  - discriminate H.
  - injection H as <-. apply in_map_iff in Hr as (r & <- & _). apply in_map_iff in Hc as (c & <- & _). reflexivity.
  - cbn [stack_classes] in H. change (match fs with [] => _ | _ :: _ => _ end) with (stack_classes (f2 :: fs)) in H.
    destruct (stack_classes (f2 :: fs)) as [t|] eqn:E; [|discriminate H]. cbn [bind] in H.
    destruct (grid2_in _ _ _ _ _ _ H Hr Hc) as (rx & ry & x & y & _ & A2 & _ & A4 & <-).
    cbn [length]. f_equal. apply (IH _ eq_refl ry A2 y A4).
Qed.

(** ** Values *)

Lemma set_vals_length l idx vals l' : set_vals l idx vals = Ok l' -> length l' = length l.
Proof.
  unfold set_vals. destruct (forallb _ idx) eqn:F; [|discriminate]. intro H. injection H as <-.
  assert (G : forall (ivs : list (nat * xq)) (acc : list xq), length acc = length l -> (forall iv, In iv ivs -> fst iv < length l) ->
    length (fold_left (fun acc iv => firstn (fst iv) acc ++ snd iv :: skipn (S (fst iv)) acc) ivs acc) = length l).
  { induction ivs as [|[i v] ivs IH]; intros acc Ha Hi; [exact Ha|]. cbn [fold_left]. apply IH.
    - cbn [fst snd]. pose proof (Hi (i, v) (or_introl eq_refl)) as Hi0. cbn [fst] in Hi0.
      rewrite app_length. cbn [length]. rewrite firstn_length, skipn_length. lia.
    - intros iv Hv. apply Hi. right; exact Hv. }
  apply G; [reflexivity|]. intros [i v] Hv. apply in_combine_l in Hv. rewrite forallb_forall in F.
  apply Nat.ltb_lt, F, Hv.
Qed.

Lemma distribute_level_length N fl mean perm gam r : distribute_level N fl mean perm gam = Ok r -> length r = N.
Proof.
  unfold distribute_level. intro H. cbv zeta in H. destruct (_ =? 1).
  { apply set_vals_length in H. rewrite repeat_length in H. exact H. }
  destruct (1 <? _); [|injection H as <-; apply repeat_length].
  destruct (find_valid _ _ _ _); [|discriminate H]. cbn [bind] in H.
  destruct (gather _ _); [|discriminate H]. cbn [bind] in H. destruct (set_vals _ _ _) eqn:E1; [|discriminate H]. cbn [bind] in H.
  destruct (gather _ _); [|discriminate H]. cbn [bind] in H. apply set_vals_length in H. apply set_vals_length in E1.
  rewrite repeat_length in E1. congruence.
Qed.

Lemma distribute_col_length N fls means perm gam r : distribute_col N fls means perm gam = Ok r -> forall c, In c r -> length c = N.
Proof.
  unfold distribute_col. intro H. destruct (map2r _ _ _); [|discriminate H]. cbn [bind] in H.
  intros c Hc. destruct (mapM_in _ _ _ _ H Hc) as (x & _ & E). eapply distribute_level_length, E.
Qed.

Lemma spread_n_length n fl v r : spread_n n fl v = Ok r -> length r = n.
Proof.
  unfold spread_n. destruct (Nat.eqb_spec (length fl) n) as [E|E]; [|discriminate]. intro H. injection H as <-.
  unfold spread. rewrite map_length. exact E.
Qed.

Lemma run_columns_in {A} order (f : nat -> res A) r y : run_columns order f = Ok r -> In y r -> exists t, f t = Ok y.
Proof.
  unfold run_columns. intros H Hy. destruct (mapM_in _ _ _ _ H Hy) as (t & _ & E). destruct (t <? 0)%Z; [discriminate E|].
  exists (Z.to_nat t). exact E.
Qed.

Lemma nth_res_in {A} (l : list A) i x : nth_res l i = Ok x -> In x l.
Proof. unfold nth_res. destruct (nth_error l i) eqn:E; [|discriminate]. intro H. injection H as <-. eapply nth_error_In, E. Qed.

Lemma np_stack_id {A} (l r : list A) : np_stack l = Ok r -> r = l.
Proof. destruct l; [discriminate|]. intro H. injection H as <-. reflexivity. Qed.
