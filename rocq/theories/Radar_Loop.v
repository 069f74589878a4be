(** The class loop of the empirical and bulk radar methods. *)
From Verif Require Import Mom_Base Mom_Spec Mom_Facts Xr_Facts Lidar_Model Lidar_Spec Lidar_Api Lidar_Perm
  Radar_Model Radar_Spec.
Local Open Scope R_scope.

Definition ze_outs (c : bool) (hs : list string) : list string :=
  out "Ze" "tot" c :: map (fun h => out "Ze" h c) hs.

Section ZeLoop.
Context {loc : Type}.
Variable c : bool.
Variable optics : string -> loc -> dset -> res (loc * arr3).

Lemma frame_ze_loop hs l : frame (ze_outs c hs) (ze_loop c optics hs l).
Proof.
  revert l. induction hs as [|h hs IH]; intro l; cbn [ze_loop]; [apply frame_ret|].
  apply frame_bind; [apply frame_rd|]. intros [l' ze].
  apply frame_bind; [apply frame_assign; right; left; reflexivity|]. intros _.
  apply frame_bind; [apply frame_add_to; left; reflexivity|]. intros _.
  apply (frame_weaken (ze_outs c hs)); [|apply IH]. unfold ze_outs. simpl. tauto.
Qed.

Lemma dep_ze_loop e hs : forall (D : string -> Prop) l,
  (forall h l s s', agree (inp e c) s s' -> optics h l s = optics h l s') ->
  (forall x, inp e c x -> D x) -> D (out "Ze" "tot" c) ->
  dep D (ze_loop c optics hs l) (fun x => D x \/ In x (ze_outs c hs)).
Proof.
  induction hs as [|h hs IH]; intros D l Ho Hi Ht; cbn [ze_loop].
  - eapply dep_weaken; [intros x Hx; exact Hx| |apply dep_ret]. unfold ze_outs. simpl.
    intros x [Hx|[<-|[]]]; assumption.
  - apply dep_bind with D.
    { apply dep_rd. intros s t A. apply Ho. intros x Hx. apply A. auto. }
    intros (l' & ze).
    apply dep_bind with (plus D (out "Ze" h c)); [apply dep_assign|]. intros _.
    apply dep_bind with (plus D (out "Ze" h c)); [apply dep_add_to; left; exact Ht|]. intros _.
    eapply dep_weaken; [intros x Hx; exact Hx| |apply IH].
    + unfold ze_outs, plus. simpl. intros x [Hx|[<-|[<-|Hx]]]; tauto.
    + exact Ho.
    + intros x Hx. left; auto.
    + left; exact Ht.
Qed.

(** The contribution of a class does not depend on the local variables left
    by the others; [x] is what it adds to the part of them that matters. *)
Variables X Y : Type.
Variable con : string -> dset -> res (X * arr3).
Variable proj : loc -> Y.
Variable step : Y -> X -> Y.
Variable inputs good : string -> Prop.
Hypothesis Hcon : forall h l s, good h ->
  match con h s with
  | Ok (x, z) => exists l', optics h l s = Ok (l', z) /\ proj l' = step (proj l) x
  | Raise _ => exists e', optics h l s = Raise e'
  end.
Hypothesis Hdep : forall h s s', good h -> agree inputs s s' -> con h s = con h s'.
Hypothesis Hinp : forall x, inputs x -> forall h, x <> out "Ze" h c.

Lemma ze_loop_run hs : forall l s t0 F,
  (forall h, In h hs -> good h) -> ~ In "tot"%string hs -> var3 s (out "Ze" "tot" c) t0 ->
  (forall h, In h hs -> con h s = Ok (F h)) ->
  exists l' s' t1, ze_loop c optics hs l s = (Ok l', s')
    /\ unchanged_except (ze_outs c hs) s s'
    /\ proj l' = fold_left step (map (fun h => fst (F h)) hs) (proj l)
    /\ var3 s' (out "Ze" "tot" c) t1
    /\ (forall i t k, t1 i t k = xadd (t0 i t k) (xsum (map (fun h => fillna 0 (snd (F h) i t k)) hs)))
    /\ (forall h, In h hs -> var3 s' (out "Ze" h c) (snd (F h))).
Proof.
  induction hs as [|h hs IH]; intros l s t0 F G NT Ht HF; cbn [ze_loop].
  - exists l, s, t0. split; [reflexivity|]. split; [intros x _; reflexivity|]. split; [reflexivity|].
    split; [exact Ht|]. split; [|intros h []]. intros. simpl. rewrite xadd_0_r. reflexivity.
  - assert (Gh : good h) by (apply G; left; reflexivity).
    pose proof (Hcon h l s Gh) as C. rewrite (HF h (or_introl eq_refl)) in C.
    destruct (F h) as [x z] eqn:Fh. destruct C as (l1 & E & P).
    rewrite (bind_rd _ _ _ (l1, z)) by exact E. rewrite bind_assign.
    set (s1 := upd s (out "Ze" h c) (V3 z)).
    assert (Nt : out "Ze" "tot" c <> out "Ze" h c) by (apply out_neq; intros <-; apply NT; left; reflexivity).
    rewrite (bind_add_to _ _ t0) by (unfold s1, var3; rewrite upd_other by exact Nt; exact Ht).
    set (s2 := upd s1 _ _).
    assert (A : forall y, (forall h', y <> out "Ze" h' c) -> assoc (dvars s2) y = assoc (dvars s) y).
    { intros y Hy. unfold s2, s1. rewrite !upd_other; auto. }
    destruct (IH l1 s2 (lift2 xadd t0 (fill0 z)) F) as (l' & s' & t1 & E' & U & P' & V & T & VC).
    + intros; apply G; right; assumption.
    + intro H; apply NT; right; exact H.
    + unfold s2, var3. apply upd_same.
    + intros h' H'. rewrite <- (HF h') by (right; exact H'). apply Hdep; [apply G; right; exact H'|].
      intros y Hy. apply A. apply Hinp. exact Hy.
    + exists l', s', t1. split; [exact E'|]. split; [|split; [|split; [exact V|split]]].
      * intros y Hy. rewrite U.
        -- unfold s2, s1. rewrite !upd_other; [reflexivity| |]; intros ->; apply Hy; simpl; auto.
        -- intro H. apply Hy. unfold ze_outs in *. simpl in *. tauto.
      * rewrite P', P. cbn [map fold_left]. rewrite Fh. reflexivity.
      * intros i t k. rewrite T. cbn [map]. rewrite Fh, xsum_cons, xadd_assoc. reflexivity.
      * intros h' [<-|H']; [|apply VC; exact H'].
        destruct (in_dec string_dec h hs) as [I|I]; [apply VC; exact I|].
        unfold var3. rewrite U.
        -- unfold s2. rewrite upd_other by (intro Q; apply Nt; auto). unfold s1. rewrite upd_same, Fh. reflexivity.
        -- unfold ze_outs. simpl. intros [Q|Q]; [apply Nt; exact Q|].
           apply in_map_iff in Q as (h' & Q & I'). apply out_inj in Q as [-> _]. exact (I I').
Qed.

Lemma ze_loop_inv hs : forall l s t0 l' s',
  (forall h, In h hs -> good h) -> ~ In "tot"%string hs -> var3 s (out "Ze" "tot" c) t0 ->
  ze_loop c optics hs l s = (Ok l', s') -> forall h, In h hs -> exists p, con h s = Ok p.
Proof.
  induction hs as [|h hs IH]; intros l s t0 l' s' G NT Ht E h' Hh; [destruct Hh|].
  cbn [ze_loop] in E. apply rd_bind_inv in E as ([l1 z] & Eo & E).
  assert (Gh : good h) by (apply G; left; reflexivity).
  destruct Hh as [<-|Hh].
  - pose proof (Hcon h l s Gh) as C. destruct (con h s) as [p|]; [eauto|].
    destruct C as (e' & C). congruence.
  - rewrite bind_assign in E. set (s1 := upd s (out "Ze" h c) (V3 z)) in *.
    assert (Nt : out "Ze" "tot" c <> out "Ze" h c) by (apply out_neq; intros <-; apply NT; left; reflexivity).
    rewrite (bind_add_to _ _ t0) in E by (unfold s1, var3; rewrite upd_other by exact Nt; exact Ht).
    destruct (IH l1 _ (lift2 xadd t0 (fill0 z)) l' s' (fun h I => G h (or_intror I))
                (fun I => NT (or_intror I)) (upd_same _ _ _) E h' Hh) as (p & Ep).
    exists p. rewrite <- Ep. apply Hdep; [apply G; right; exact Hh|].
    intros y Hy. unfold s1. rewrite !upd_other; auto.
Qed.

(** A function giving every class its contribution. *)
Definition con_of (s : dset) (d : X * arr3) (h : string) : X * arr3 :=
  match con h s with Ok p => p | Raise _ => d end.
Lemma con_of_ok s d h p : con h s = Ok p -> con h s = Ok (con_of s d h).
Proof. intro E. unfold con_of. rewrite E. reflexivity. Qed.
End ZeLoop.

(** *** The two methods *)
Definition emp_con ins c p t h s : res (arr3 * arr3) :=
  do (w, z) <- empirical_class ins c p t h None s;
  match w with Some x => Ok (x, z) | None => Raise UnboundLocalError end.
Definition emp_step (y : option arr3) (x : arr3) : option arr3 := Some x.

Lemma emp_hcon ins c p t h l s :
  match emp_con ins c p t h s with
  | Ok (x, z) => exists l', empirical_class ins c p t h l s = Ok (l', z) /\ l' = emp_step l x
  | Raise _ => exists e', empirical_class ins c p t h l s = Raise e'
  end.
Proof.
  unfold emp_con, empirical_class. destruct (g3 s (qn c h)) as [q|]; cbn [bind]; [|eauto].
  eexists. split; reflexivity.
Qed.
Lemma emp_class_dep e ins c p t h l s s' :
  agree (inp e c) s s' -> empirical_class ins c p t h l s = empirical_class ins c p t h l s'.
Proof. intro A. unfold empirical_class. rewrite (agree_g3 _ _ _ _ A (inp_q e c h)). reflexivity. Qed.

Definition bulk_con e ins c mie p z h s : res (arr3 * arr3) :=
  do (l1, (ar, re, fl)) <- bulk_area e ins c mie p z h no_locals s;
  do (l2, (qe, qb)) <- bulk_eff e ins "p3_liq" mie h re fl l1 s;
  do _ <- g3 s (qn c (dims_of e h));
  Ok (lift2 xmul qe ar, lift2 xmul (map3 (ze_scale ins) qb) ar).
Lemma bulk_hcon e ins c mie p z h l s : self_contained e h ->
  match bulk_con e ins c mie p z h s with
  | Ok (x, ze) => exists l', bulk_class e ins c mie p z h l s = Ok (l', ze) /\ snd l' = lift2 xadd (snd l) x
  | Raise _ => exists e', bulk_class e ins c mie p z h l s = Raise e'
  end.
Proof.
  intro Sc. unfold bulk_con, bulk_class.
  pose proof (bulk_area_locals e ins c mie p z h (fst l) no_locals s) as HA.
  destruct (bulk_area e ins c mie p z h (fst l) s) as [[l1 P]|];
    destruct (bulk_area e ins c mie p z h no_locals s) as [[l1' P']|]; try tauto; cbn [bind]; [|eauto].
  destruct HA as (-> & _ & _ & HL). destruct P' as [[ar re] fl].
  pose proof (bulk_eff_locals e ins "p3_liq" mie h re fl l1 l1' s Sc
                (fun Hc Hd => HL Hd (clpl_last h Hc))) as HE.
  destruct (bulk_eff e ins "p3_liq" mie h re fl l1 s) as [[l2 [qe qb]]|];
    destruct (bulk_eff e ins "p3_liq" mie h re fl l1' s) as [[l2' [qe' qb']]|]; try tauto; cbn [bind]; [|eauto].
  injection HE as -> ->. destruct (g3 s (qn c (dims_of e h))); cbn [bind]; [|eauto].
  eexists. split; reflexivity.
Qed.
Lemma bulk_class_dep e ins c mie p z h l s s' :
  agree (inp e c) s s' -> bulk_class e ins c mie p z h l s = bulk_class e ins c mie p z h l s'.
Proof.
  intro A. unfold bulk_class. rewrite (bulk_area_dep e ins c mie p z h _ s s' A).
  apply bind_ext. intros [l1 [[ar re] fl]] _. rewrite (bulk_eff_dep e ins c _ mie h re fl l1 s s' A).
  apply bind_ext. intros [l2 [qe qb]] _.
  rewrite (agree_g3 _ _ _ _ A (inp_q e c (dims_of e h))). reflexivity.
Qed.
Lemma bulk_con_dep e ins c mie p z h s s' :
  agree (inp e c) s s' -> bulk_con e ins c mie p z h s = bulk_con e ins c mie p z h s'.
Proof.
  intro A. unfold bulk_con. rewrite (bulk_area_dep e ins c mie p z h _ s s' A).
  apply bind_ext. intros [l1 [[ar re] fl]] _. rewrite (bulk_eff_dep e ins c _ mie h re fl l1 s s' A).
  apply bind_ext. intros [l2 [qe qb]] _.
  rewrite (agree_g3 _ _ _ _ A (inp_q e c (dims_of e h))). reflexivity.
Qed.
Lemma emp_con_dep e ins c p t h s s' :
  agree (inp e c) s s' -> emp_con ins c p t h s = emp_con ins c p t h s'.
Proof. intro A. unfold emp_con. rewrite (emp_class_dep e ins c p t h None s s' A). reflexivity. Qed.
Lemma fold_emp_step xs x y : fold_left emp_step (xs ++ [x]) y = Some x.
Proof. rewrite fold_left_app. reflexivity. Qed.
Lemma fold_lift2 (xs : list arr3) : forall y i t k,
  fold_left (lift2 xadd) xs y i t k = xadd (y i t k) (xsum (map (fun x => x i t k) xs)).
Proof.
  induction xs as [|x xs IH]; intros y i t k; cbn [fold_left map].
  - rewrite xsum_nil, xadd_0_r. reflexivity.
  - rewrite IH, xsum_cons, xadd_assoc. reflexivity.
Qed.
