(** The loop over hydrometeor classes: totals, order of classes, repetition. *)
From Verif Require Import Mom_Base Mom_Spec Mom_Facts Xr_Facts Lidar_Model Lidar_Spec Lidar_Od.
Local Open Scope R_scope.

(** The variables the loop writes for class [h], and for a list of classes. *)
Definition class_outs (c : bool) (h : string) : list string :=
  [out "alpha_p" h c; out "beta_p" h c; out "OD" h c].
Definition loop_outs (c : bool) (hs : list string) : list string :=
  class_outs c "tot" ++ flat_map (class_outs c) hs.

Lemma in_loop_outs_h c hs h x : In h hs -> In x (class_outs c h) -> In x (loop_outs c hs).
Proof. intros Hh Hx. apply in_or_app. right. apply in_flat_map. eauto. Qed.
Lemma in_loop_outs_t c hs x : In x (class_outs c "tot") -> In x (loop_outs c hs).
Proof. intro Hx. apply in_or_app. left. exact Hx. Qed.
Lemma loop_outs_incl c hs hs' x : incl hs hs' -> In x (loop_outs c hs) -> In x (loop_outs c hs').
Proof.
  intros I H. apply in_app_or in H as [H|H]; [apply in_loop_outs_t; exact H|].
  apply in_flat_map in H as (h & Hh & Hx). apply (in_loop_outs_h c hs' h); auto.
Qed.

Lemma alpha_beta h h' c : out "alpha_p" h c <> out "beta_p" h' c.
Proof. unfold out; simpl; intro H; discriminate H. Qed.
Lemma alpha_od h h' c : out "alpha_p" h c <> out "OD" h' c.
Proof. unfold out; simpl; intro H; discriminate H. Qed.
Lemma beta_od h h' c : out "beta_p" h c <> out "OD" h' c.
Proof. unfold out; simpl; intro H; discriminate H. Qed.
Lemma qn_alpha h h' c c' : qn c h <> out "alpha_p" h' c'.
Proof. destruct c; unfold qn, out; simpl; intro H; discriminate H. Qed.
Lemma qn_beta h h' c c' : qn c h <> out "beta_p" h' c'.
Proof. destruct c; unfold qn, out; simpl; intro H; discriminate H. Qed.
Lemma qn_od h h' c c' : qn c h <> out "OD" h' c'.
Proof. destruct c; unfold qn, out; simpl; intro H; discriminate H. Qed.

Ltac names :=
  first [ assumption | discriminate
        | apply alpha_beta | apply not_eq_sym; apply alpha_beta
        | apply alpha_od | apply not_eq_sym; apply alpha_od
        | apply beta_od | apply not_eq_sym; apply beta_od
        | apply qn_alpha | apply qn_beta | apply qn_od
        | apply out_neq; assumption | apply out_neq; apply not_eq_sym; assumption ].
Ltac look := unfold var3; repeat (rewrite upd_other by names); first [apply upd_same | assumption].

(** *** One class *)
Section Step.
Variables (e : menv) (c : bool) (z : arr2) (sfc : bool).

Definition od_of (a : arr3) : arr3 :=
  of_prof3 (fun i t => od_profile sfc (prof2 e z t) (prof3 e a i t)).

Lemma finish_run h s q a b at0 bt ot :
  h <> "tot"%string ->
  var3 s (qn c h) q -> var3 s (out "alpha_p" h c) a -> var3 s (out "beta_p" h c) b ->
  var3 s (out "alpha_p" "tot" c) at0 -> var3 s (out "beta_p" "tot" c) bt -> var3 s (out "OD" "tot" c) ot ->
  finish_class e c z sfc h s
  = (Ok tt,
     upd (upd (upd (upd s (out "OD" h c) (V3 (od_of a)))
                   (out "beta_p" "tot" c) (V3 (lift2 xadd bt (fill0 b))))
              (out "alpha_p" "tot" c) (V3 (lift2 xadd at0 (fill0 a))))
         (out "OD" "tot" c) (V3 (lift2 xadd ot (fill0 (od_of a))))).
Proof.
  intros Nt Hq Ha Hb Hat Hbt Hot. unfold finish_class.
  rewrite (bind_ok _ _ _ _ _ (accumulate_OD_run e c z h sfc s q a Hq Ha)). fold (od_of a).
  rewrite (bind_rd _ _ _ b) by (apply g3_var; look).
  rewrite (bind_add_to _ _ bt) by look.
  rewrite (bind_rd _ _ _ a) by (apply g3_var; look).
  rewrite (bind_add_to _ _ at0) by look.
  rewrite (bind_rd _ _ _ (od_of a)) by (apply g3_var; look).
  apply add_to_eq. look.
Qed.

(** The state after one class. *)
Definition step_state (s : dset) (h : string) (al be at0 bt ot : arr3) : dset :=
  upd (upd (upd (upd (upd (upd s (out "alpha_p" h c) (V3 (fill0 al)))
                               (out "beta_p" h c) (V3 (fill0 be)))
                          (out "OD" h c) (V3 (od_of (fill0 al))))
                     (out "beta_p" "tot" c) (V3 (lift2 xadd bt (fill0 (fill0 be)))))
                (out "alpha_p" "tot" c) (V3 (lift2 xadd at0 (fill0 (fill0 al)))))
           (out "OD" "tot" c) (V3 (lift2 xadd ot (fill0 (od_of (fill0 al))))).

Lemma step_frame s h al be at0 bt ot x :
  ~ In x (class_outs c "tot" ++ class_outs c h) ->
  assoc (dvars (step_state s h al be at0 bt ot)) x = assoc (dvars s) x.
Proof.
  intro N. unfold step_state.
  rewrite !upd_other; try reflexivity; intros ->; apply N; simpl; tauto.
Qed.

Section L.
Context {loc : Type}.
Variable optics : string -> loc -> dset -> res (loc * (arr3 * arr3)).
Notation loop := (class_loop e c z sfc (fun _ => lret tt) optics).

Lemma loop_cons h hs l s l' al be q at0 bt ot :
  h <> "tot"%string ->
  optics h l s = Ok (l', (al, be)) -> var3 s (qn c h) q ->
  var3 s (out "alpha_p" "tot" c) at0 -> var3 s (out "beta_p" "tot" c) bt -> var3 s (out "OD" "tot" c) ot ->
  loop (h :: hs) l s = loop hs l' (step_state s h al be at0 bt ot).
Proof.
  intros Nt Ho Hq Hat Hbt Hot. cbn [class_loop]. rewrite bind_lret.
  rewrite (bind_rd _ _ _ (l', (al, be))) by exact Ho. rewrite !bind_assign.
  match goal with |- lbind _ _ ?s1 = _ => set (t := s1) end.
  assert (E : finish_class e c z sfc h t = (Ok tt, step_state s h al be at0 bt ot)).
  { unfold t. apply (finish_run h _ q); [exact Nt|look..]. }
  exact (bind_ok _ _ _ tt _ E).
Qed.

(** A successful iteration. *)
Lemma loop_cons_inv h hs l s s' at0 bt ot :
  h <> "tot"%string ->
  var3 s (out "alpha_p" "tot" c) at0 -> var3 s (out "beta_p" "tot" c) bt -> var3 s (out "OD" "tot" c) ot ->
  loop (h :: hs) l s = (Ok tt, s') ->
  exists l' al be q, optics h l s = Ok (l', (al, be)) /\ var3 s (qn c h) q /\
    loop hs l' (step_state s h al be at0 bt ot) = (Ok tt, s').
Proof.
  intros Nt Hat Hbt Hot E. pose proof E as E0. cbn [class_loop] in E. rewrite bind_lret in E.
  apply rd_bind_inv in E as ((l' & al & be) & Ho & E). rewrite !bind_assign in E.
  apply bind_inv in E as (u & s2 & Ef & _). unfold finish_class in Ef.
  apply bind_inv in Ef as (u1 & s3 & Ea & _). unfold accumulate_OD in Ea.
  apply rd_bind_inv in Ea as (q & Eq & _). apply g3_ok in Eq. unfold var3 in Eq.
  rewrite !upd_other in Eq by names.
  exists l', al, be, q. split; [exact Ho|]. split; [exact Eq|].
  rewrite <- E0. symmetry. apply loop_cons with (q := q); assumption.
Qed.

Lemma frame_finish W h : In (out "OD" h c) W -> incl (class_outs c "tot") W -> frame W (finish_class e c z sfc h).
Proof.
  intros H1 H2. unfold finish_class, accumulate_OD.
  repeat first [ apply frame_bind | apply frame_rd | apply frame_add_to | apply frame_assign | intro ];
    try exact H1; apply H2; simpl; tauto.
Qed.
Lemma frame_loop hs l : frame (loop_outs c hs) (loop hs l).
Proof.
  revert l. induction hs as [|h hs IH]; intro l; cbn [class_loop]; [apply frame_ret|].
  apply frame_bind; [apply frame_ret|]. intros _.
  apply frame_bind; [apply frame_rd|]. intros (l' & al & be).
  apply frame_bind; [apply frame_assign; apply (in_loop_outs_h c _ h); simpl; tauto|]. intros _.
  apply frame_bind; [apply frame_assign; apply (in_loop_outs_h c _ h); simpl; tauto|]. intros _.
  apply frame_bind.
  - apply frame_finish; [apply (in_loop_outs_h c _ h); simpl; tauto|].
    intros x Hx. apply in_loop_outs_t; exact Hx.
  - intros _. eapply frame_weaken; [|apply IH]. intro x. apply loop_outs_incl.
    intros y Hy; right; exact Hy.
Qed.

Lemma step_at s h al be at0 bt ot : var3 (step_state s h al be at0 bt ot) (out "alpha_p" "tot" c)
  (lift2 xadd at0 (fill0 (fill0 al))).
Proof. unfold step_state. look. Qed.
Lemma step_bt s h al be at0 bt ot : var3 (step_state s h al be at0 bt ot) (out "beta_p" "tot" c)
  (lift2 xadd bt (fill0 (fill0 be))).
Proof. unfold step_state. look. Qed.
Lemma step_ot s h al be at0 bt ot : var3 (step_state s h al be at0 bt ot) (out "OD" "tot" c)
  (lift2 xadd ot (fill0 (od_of (fill0 al)))).
Proof. unfold step_state. look. Qed.
Lemma step_a s h al be at0 bt ot : h <> "tot"%string ->
  var3 (step_state s h al be at0 bt ot) (out "alpha_p" h c) (fill0 al).
Proof. intro. unfold step_state. look. Qed.
Lemma step_b s h al be at0 bt ot : h <> "tot"%string ->
  var3 (step_state s h al be at0 bt ot) (out "beta_p" h c) (fill0 be).
Proof. intro. unfold step_state. look. Qed.
Lemma step_o s h al be at0 bt ot : h <> "tot"%string ->
  var3 (step_state s h al be at0 bt ot) (out "OD" h c) (od_of (fill0 al)).
Proof. intro. unfold step_state. look. Qed.

(** The variables of a class not in [hs] are not written by the loop. *)
Lemma out_fields_cases f h h' : (f = "alpha_p" \/ f = "beta_p" \/ f = "OD")%string ->
  In (out f h c) (class_outs c h') -> h = h'.
Proof.
  intros Hf H. simpl in H.
  destruct Hf as [->|[->| ->]]; destruct H as [H|[H|[H|[]]]];
    solve [ apply out_inj in H as [-> _]; reflexivity
          | exfalso; revert H; first [apply alpha_beta|apply alpha_od|apply beta_od]
          | exfalso; symmetry in H; revert H; first [apply alpha_beta|apply alpha_od|apply beta_od]].
Qed.
Lemma not_loop_outs f h hs : (f = "alpha_p" \/ f = "beta_p" \/ f = "OD")%string ->
  h <> "tot"%string -> ~ In h hs -> ~ In (out f h c) (loop_outs c hs).
Proof.
  intros Hf Nt Nh H. apply in_app_or in H as [H|H].
  - apply (out_fields_cases f h "tot" Hf) in H. auto.
  - apply in_flat_map in H as (h' & Hh' & Hx). apply (out_fields_cases f h h' Hf) in Hx. subst. auto.
Qed.

(** Totals are the sums of the class fields (any method). *)
Lemma loop_totals hs : forall l s s' at0 bt ot,
  NoDup hs -> ~ In "tot"%string hs ->
  var3 s (out "alpha_p" "tot" c) at0 -> var3 s (out "beta_p" "tot" c) bt -> var3 s (out "OD" "tot" c) ot ->
  loop hs l s = (Ok tt, s') ->
  exists at1 bt1 ot1,
    var3 s' (out "alpha_p" "tot" c) at1 /\ var3 s' (out "beta_p" "tot" c) bt1 /\
    var3 s' (out "OD" "tot" c) ot1 /\
    (forall h, In h hs -> exists a b, var3 s' (out "alpha_p" h c) a /\ var3 s' (out "beta_p" h c) b
                                      /\ var3 s' (out "OD" h c) (od_of a)) /\
    (forall i t k,
      at1 i t k = xadd (at0 i t k) (xsum (map (fun h => fillna 0 (value s' (out "alpha_p" h c) i t k)) hs)) /\
      bt1 i t k = xadd (bt i t k) (xsum (map (fun h => fillna 0 (value s' (out "beta_p" h c) i t k)) hs)) /\
      ot1 i t k = xadd (ot i t k) (xsum (map (fun h => fillna 0 (value s' (out "OD" h c) i t k)) hs))).
Proof.
  induction hs as [|h hs IH]; intros l s s' at0 bt ot ND NT Hat Hbt Hot E.
  - cbn [class_loop] in E. injection E as <-. exists at0, bt, ot.
    do 3 (split; [assumption|]). split; [intros h []|].
    intros i t k. cbn [map]. rewrite xsum_nil, !xadd_0_r. auto.
  - assert (Nt : h <> "tot"%string) by (intros ->; apply NT; left; reflexivity).
    apply loop_cons_inv with (at0 := at0) (bt := bt) (ot := ot) in E as (l' & al & be & q & Ho & Hq & E);
      try assumption.
    inversion ND as [|? ? Nh ND']; subst.
    assert (NT' : ~ In "tot"%string hs) by (intro; apply NT; right; assumption).
    pose proof (frame_run _ _ _ _ _ (frame_loop hs l') E) as U.
    edestruct (IH l' _ s' _ _ _ ND' NT' (step_at s h al be at0 bt ot) (step_bt s h al be at0 bt ot)
                  (step_ot s h al be at0 bt ot) E) as (at1 & bt1 & ot1 & V1 & V2 & V3 & VC & T).
    assert (Ka : var3 s' (out "alpha_p" h c) (fill0 al)).
    { unfold var3. rewrite U by (apply not_loop_outs; auto). apply step_a; exact Nt. }
    assert (Kb : var3 s' (out "beta_p" h c) (fill0 be)).
    { unfold var3. rewrite U by (apply not_loop_outs; auto). apply step_b; exact Nt. }
    assert (Ko : var3 s' (out "OD" h c) (od_of (fill0 al))).
    { unfold var3. rewrite U by (apply not_loop_outs; auto). apply step_o; exact Nt. }
    exists at1, bt1, ot1. do 3 (split; [assumption|]). split.
    + intros h' [<-|Hh']; [exists (fill0 al), (fill0 be); auto|apply VC; exact Hh'].
    + intros i t k. destruct (T i t k) as (T1 & T2 & T3). cbn [map]. rewrite !xsum_cons.
      assert (Va : value s' (out "alpha_p" h c) i t k = fill0 al i t k) by (unfold value; rewrite Ka; reflexivity).
      assert (Vb : value s' (out "beta_p" h c) i t k = fill0 be i t k) by (unfold value; rewrite Kb; reflexivity).
      assert (Vo : value s' (out "OD" h c) i t k = od_of (fill0 al) i t k) by (unfold value; rewrite Ko; reflexivity).
      rewrite T1, T2, T3, Va, Vb, Vo, !xadd_assoc. auto.
Qed.

(** *** Methods whose classes do not influence each other *)
Variable opt : string -> dset -> res (arr3 * arr3).
Variable inp : string -> Prop.      (* variables the method may read *)
Variable ok : string -> Prop.       (* classes it is applied to *)
Hypothesis Hopt : forall h l s, ok h ->
  match optics h l s, opt h s with
  | Ok (_, p), Ok p' => p = p'
  | Raise _, Raise _ => True
  | _, _ => False
  end.
Hypothesis Hdep : forall h s t, ok h -> agree inp s t -> opt h s = opt h t.
Hypothesis Hinp : forall x, inp x -> forall f h, x <> out f h c.

Lemma inp_not_outs x hs : inp x -> ~ In x (loop_outs c hs).
Proof.
  intros Hx H. apply in_app_or in H as [H|H].
  - simpl in H. destruct H as [H|[H|[H|[]]]]; apply (Hinp x Hx _ _ (eq_sym H)).
  - apply in_flat_map in H as (h & _ & H). simpl in H.
    destruct H as [H|[H|[H|[]]]]; apply (Hinp x Hx _ _ (eq_sym H)).
Qed.
Lemma step_agree s h al be at0 bt ot : agree inp s (step_state s h al be at0 bt ot).
Proof.
  intros x Hx. symmetry. apply step_frame. intro H.
  apply (inp_not_outs x [h] Hx). apply in_or_app. apply in_app_or in H as [H|H]; [left; exact H|right].
  cbn [flat_map]. rewrite app_nil_r. exact H.
Qed.

Definition aF (s : dset) (h : string) : arr3 := match opt h s with Ok (a, _) => fill0 a | _ => zeros3 end.
Definition bF (s : dset) (h : string) : arr3 := match opt h s with Ok (_, b) => fill0 b | _ => zeros3 end.

Lemma FF_agree s t h : ok h -> agree inp s t -> aF s h = aF t h /\ bF s h = bF t h.
Proof. intros Ho H. unfold aF, bF. rewrite (Hdep h s t Ho H). auto. Qed.

Lemma loop_char hs : forall l s at0 bt ot,
  (forall h, In h hs -> ok h) -> ~ In "tot"%string hs ->
  var3 s (out "alpha_p" "tot" c) at0 -> var3 s (out "beta_p" "tot" c) bt -> var3 s (out "OD" "tot" c) ot ->
  (forall h, In h hs -> (exists p, opt h s = Ok p) /\ exists q, var3 s (qn c h) q) ->
  exists s' at1 bt1 ot1, loop hs l s = (Ok tt, s') /\
    var3 s' (out "alpha_p" "tot" c) at1 /\ var3 s' (out "beta_p" "tot" c) bt1 /\
    var3 s' (out "OD" "tot" c) ot1 /\
    (forall h, In h hs -> var3 s' (out "alpha_p" h c) (aF s h) /\ var3 s' (out "beta_p" h c) (bF s h)
                          /\ var3 s' (out "OD" h c) (od_of (aF s h))) /\
    (forall i t k,
      at1 i t k = xadd (at0 i t k) (xsum (map (fun h => fillna 0 (aF s h i t k)) hs)) /\
      bt1 i t k = xadd (bt i t k) (xsum (map (fun h => fillna 0 (bF s h i t k)) hs)) /\
      ot1 i t k = xadd (ot i t k) (xsum (map (fun h => fillna 0 (od_of (aF s h) i t k)) hs))).
Proof.
  induction hs as [|h hs IH]; intros l s at0 bt ot Hok NT Hat Hbt Hot Hs.
  - exists s, at0, bt, ot. split; [reflexivity|]. do 3 (split; [assumption|]).
    split; [intros h []|]. intros i t k. cbn [map]. rewrite xsum_nil, !xadd_0_r. auto.
  - assert (Nt : h <> "tot"%string) by (intros ->; apply NT; left; reflexivity).
    assert (NT' : ~ In "tot"%string hs) by (intro; apply NT; right; assumption).
    destruct (Hs h (or_introl eq_refl)) as [[[al be] Hp] [q Hq]].
    pose proof (Hopt h l s (Hok h (or_introl eq_refl))) as Ho. rewrite Hp in Ho.
    destruct (optics h l s) as [[l' p]|] eqn:Eo; [|tauto]. subst p.
    assert (EaF : aF s h = fill0 al) by (unfold aF; rewrite Hp; reflexivity).
    assert (EbF : bF s h = fill0 be) by (unfold bF; rewrite Hp; reflexivity).
    rewrite (loop_cons h hs l s l' al be q at0 bt ot Nt Eo Hq Hat Hbt Hot).
    set (s1 := step_state s h al be at0 bt ot).
    pose proof (step_agree s h al be at0 bt ot : agree inp s s1) as Ag.
    edestruct (IH l' s1 _ _ _ (fun h' H' => Hok h' (or_intror H')) NT'
                 (step_at s h al be at0 bt ot) (step_bt s h al be at0 bt ot)
                 (step_ot s h al be at0 bt ot)) as (s' & at1 & bt1 & ot1 & E & V1 & V2 & V3 & VC & T).
    { intros h' Hh'. destruct (Hs h' (or_intror Hh')) as [[p Hp'] [q' Hq']]. split.
      - exists p. rewrite <- (Hdep h' s s1 (Hok h' (or_intror Hh')) Ag). exact Hp'.
      - exists q'. unfold var3, s1. rewrite step_frame; [exact Hq'|]. simpl.
        intuition; match goal with H : out _ _ _ = qn _ _ |- _ => symmetry in H; revert H end;
          first [apply qn_alpha|apply qn_beta|apply qn_od]. }
    exists s', at1, bt1, ot1. split; [exact E|]. do 3 (split; [assumption|]). split.
    + intros h' Hh'. destruct (in_dec string_dec h' hs) as [Hin|Nin].
      * destruct (FF_agree s s1 h' (Hok h' Hh') Ag) as [-> ->]. apply VC; exact Hin.
      * destruct Hh' as [<-|Hh']; [|contradiction].
        pose proof (frame_run _ _ _ _ _ (frame_loop hs l') E) as U. rewrite EaF, EbF.
        split; [|split]; unfold var3; rewrite U by (apply not_loop_outs; auto).
        -- apply step_a; exact Nt.
        -- apply step_b; exact Nt.
        -- apply step_o; exact Nt.
    + intros i t k. destruct (T i t k) as (T1 & T2 & T3). cbn [map]. rewrite !xsum_cons.
      assert (Em : forall G : dset -> string -> arr3,
                 (forall h', In h' hs -> G s h' = G s1 h') ->
                 map (fun h' => fillna 0 (G s1 h' i t k)) hs = map (fun h' => fillna 0 (G s h' i t k)) hs).
      { intros G HG. apply map_ext_in. intros h' Hh'. rewrite (HG h' Hh'). reflexivity. }
      rewrite T1, T2, T3.
      rewrite (Em aF), (Em bF), (Em (fun s h' => od_of (aF s h'))).
      * rewrite EaF, EbF, !xadd_assoc. auto.
      * intros h' Hh'. f_equal. apply (FF_agree s s1 h' (Hok h' (or_intror Hh')) Ag).
      * intros h' Hh'. apply (FF_agree s s1 h' (Hok h' (or_intror Hh')) Ag).
      * intros h' Hh'. apply (FF_agree s s1 h' (Hok h' (or_intror Hh')) Ag).
Qed.

(** What a successful loop tells about the inputs. *)
Lemma loop_success hs : forall l s s' at0 bt ot,
  (forall h, In h hs -> ok h) -> ~ In "tot"%string hs ->
  var3 s (out "alpha_p" "tot" c) at0 -> var3 s (out "beta_p" "tot" c) bt -> var3 s (out "OD" "tot" c) ot ->
  loop hs l s = (Ok tt, s') ->
  forall h, In h hs -> (exists p, opt h s = Ok p) /\ exists q, var3 s (qn c h) q.
Proof.
  induction hs as [|h hs IH]; intros l s s' at0 bt ot Hok NT Hat Hbt Hot E; [intros h []|].
  assert (Nt : h <> "tot"%string) by (intros ->; apply NT; left; reflexivity).
  assert (NT' : ~ In "tot"%string hs) by (intro; apply NT; right; assumption).
  apply loop_cons_inv with (at0 := at0) (bt := bt) (ot := ot) in E as (l' & al & be & q & Ho & Hq & E);
    try assumption.
  pose proof (step_agree s h al be at0 bt ot) as Ag.
  intros h' [<-|Hh'].
  - split; [|eauto]. pose proof (Hopt h l s (Hok h (or_introl eq_refl))) as Hp. rewrite Ho in Hp.
    destruct (opt h s); [eauto|tauto].
  - edestruct (IH l' _ s' _ _ _ (fun h' H' => Hok h' (or_intror H')) NT'
                 (step_at s h al be at0 bt ot) (step_bt s h al be at0 bt ot)
                 (step_ot s h al be at0 bt ot) E h' Hh') as [[p Hp] [q' Hq']].
    split.
    + exists p. rewrite (Hdep h' _ _ (Hok h' (or_intror Hh')) Ag). exact Hp.
    + exists q'. unfold var3 in Hq'. rewrite step_frame in Hq'; [exact Hq'|]. simpl.
      intuition; match goal with H : out _ _ _ = qn _ _ |- _ => symmetry in H; revert H end;
        first [apply qn_alpha|apply qn_beta|apply qn_od].
Qed.

(** The order in which classes are listed does not matter. *)
Lemma loop_perm hs1 hs2 l1 l2 s s1 at0 bt ot :
  Permutation hs1 hs2 -> (forall h, In h hs1 -> ok h) -> ~ In "tot"%string hs1 ->
  var3 s (out "alpha_p" "tot" c) at0 -> var3 s (out "beta_p" "tot" c) bt -> var3 s (out "OD" "tot" c) ot ->
  loop hs1 l1 s = (Ok tt, s1) ->
  exists s2, loop hs2 l2 s = (Ok tt, s2) /\ same_data s1 s2.
Proof.
  intros P Hok NT Hat Hbt Hot E1.
  pose proof (loop_success hs1 l1 s s1 at0 bt ot Hok NT Hat Hbt Hot E1) as HS.
  assert (P' : forall h, In h hs2 -> In h hs1) by (intros h Hh; eapply Permutation_in; [symmetry; exact P|exact Hh]).
  destruct (loop_char hs1 l1 s at0 bt ot Hok NT Hat Hbt Hot HS)
    as (s1' & at1 & bt1 & ot1 & E1' & V1 & V2 & V3 & VC & T).
  rewrite E1 in E1'. injection E1' as <-.
  destruct (loop_char hs2 l2 s at0 bt ot (fun h H => Hok h (P' h H)) (fun H => NT (P' _ H)) Hat Hbt Hot
              (fun h H => HS h (P' h H)))
    as (s2 & at2 & bt2 & ot2 & E2 & W1 & W2 & W3 & WC & T').
  exists s2. split; [exact E2|]. intro x.
  pose proof (frame_run _ _ _ _ _ (frame_loop hs1 l1) E1) as U1.
  pose proof (frame_run _ _ _ _ _ (frame_loop hs2 l2) E2) as U2.
  assert (PS : forall f : string -> xr, xsum (map f hs1) = xsum (map f hs2)).
  { intro f. apply xsum_perm. apply Permutation_map. exact P. }
  destruct (in_dec string_dec x (loop_outs c hs1)) as [Hx|Nx].
  - apply in_app_or in Hx as [Hx|Hx].
    + simpl in Hx. destruct Hx as [<-|[<-|[<-|[]]]].
      * rewrite V1, W1. intros i t k. rewrite (proj1 (T i t k)), (proj1 (T' i t k)), PS. reflexivity.
      * rewrite V2, W2. intros i t k. rewrite (proj1 (proj2 (T i t k))), (proj1 (proj2 (T' i t k))), PS. reflexivity.
      * rewrite V3, W3. intros i t k. rewrite (proj2 (proj2 (T i t k))), (proj2 (proj2 (T' i t k))), PS. reflexivity.
    + apply in_flat_map in Hx as (h & Hh & Hx).
      destruct (VC h Hh) as (A1 & A2 & A3).
      destruct (WC h (Permutation_in h P Hh)) as (B1 & B2 & B3).
      simpl in Hx. destruct Hx as [<-|[<-|[<-|[]]]].
      * rewrite A1, B1. apply same_value_refl.
      * rewrite A2, B2. apply same_value_refl.
      * rewrite A3, B3. apply same_value_refl.
  - rewrite (U1 x Nx). rewrite (U2 x).
    + apply same_value_refl.
    + intro H. apply Nx. revert H. apply loop_outs_incl. intros h Hh. apply P'; exact Hh.
Qed.
End L.
End Step.
