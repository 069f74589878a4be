(** Proofs about the precipitation allocator (model in [Precip_Model]). *)
From Verif Require Import Np_Facts Strat_Model Strat_Spec Strat_Proofs Strat_Level Precip_Model Precip_Spec.
From Coq Require Import ZifyBool ZifyNat.
Local Open Scope Z_scope.

Lemma mapM_ok {A B} (f : A -> res B) (R : A -> B -> Prop) l :
  (forall x, In x l -> exists y, f x = Ok y /\ R x y) ->
  exists l', mapM f l = Ok l' /\ Forall2 R l l'.
Proof.
  induction l as [|x l IH]; intro H; simpl.
  - eexists; split; [reflexivity|constructor].
  - destruct (H x) as (y & Ey & Ry); [left; reflexivity|].
    destruct IH as (l' & El & Rl); [intros z Hz; apply H; right; exact Hz|].
    rewrite Ey, El; simpl. eexists; split; [reflexivity|]. constructor; assumption.
Qed.

Lemma max_list_ge l x : In x l -> x <= max_list l.
Proof.
  induction l as [|y l IH]; [intros []|]. intros H.
  destruct l as [|z l]; [destruct H as [->|[]]; simpl; lia|].
  change (max_list (y :: z :: l)) with (Z.max y (max_list (z :: l))).
  destruct H as [->|H]; [lia|]. specialize (IH H). lia.
Qed.

Lemma max_list_in l : l <> [] -> In (max_list l) l.
Proof.
  induction l as [|y l IH]; [contradiction|]. intros _.
  destruct l as [|z l]; [left; reflexivity|].
  change (max_list (y :: z :: l)) with (Z.max y (max_list (z :: l))).
  destruct (Z.max_spec y (max_list (z :: l))) as [[_ ->]|[_ ->]]; [right; apply IH; discriminate|left; reflexivity].
Qed.

Lemma nth_any_class N fls i :
  nth i (any_class N fls) false = true <-> (i < N)%nat /\ exists fl, In fl fls /\ nth i fl false = true.
Proof.
  unfold any_class. rewrite nth_map_seq, andb_true_iff, Nat.ltb_lt, existsb_exists. tauto.
Qed.

Lemma length_any_class N fls : length (any_class N fls) = N.
Proof. unfold any_class; rewrite map_length, seq_length; reflexivity. Qed.

(** One class after the locations [D] have been offered, in that order. *)
Definition cls_inv (N : nat) (D : list nat) (p : pcls) : Prop :=
  0 <= p_req p /\ length (p_fl p) = N /\ reps (p_fl p) (firstn (Z.to_nat (p_req p)) D).

Definition rem_fresh (D : list nat) (p : pcls) : Prop :=
  p_rem p = Z.max 0 (p_req p - Z.of_nat (length D)).

Definition inv (N : nat) (cs : list Z) (D : list nat) (st : Z * list pcls) : Prop :=
  NoDup D /\ (forall i, In i D -> (i < N)%nat) /\
  map p_req (snd st) = cs /\
  fst st = Z.max 0 (max_list cs - Z.of_nat (length D)) /\
  (forall p, In p (snd st) -> cls_inv N D p).

Lemma Forall2_in_r {A B} (R : A -> B -> Prop) l l' y :
  Forall2 R l l' -> In y l' -> exists x, In x l /\ R x y.
Proof.
  induction 1 as [|a b l l' Hab Hl IH]; [intros []|]. intros [<-|H]; [exists a; split; [left|]; auto|].
  destruct (IH H) as (x & Hx & HR). exists x; split; [right|]; auto.
Qed.

Lemma Forall2_map_eq {A B C} (R : A -> B -> Prop) (f : A -> C) (g : B -> C) l l' :
  Forall2 R l l' -> (forall x y, R x y -> g y = f x) -> map g l' = map f l.
Proof. induction 1 as [|a b l l' Hab Hl IH]; intro H; simpl; [reflexivity|]. rewrite (H _ _ Hab), IH; auto. Qed.

Lemma round_ok N cs D st locs (perm : nat -> list nat) :
  inv N cs D st -> (forall p, In p (snd st) -> rem_fresh D p) ->
  NoDup locs -> (forall i, In i locs -> (i < N)%nat /\ ~ In i D) ->
  (forall n, is_perm (perm n) n) ->
  exists st' full, precip_round locs perm st = Ok st' /\ Permutation full locs /\
    inv N cs (D ++ full) st' /\
    (0 < fst st' -> forall p, In p (snd st') -> rem_fresh (D ++ full) p).
Proof.
  intros (HD & HDr & Hreq & Hpf & Hcls) Hrem Hn Hl Hperm.
  destruct st as [pf cls]; simpl in *.
  destruct (gather_perm locs (perm (length locs)) (Hperm _)) as (full & Hfp & Hg).
  assert (Hfn : NoDup full) by (eapply Permutation_NoDup; [symmetry; exact Hfp|exact Hn]).
  assert (Hfl : length full = length locs) by (apply Permutation_length; exact Hfp).
  assert (Hfi : forall i, In i full <-> In i locs)
    by (intro i; split; apply Permutation_in; [exact Hfp|symmetry; exact Hfp]).
  assert (HDf : NoDup (D ++ full)).
  { apply NoDup_app_intro; auto. intros x Hx Hf. apply Hfi in Hf. apply Hl in Hf. tauto. }
  assert (HDfr : forall i, In i (D ++ full) -> (i < N)%nat).
  { intros i Hi; apply in_app_iff in Hi; destruct Hi as [Hi|Hi]; [apply HDr, Hi|apply Hl, Hfi, Hi]. }
  assert (Hle : forall p, In p cls -> p_req p <= max_list cs).
  { intros p Hp. apply max_list_ge. rewrite <- Hreq. apply in_map, Hp. }
  assert (Hset : forall p k, In p cls -> 0 <= k -> k = p_rem p \/ (k >= p_rem p /\ p_rem p >= Z.of_nat (length full)) ->
     exists fl, set_true (p_fl p) (firstn (Z.to_nat k) full) = Ok fl /\
        length fl = N /\ reps fl (firstn (Z.to_nat (p_req p)) (D ++ full))).
  { intros p k Hp Hk Hkr. destruct (Hcls p Hp) as (H0 & Hlen & Hrp).
    destruct (set_true_reps (p_fl p) (firstn (Z.to_nat (p_req p)) D) (firstn (Z.to_nat k) full))
      as (fl & E & Hlf & Hrf); auto.
    - apply NoDup_firstn, Hfn.
    - intros i Hi; apply In_firstn in Hi. rewrite Hlen. apply Hl, Hfi, Hi.
    - intros i Hi Hx; apply In_firstn in Hi; apply In_firstn in Hx. apply Hfi in Hi. apply Hl in Hi. tauto.
    - exists fl; split; [exact E|]; split; [congruence|]. rewrite firstn_app.
      pose proof (Hrem p Hp) as Hr. unfold rem_fresh in Hr.
      replace (firstn (Z.to_nat (p_req p) - length D) full) with (firstn (Z.to_nat k) full); [exact Hrf|].
      destruct Hkr as [->|[Hk1 Hk2]].
      + f_equal. lia.
      + rewrite !firstn_all2 by lia. reflexivity. }
  unfold precip_round. rewrite Z.gtb_ltb.
  destruct (Z.ltb_spec pf (Z.of_nat (length locs))) as [Hm|Hm].
  - (* more locations than needed *)
    rewrite pyslice_nonneg by lia.
    destruct (mapM_ok (place_more locs (firstn (Z.to_nat pf) (perm (length locs))))
        (fun p p' => p_req p' = p_req p /\ cls_inv N (D ++ full) p') cls) as (cls' & E & HF).
    { intros p Hp. unfold place_more. rewrite Z.gtb_ltb.
      destruct (Hcls p Hp) as (H0 & Hlen & Hrp).
      destruct (Z.ltb_spec 0 (p_req p)) as [He|He].
      - pose proof (Hrem p Hp) as Hr; unfold rem_fresh in Hr. pose proof (Hle p Hp) as Hlp.
        rewrite pyslice_firstn by lia.
        assert (Hmin : Nat.min (Z.to_nat (p_rem p)) (Z.to_nat pf) = Z.to_nat (p_rem p)) by lia.
        rewrite Hmin, Hg; cbn [bind].
        destruct (Hset p (p_rem p) Hp) as (fl & Ef & Hlf & Hrf); [lia|left; reflexivity|].
        rewrite Ef; cbn [bind]. eexists; split; [reflexivity|]. simpl. split; [reflexivity|].
        split; [simpl; lia|]. split; assumption.
      - exists p; split; [reflexivity|]. split; [reflexivity|]. split; [lia|]. split; [exact Hlen|].
        replace (Z.to_nat (p_req p)) with 0%nat in * by lia. exact Hrp. }
    rewrite E; cbn [bind]. exists (0, cls'), full. split; [reflexivity|]. split; [exact Hfp|].
    split; [|simpl; lia].
    split; [exact HDf|]. split; [exact HDfr|]. simpl. split.
    { rewrite <- Hreq. eapply Forall2_map_eq; [exact HF|]. intros x y [H _]; exact H. }
    split; [rewrite app_length; lia|].
    intros p Hp. destruct (Forall2_in_r _ _ _ _ HF Hp) as (x & _ & _ & H). exact H.
  - (* all locations used *)
    destruct (mapM_ok (place_less locs (perm (length locs)))
        (fun p p' => p_req p' = p_req p /\ cls_inv N (D ++ full) p' /\ rem_fresh (D ++ full) p') cls)
      as (cls' & E & HF).
    { intros p Hp. unfold place_less. rewrite !Z.gtb_ltb.
      destruct (Hcls p Hp) as (H0 & Hlen & Hrp).
      pose proof (Hrem p Hp) as Hr; unfold rem_fresh in Hr.
      destruct (Z.ltb_spec 0 (p_req p)) as [He|He].
      - destruct (Z.ltb_spec (p_rem p) (Z.of_nat (length locs))) as [Hnr|Hnr].
        + rewrite pyslice_nonneg by lia. rewrite Hg; cbn [bind].
          destruct (Hset p (p_rem p) Hp) as (fl & Ef & Hlf & Hrf); [lia|left; reflexivity|].
          rewrite Ef; cbn [bind]. eexists; split; [reflexivity|]. simpl. split; [reflexivity|].
          split; [split; [simpl; lia|]; split; assumption|].
          unfold rem_fresh; simpl. rewrite app_length. lia.
        + destruct (Hset p (p_rem p) Hp) as (fl & Ef & Hlf & Hrf); [lia|left; reflexivity|].
          rewrite firstn_all2 in Ef by lia.
          destruct (set_true_ok (p_fl p) locs) as (fl2 & Ef2 & Hlf2 & Hfl2).
          { intros i Hi; rewrite Hlen; apply Hl, Hi. }
          destruct (set_true_ok (p_fl p) full) as (fl3 & Ef3 & Hlf3 & Hfl3).
          { intros i Hi; rewrite Hlen; apply Hl, Hfi, Hi. }
          assert (Efl : fl3 = fl) by congruence. subst fl3.
          rewrite Ef2; cbn [bind]. eexists; split; [reflexivity|]. simpl. split; [reflexivity|].
          split; [split; [simpl; lia|]; split; [simpl; congruence|]|].
          * simpl. destruct Hrf as [Hnd Hi]. split; [exact Hnd|]. intro i. rewrite Hfl2, <- Hfi, <- Hfl3. apply Hi.
          * unfold rem_fresh; simpl. rewrite app_length. lia.
      - exists p; split; [reflexivity|]. split; [reflexivity|]. split.
        + split; [lia|]. split; [exact Hlen|].
          replace (Z.to_nat (p_req p)) with 0%nat in * by lia. exact Hrp.
        + unfold rem_fresh in *. rewrite app_length. lia. }
    rewrite E; cbn [bind]. exists (pf - Z.of_nat (length locs), cls'), full.
    split; [reflexivity|]. split; [exact Hfp|].
    split; [|intros _ p Hp; destruct (Forall2_in_r _ _ _ _ HF Hp) as (x & _ & _ & _ & H); exact H].
    split; [exact HDf|]. split; [exact HDfr|]. simpl. split.
    { rewrite <- Hreq. eapply Forall2_map_eq; [exact HF|]. intros x y [H _]; exact H. }
    split; [rewrite app_length; lia|].
    intros p Hp. destruct (Forall2_in_r _ _ _ _ HF Hp) as (x & _ & _ & H & _). exact H.
Qed.

(** Extending [D] once every class is placed changes nothing. *)
Lemma inv_extend N cs D st full :
  inv N cs D st -> fst st = 0 -> NoDup full -> (forall i, In i full -> (i < N)%nat /\ ~ In i D) ->
  inv N cs (D ++ full) st.
Proof.
  intros (HD & HDr & Hreq & Hpf & Hcls) H0 Hn Hl.
  split. { apply NoDup_app_intro; auto. intros x Hx Hf; apply Hl in Hf; tauto. }
  split. { intros i Hi; apply in_app_iff in Hi; destruct Hi as [Hi|Hi]; [apply HDr, Hi|apply Hl, Hi]. }
  split; [exact Hreq|]. split; [rewrite app_length; lia|].
  intros p Hp. destruct (Hcls p Hp) as (H1 & H2 & H3). split; [exact H1|]. split; [exact H2|].
  rewrite firstn_app.
  assert (p_req p <= max_list cs) by (apply max_list_ge; rewrite <- Hreq; apply in_map, Hp).
  replace (Z.to_nat (p_req p) - length D)%nat with 0%nat by lia. rewrite firstn_O, app_nil_r. exact H3.
Qed.

Lemma free_ok N cs D st cond (perm : nat -> list nat) :
  inv N cs D st -> (0 < fst st -> forall p, In p (snd st) -> rem_fresh D p) ->
  length cond = N -> (forall n, is_perm (perm n) n) ->
  exists st' full, precip_free N cond perm st = Ok st' /\
    (forall i, In i full <-> (nth i cond false = true /\ ~ In i D)) /\
    inv N cs (D ++ full) st' /\
    (0 < fst st' -> forall p, In p (snd st') -> rem_fresh (D ++ full) p).
Proof.
  intros Hinv Hrem Hc Hperm.
  pose proof Hinv as (HD & HDr & Hreq & Hpf & Hcls).
  unfold precip_free. rewrite Z.gtb_ltb. destruct (Z.ltb_spec 0 (fst st)) as [Hp|Hp].
  - (* every entry of D is used by the class with the largest request *)
    assert (Hany : forall i, nth i (any_class N (map p_fl (snd st))) false = true <-> In i D).
    { intro i. rewrite nth_any_class. split.
      - intros (_ & fl & Hfl & Hi). apply in_map_iff in Hfl. destruct Hfl as (p & <- & Hpin).
        destruct (Hcls p Hpin) as (_ & _ & _ & H). apply H in Hi. eapply In_firstn; exact Hi.
      - intro Hi. split; [apply HDr, Hi|].
        assert (Hne : cs <> []) by (intros ->; simpl in Hpf; lia).
        pose proof (max_list_in cs Hne) as Hmx. rewrite <- Hreq in Hmx at 2.
        apply in_map_iff in Hmx. destruct Hmx as (p & Ep & Hpin).
        exists (p_fl p). split; [apply in_map, Hpin|].
        destruct (Hcls p Hpin) as (_ & _ & _ & H). apply H. rewrite firstn_all2; [exact Hi|lia]. }
    destruct (zipb_ok andb (np_not (any_class N (map p_fl (snd st)))) cond) as (free & E & Hlf & Hf).
    { rewrite length_np_not, length_any_class. congruence. }
    rewrite E; cbn [bind].
    assert (Hloc : forall i, In i (argwhere free) <-> (nth i cond false = true /\ ~ In i D)).
    { intro i. rewrite in_argwhere. rewrite <- Hany.
      rewrite length_np_not, length_any_class in Hlf, Hf.
      destruct (le_lt_dec N i) as [Hi|Hi].
      - rewrite (nth_overflow free), (nth_overflow cond) by lia. split; [discriminate|intros [? _]; discriminate].
      - rewrite Hf, nth_np_not, andb_true_iff, negb_true_iff, not_true_iff_false by (rewrite ?length_any_class; exact Hi). tauto. }
    assert (Hl2 : forall i, In i (argwhere free) -> (i < N)%nat /\ ~ In i D).
    { intros i Hi. apply Hloc in Hi. split; [|tauto]. destruct Hi as [Hi _]. apply nth_true_lt in Hi. lia. }
    cbv zeta. rewrite Z.gtb_ltb. destruct (Z.ltb_spec 0 (Z.of_nat (length (argwhere free)))) as [Hn|Hn].
    + destruct (round_ok N cs D st (argwhere free) perm Hinv (Hrem Hp) (NoDup_argwhere _) Hl2 Hperm)
        as (st' & full & Es & Hfp & Hi' & Hr').
      exists st', full. split; [exact Es|]. split; [|split; assumption].
      intro i. rewrite <- Hloc. split; apply Permutation_in; [exact Hfp|symmetry; exact Hfp].
    + exists st, []. split; [reflexivity|]. rewrite app_nil_r. split; [|split; assumption].
      intro i. rewrite <- Hloc. destruct (argwhere free); [tauto|simpl in Hn; lia].
  - assert (H0 : fst st = 0) by lia.
    set (full := filter (fun i => nth i cond false && negb (mem i D)) (seq 0 N)).
    assert (Hfull : forall i, In i full <-> (nth i cond false = true /\ ~ In i D)).
    { intro i. unfold full. rewrite filter_In, in_seq, andb_true_iff, negb_true_iff, <- not_true_iff_false, mem_In.
      split; [tauto|]. intros [H1 H2]. split; [|tauto]. apply nth_true_lt in H1. lia. }
    exists st, full. split; [reflexivity|]. split; [exact Hfull|]. split; [|lia].
    apply inv_extend; auto; [apply NoDup_filter, seq_NoDup|].
    intros i Hi. apply Hfull in Hi. split; [|tauto]. destruct Hi as [Hi _]. apply nth_true_lt in Hi. lia.
Qed.

(** ** One level *)

(** The level is filled in the order [D1] (below precipitation), [D2]
    (cloudy), [D3] (clear), the same for every class. *)
Lemma precip_level_order N cs cloudy ovl above perm :
  (forall c, In c cs -> 0 <= c <= Z.of_nat N) ->
  length cloudy = N -> (forall s, In s above -> length s = N) ->
  (forall site n, is_perm (perm site n) n) ->
  (ovl = false -> (forall c, In c cs -> c = 0) \/ (forall i, ~ some_precip above i)) ->
  exists s D1 D2 D3, precip_level N cs cloudy ovl above perm
       = Ok (s, forallb (fun c => c =? Z.of_nat N) cs) /\
    NoDup (D1 ++ D2 ++ D3) /\
    (forall i, In i D1 <-> some_precip above i) /\
    (forall i, In i (D1 ++ D2) <-> (some_precip above i \/ flagged cloudy i)) /\
    (forall i, In i (D1 ++ D2 ++ D3) <-> (i < N)%nat) /\
    length s = length cs /\
    (forall k, (k < length cs)%nat -> length (nth k s []) = N /\
       reps (nth k s []) (firstn (Z.to_nat (nth k cs 0)) (D1 ++ D2 ++ D3))).
Proof.
  intros Hcs Hcl Hab Hperm Hov. unfold precip_level.
  set (O := argwhere (any_class N above)).
  assert (HO : forall i, In i O <-> some_precip above i).
  { intro i. unfold O. rewrite in_argwhere, nth_any_class. unfold some_precip, flagged. split; [tauto|].
    intro H; split; [|exact H]. destruct H as (s & Hs & Hi). apply nth_true_lt in Hi. rewrite (Hab s Hs) in Hi; exact Hi. }
  assert (HOr : forall i, In i O -> (i < N)%nat).
  { intros i Hi. unfold O in Hi. rewrite in_argwhere, nth_any_class in Hi. tauto. }
  pose proof (NoDup_argwhere (any_class N above)) as HOn. fold O in HOn.
  destruct (forallb (fun c => c =? Z.of_nat N) cs) eqn:Efull.
  { (* every class fully overcast *)
    set (C := filter (fun i => nth i cloudy false && negb (mem i O)) (seq 0 N)).
    set (F := filter (fun i => negb (nth i cloudy false) && negb (mem i O)) (seq 0 N)).
    assert (HC : forall i, In i C <-> (flagged cloudy i /\ ~ In i O)).
    { intro i. unfold C. rewrite filter_In, in_seq, andb_true_iff, negb_true_iff, <- not_true_iff_false, mem_In.
      unfold flagged. split; [tauto|]. intros [H1 H2]. split; [|tauto]. apply nth_true_lt in H1. lia. }
    assert (HF : forall i, In i F <-> ((i < N)%nat /\ ~ flagged cloudy i /\ ~ In i O)).
    { intro i. unfold F. rewrite filter_In, in_seq, andb_true_iff, !negb_true_iff, <- !not_true_iff_false, mem_In.
      unfold flagged. intuition lia. }
    exists (repeat (repeat true N) (length cs)), O, C, F. split; [reflexivity|].
    assert (Hnd : NoDup (O ++ C ++ F)).
    { apply NoDup_app_intro; [exact HOn| |].
      - apply NoDup_app_intro; try (apply NoDup_filter, seq_NoDup).
        intros i Hi; rewrite HC in Hi; rewrite HF; tauto.
      - intros i Hi; rewrite in_app_iff, HC, HF. tauto. }
    assert (Hall : forall i, In i (O ++ C ++ F) <-> (i < N)%nat).
    { intro i. rewrite !in_app_iff, HC, HF. split.
      - intros [H|[[H _]|H]]; [apply HOr, H| |tauto]. apply nth_true_lt in H. lia.
      - intro H. destruct (in_dec Nat.eq_dec i O); [tauto|]. unfold flagged.
        destruct (nth i cloudy false); intuition congruence. }
    split; [exact Hnd|]. split; [exact HO|]. split.
    { intro i. rewrite in_app_iff, HC, HO. unfold flagged. split; [tauto|].
      intros [H|H]; [tauto|]. destruct (in_dec Nat.eq_dec i O) as [G|G]; rewrite HO in G; tauto. }
    split; [exact Hall|]. split; [apply repeat_length|].
    intros k Hk. rewrite (nth_indep _ [] (repeat true N)) by (rewrite repeat_length; exact Hk).
    rewrite nth_repeat. split; [apply repeat_length|].
    assert (Hck : nth k cs 0 = Z.of_nat N).
    { rewrite forallb_forall in Efull. specialize (Efull (nth k cs 0) (nth_In _ _ Hk)). lia. }
    rewrite Hck, Nat2Z.id.
    assert (Hlen : length (O ++ C ++ F) = N).
    { rewrite <- (seq_length N 0). apply Permutation_length. apply NoDup_Permutation; [exact Hnd|apply seq_NoDup|].
      intro i; rewrite Hall, in_seq; lia. }
    rewrite firstn_all2 by lia. split; [exact Hnd|]. intro i. rewrite Hall, nth_repeat_bool. simpl. apply Nat.ltb_lt. }
  set (cls0 := map (fun c => {| p_req := c; p_rem := c; p_fl := repeat false N |}) cs).
  assert (Hreq0 : map p_req cls0 = cs) by (unfold cls0; rewrite map_map; simpl; apply map_id).
  assert (Hmax0 : 0 <= max_list cs).
  { destruct cs as [|c cs']; [simpl in Efull; discriminate|]. apply Hcs, max_list_in. discriminate. }
  assert (Hinv0 : inv N cs [] (max_list cs, cls0)).
  { split; [constructor|]. split; [intros i []|]. split; [exact Hreq0|]. simpl. split; [lia|].
    intros p Hp. unfold cls0 in Hp. apply in_map_iff in Hp. destruct Hp as (c & <- & Hc).
    split; [apply Hcs, Hc|]. simpl. split; [apply repeat_length|]. rewrite firstn_nil. apply reps_blank. }
  assert (Hrem0 : forall p, In p cls0 -> rem_fresh [] p).
  { intros p Hp. unfold cls0 in Hp. apply in_map_iff in Hp. destruct Hp as (c & <- & Hc).
    unfold rem_fresh; simpl. specialize (Hcs c Hc). lia. }
  assert (H1 : exists st1 D1,
    (if ovl then precip_round O (perm 0%nat) (max_list cs, cls0) else Ok (max_list cs, cls0)) = Ok st1 /\
    (forall i, In i D1 <-> some_precip above i) /\
    inv N cs D1 st1 /\ (0 < fst st1 -> forall p, In p (snd st1) -> rem_fresh D1 p)).
  { destruct ovl.
    - destruct (round_ok N cs [] (max_list cs, cls0) O (perm 0%nat) Hinv0 Hrem0 HOn) as (st1 & full & E & Hfp & Hi & Hr).
      { intros i Hi; split; [apply HOr, Hi|intros []]. }
      { apply Hperm. }
      exists st1, full. split; [exact E|]. split; [|split; assumption].
      intro i. rewrite <- HO. split; apply Permutation_in; [exact Hfp|symmetry; exact Hfp].
    - destruct (Hov eq_refl) as [Hz|Hb].
      + exists (max_list cs, cls0), O. split; [reflexivity|]. split; [exact HO|].
        assert (Hm0 : max_list cs = 0).
        { destruct cs as [|c cs']; [reflexivity|]. apply Hz, max_list_in. discriminate. }
        split; [|simpl; lia].
        apply (inv_extend N cs [] (max_list cs, cls0) O Hinv0); [exact Hm0|exact HOn|].
        intros i Hi; split; [apply HOr, Hi|intros []].
      + exists (max_list cs, cls0), []. split; [reflexivity|]. split.
        { intro i; split; [intros []|apply Hb]. }
        split; [exact Hinv0|]. intros _; exact Hrem0. }
  destruct H1 as (st1 & D1 & E1 & HD1 & Hinv1 & Hrem1). rewrite E1; cbn [bind].
  destruct (free_ok N cs D1 st1 cloudy (perm 1%nat) Hinv1 Hrem1 Hcl (Hperm 1%nat))
    as (st2 & D2 & E2 & HD2 & Hinv2 & Hrem2). rewrite E2; cbn [bind].
  destruct (free_ok N cs (D1 ++ D2) st2 (np_not cloudy) (perm 2%nat) Hinv2 Hrem2) as (st3 & D3 & E3 & HD3 & Hinv3 & _).
  { rewrite length_np_not; exact Hcl. }
  { apply Hperm. }
  rewrite E3; cbn [bind]. exists (map p_fl (snd st3)), D1, D2, D3. split; [reflexivity|].
  rewrite <- app_assoc in Hinv3. destruct Hinv3 as (Hnd & Hr & Hreq & _ & Hcls).
  split; [exact Hnd|]. split; [exact HD1|].
  assert (HD12 : forall i, In i (D1 ++ D2) <-> (some_precip above i \/ flagged cloudy i)).
  { intro i. rewrite in_app_iff, HD2, HD1. unfold flagged. split; [tauto|].
    intros [H|H]; [tauto|]. destruct (in_dec Nat.eq_dec i D1) as [G|G]; rewrite HD1 in G; tauto. }
  split; [exact HD12|]. split.
  { intro i; split; [apply Hr|]. intro Hi. rewrite app_assoc, in_app_iff, HD3.
    destruct (in_dec Nat.eq_dec i (D1 ++ D2)) as [G|G]; [left; exact G|right]. split; [|exact G].
    rewrite nth_np_not, negb_true_iff by lia. apply not_true_iff_false. intro H. apply G, HD12. right; exact H. }
  split. { rewrite map_length. rewrite <- Hreq, map_length. reflexivity. }
  intros k Hk.
  assert (Hk2 : (k < length (snd st3))%nat) by (rewrite <- Hreq, map_length in Hk; exact Hk).
  set (d := {| p_req := 0; p_rem := 0; p_fl := [] |}).
  change (@nil bool) with (p_fl d). rewrite (map_nth p_fl). rewrite <- Hreq. change 0 with (p_req d). rewrite (map_nth p_req).
  destruct (Hcls (nth k (snd st3) d)) as (_ & A & B); [apply nth_In, Hk2|]. split; assumption.
Qed.

Lemma prefix_max_overlap s (A B : list nat) c P :
  NoDup (A ++ B) -> 0 <= c -> reps s (firstn (Z.to_nat c) (A ++ B)) ->
  (forall i, In i A <-> P i) -> max_overlap s c P.
Proof.
  intros Hnd Hc [_ Hs] HA n Hn.
  assert (En : n = length A).
  { eapply number_of_inj; [exact Hn|]. exists A. split; [|split; [reflexivity|exact HA]].
    clear -Hnd. induction A as [|x A IH]; [constructor|]. simpl in Hnd; inversion Hnd; subst.
    constructor; [intro Hx; apply H1, in_app_iff; left; exact Hx|auto]. }
  subst n. split; intros Hle i Hi.
  - apply HA. apply Hs in Hi. rewrite firstn_app in Hi.
    replace (Z.to_nat c - length A)%nat with 0%nat in Hi by lia.
    rewrite firstn_O, app_nil_r in Hi. eapply In_firstn; exact Hi.
  - apply Hs. rewrite firstn_app. apply in_app_iff; left. rewrite firstn_all2 by lia. apply HA, Hi.
Qed.

Lemma precip_level_spec N cs cloudy ovl above perm :
  (forall c, In c cs -> 0 <= c <= Z.of_nat N) ->
  length cloudy = N -> (forall s, In s above -> length s = N) ->
  (forall site n, is_perm (perm site n) n) ->
  (ovl = false -> (forall c, In c cs -> c = 0) \/ (forall i, ~ some_precip above i)) ->
  exists s, precip_level N cs cloudy ovl above perm = Ok (s, forallb (fun c => c =? Z.of_nat N) cs) /\
    precip_spec N cs cloudy above s.
Proof.
  intros Hcs Hcl Hab Hperm Hov.
  destruct (precip_level_order N cs cloudy ovl above perm Hcs Hcl Hab Hperm Hov)
    as (s & D1 & D2 & D3 & E & Hnd & H1 & H12 & H123 & Hlen & Hk).
  exists s. split; [exact E|].
  assert (HlenD : length (D1 ++ D2 ++ D3) = N).
  { rewrite <- (seq_length N 0). apply Permutation_length. apply NoDup_Permutation; [exact Hnd|apply seq_NoDup|].
    intro i; rewrite H123, in_seq; lia. }
  assert (Hc : forall k, (k < length cs)%nat -> 0 <= nth k cs 0 <= Z.of_nat N)
    by (intros k Hlt; apply Hcs, nth_In, Hlt).
  split.
  - exact Hlen.
  - intros x Hx. destruct (In_nth _ _ [] Hx) as (k & Hkl & <-). apply Hk. congruence.
  - intros k Hlt. destruct (Hk k Hlt) as [_ Hr]. rewrite (reps_cnt _ _ Hr), firstn_length.
    specialize (Hc k Hlt). lia.
  - intros i k Hi Hk2 Hle x Hx. destruct (Hk i Hi) as [_ [_ A]]. destruct (Hk k Hk2) as [_ [_ B]].
    apply B. apply A in Hx. eapply In_firstn_le; [|exact Hx]. specialize (Hc i Hi). lia.
  - intros i Hi. destruct (Hk i Hi) as [_ Hr].
    eapply prefix_max_overlap; [exact Hnd|apply Hc, Hi|exact Hr|exact H1].
  - intros i Hi. destruct (Hk i Hi) as [_ Hr]. rewrite app_assoc in Hnd, Hr.
    eapply prefix_max_overlap; [exact Hnd|apply Hc, Hi|exact Hr|exact H12].
Qed.

(** ** One column *)

Definition pblank (N ncls : nat) : list (list bool) := repeat (repeat false N) ncls.
Definition pdummy : plevel := {| q_cs := []; q_cloudy := []; q_ovl := false |}.

Definition pinput_ok (N ncls : nat) (l : plevel) : Prop :=
  length (q_cs l) = ncls /\ (forall c, In c (q_cs l) -> 0 <= c <= Z.of_nat N) /\ length (q_cloudy l) = N.

Lemma pblank_none N ncls i : ~ some_precip (pblank N ncls) i.
Proof.
  intros (s & Hs & Hf). apply repeat_spec in Hs. subst s. unfold flagged in Hf.
  rewrite nth_repeat_bool in Hf. discriminate.
Qed.

Lemma zero_none N cs cloudy above s : precip_spec N cs cloudy above s -> (forall c, In c cs -> c = 0) ->
  forall i, ~ some_precip s i.
Proof.
  intros H Hz i (x & Hx & Hf). destruct (In_nth _ _ [] Hx) as (k & Hk & <-).
  rewrite (ps_classes _ _ _ _ _ H) in Hk. pose proof (ps_count _ _ _ _ _ H k Hk) as Hc.
  rewrite (Hz _ (nth_In _ _ Hk)) in Hc. eapply occ0_not_flagged; [|exact Hf]. lia.
Qed.

Lemma precip_column_ok N ncls perm :
  (forall k site n, is_perm (perm k site n) n) ->
  forall ls, (forall l, In l ls -> pinput_ok N ncls l) ->
  (forall j, (S j < length ls)%nat -> q_ovl (nth j ls pdummy) = false ->
     (forall c, In c (q_cs (nth j ls pdummy)) -> c = 0) \/
     (forall c, In c (q_cs (nth (S j) ls pdummy)) -> c = 0) \/ (S (S j) = length ls)%nat) ->
  exists p, precip_column N ncls ls perm
            = Ok (p, length (filter (fun l => forallb (fun c => c =? Z.of_nat N) (q_cs l)) (removelast ls))) /\
    length p = length ls /\
    (forall j, (S j = length ls)%nat -> nth j p (pblank N ncls) = pblank N ncls) /\
    (forall j, (S j < length ls)%nat ->
       precip_spec N (q_cs (nth j ls pdummy)) (q_cloudy (nth j ls pdummy))
                   (nth (S j) p (pblank N ncls)) (nth j p (pblank N ncls))).
Proof.
  intros Hperm. induction ls as [|l tl IH]; intros Hin Hov.
  { exists []. simpl. repeat split; auto; simpl; intros; lia. }
  destruct tl as [|l2 tl2].
  { exists [pblank N ncls]. simpl. split; [reflexivity|]. split; [reflexivity|]. split; [|intros; lia].
    intros [|j] Hj; [reflexivity|lia]. }
  destruct IH as (p & Ep & Hlp & Htop & Hlev).
  { intros x Hx; apply Hin; right; exact Hx. }
  { intros j Hj Ho. destruct (Hov (S j)) as [H|[H|H]]; simpl in *; auto; lia. }
  set (tl := l2 :: tl2) in *.
  assert (Ecol : forall q n, precip_column N ncls tl perm = Ok (q, n) ->
    precip_column N ncls (l :: tl) perm =
    match q with
    | [] => Raise IndexError
    | above :: _ => do (s, full) <- precip_level N (q_cs l) (q_cloudy l) (q_ovl l) above (perm (length tl));
                    Ok (s :: q, if full then S n else n)
    end).
  { intros q n E. change (precip_column N ncls (l :: tl) perm) with
      (do (p, n) <- precip_column N ncls tl perm;
          match p with
          | [] => Raise IndexError
          | above :: _ =>
              do (s, full) <- precip_level N (q_cs l) (q_cloudy l) (q_ovl l) above (perm (length tl));
              Ok (s :: p, if full then S n else n)
          end). rewrite E. reflexivity. }
  rewrite (Ecol _ _ Ep). clear Ecol.
  destruct p as [|above p']; [simpl in Hlp; discriminate|].
  assert (Habove : (forall s, In s above -> length s = N) /\
     ((forall c, In c (q_cs l2) -> c = 0) \/ tl2 = [] -> forall i, ~ some_precip above i)).
  { destruct tl2 as [|l3 tl3].
    - pose proof (Htop 0%nat eq_refl) as E. simpl in E. rewrite E.
      split; [intros s Hs; apply repeat_spec in Hs; subst; apply repeat_length|].
      intros _ i; apply pblank_none.
    - specialize (Hlev 0%nat). simpl in Hlev.
      assert (L0 : (1 < S (S (length tl3)))%nat) by lia. specialize (Hlev L0).
      split; [apply Hlev|]. intros [Hz|Hz]; [|discriminate]. eapply zero_none; [exact Hlev|exact Hz]. }
  destruct Habove as (A1 & A2).
  destruct (Hin l) as (I1 & I2 & I3); [left; reflexivity|].
  destruct (precip_level_spec N (q_cs l) (q_cloudy l) (q_ovl l) above (perm (length tl))) as (s & Es & Hs); auto.
  { intro E. specialize (Hov 0%nat). simpl in Hov. destruct Hov as [H|[H|H]]; [lia|exact E|left; exact H| |].
    - right. apply A2. left; exact H.
    - right. apply A2. right. destruct tl2; [reflexivity|simpl in H; lia]. }
  rewrite Es. cbn [bind]. exists (s :: above :: p'). split.
  { f_equal. f_equal. change (removelast (l :: tl)) with (l :: removelast tl).
    cbn [filter]. destruct (forallb _ _); reflexivity. }
  split; [simpl in *; lia|]. split.
  - intros [|j] Hj; [simpl in Hj; lia|].
    change (nth (S j) (s :: above :: p') (pblank N ncls)) with (nth j (above :: p') (pblank N ncls)).
    apply Htop. simpl in *; lia.
  - intros [|j] Hj; [exact Hs|]. apply (Hlev j). simpl in *; lia.
Qed.
