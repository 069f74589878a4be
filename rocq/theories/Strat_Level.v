(** One level and one column of the stratiform allocator (model in
    [Strat_Model]). *)
From Verif Require Import Np_Facts Strat_Model Strat_Spec Strat_Proofs.
From Coq Require Import ZifyBool ZifyNat.
Local Open Scope Z_scope.
(** ** One level *)

(** Under-allocation of the larger type (see DESIGN, finding F1): [other] is
    the count of the other type, [both] the number of subcolumns with both
    types just above and no convection. *)
Definition deficit (c other both : Z) : Z :=
  if (other =? 0) && (0 <? both) && (both <=? c) then both else 0.

Record level_ok (N : nat) (c : Z * Z) (conv : list bool) (above s : lvl) : Prop := {
  lo_len : length (fst s) = N /\ length (snd s) = N;
  lo_nest : (fst c <= snd c -> subset (fst s) (snd s)) /\ (snd c <= fst c -> subset (snd s) (fst s));
  lo_full : fst c = Z.of_nat N -> snd c = Z.of_nat N -> s = (repeat true N, repeat true N);
  lo_conv : ~ (fst c = Z.of_nat N /\ snd c = Z.of_nat N) ->
            forall i, flagged conv i -> ~ flagged (fst s) i /\ ~ flagged (snd s) i;
  lo_count : ~ (fst c = Z.of_nat N /\ snd c = Z.of_nat N) ->
    exists both, number_of (fun i => flagged (fst above) i /\ flagged (snd above) i /\ ~ flagged conv i) both /\
      Z.of_nat (occ (fst s)) = Z.min (fst c - deficit (fst c) (snd c) (Z.of_nat both)) (avail conv) /\
      Z.of_nat (occ (snd s)) = Z.min (snd c - deficit (snd c) (fst c) (Z.of_nat both)) (avail conv) /\
      (deficit (fst c) (snd c) (Z.of_nat both) = 0 ->
         max_overlap (fst s) (fst c) (below_cloud (fst above) (snd above) conv)) /\
      (deficit (snd c) (fst c) (Z.of_nat both) = 0 ->
         max_overlap (snd s) (snd c) (below_cloud (fst above) (snd above) conv))
}.

Lemma number_of_inj P n n' : number_of P n -> number_of P n' -> n = n'.
Proof.
  intros (L & H1 & <- & H2) (L' & H1' & <- & H2'). apply Permutation_length.
  apply NoDup_Permutation; auto. intro i; rewrite H2, H2'; tauto.
Qed.

Lemma not_true_false b : b <> true <-> b = false.
Proof. destruct b; intuition congruence. Qed.

Lemma st_subset N Imin Imax s Lmin Lmax :
  st N Imin Imax s Lmin Lmax -> incl Lmin Lmax -> subset (sel Imin s) (sel Imax s).
Proof.
  intros (_ & _ & [_ H1] & [_ H2]) Hi i Hf. apply H2, Hi, H1, Hf.
Qed.

Definition other (I : ph) : ph := match I with CL => CI | CI => CL end.

Lemma level_main N c conv above perm ovl :
  0 <= fst c <= Z.of_nat N -> 0 <= snd c <= Z.of_nat N ->
  length conv = N -> length (fst above) = N -> length (snd above) = N ->
  subset (fst above) (snd above) \/ subset (snd above) (fst above) ->
  (forall site n, is_perm (perm site n) n) ->
  (ovl = false -> (fst c = 0 /\ snd c = 0) \/
                  (forall i, ~ flagged (fst above) i /\ ~ flagged (snd above) i)) ->
  (1 <= N)%nat ->
  exists s, strat_level N c conv ovl above perm
              = Ok (s, (fst c =? Z.of_nat N) && (snd c =? Z.of_nat N)) /\
            level_ok N c conv above s.
Proof.
  intros Hc1 Hc2 Hconv Ha1 Ha2 Hnest Hperm Hovl HN1. unfold strat_level.
  assert (HImax : sel (I_argmax c) c = Z.max (fst c) (snd c))
    by (unfold I_argmax; destruct (Z.leb_spec (snd c) (fst c)); simpl; lia).
  assert (HImin : sel (I_min c) c = Z.min (fst c) (snd c))
    by (unfold I_min; destruct (Z.leb_spec (fst c) (snd c)); simpl; lia).
  rewrite HImax, HImin.
  assert (Hboth : exists m, NoDup m /\
    forall i, In i m <-> (flagged (fst above) i /\ flagged (snd above) i /\ ~ flagged conv i)).
  { exists (filter (fun i => nth i (fst above) false && nth i (snd above) false && negb (nth i conv false)) (seq 0 N)).
    split; [apply NoDup_filter, seq_NoDup|].
    intro i; rewrite filter_In, in_seq, !andb_true_iff, negb_true_iff, <- not_true_false.
    unfold flagged. split; [tauto|]. intro H; split; [|tauto].
    destruct H as (H & _); apply nth_true_lt in H; lia. }
  destruct (Z.eqb_spec (Z.max (fst c) (snd c)) 0) as [Hz|Hz].
  { (* both requests are zero *)
    eexists; split; [f_equal; f_equal; symmetry; lia|].
    split; simpl.
    - rewrite !repeat_length; auto.
    - split; intros _ i H; exact H.
    - lia.
    - intros _ i _. unfold flagged; rewrite nth_repeat_bool; simpl; split; discriminate.
    - intros _. destruct Hboth as (m & Hm & Hmi). exists (length m). split; [exists m; auto|].
      rewrite cnt_repeat_false.
      assert (Hd : forall a b x, a = 0 -> b = 0 -> deficit a b (Z.of_nat x) = 0)
        by (intros a b x -> ->; unfold deficit; destruct x; reflexivity).
      rewrite !Hd by lia.
      assert (0 <= avail conv) by (unfold avail; pose proof (cnt_le conv); lia).
      split; [lia|]. split; [lia|].
      assert (Hmo : forall k P, k = 0 -> max_overlap (repeat false N) k P).
      { intros k P -> n (L & HL1 & HL2 & HL3). split.
        - intros _ i Hi. unfold flagged in Hi; rewrite nth_repeat_bool in Hi; discriminate.
        - intros HH i Hi. apply HL3 in Hi. destruct L; [destruct Hi|simpl in HL2; lia]. }
      split; intros _; apply Hmo; lia. }
  destruct (Z.eqb_spec (Z.min (fst c) (snd c)) (Z.of_nat N)) as [Hf|Hf].
  { (* both fully overcast *)
    eexists; split; [f_equal; f_equal; symmetry; lia|].
    split; simpl.
    - rewrite !repeat_length; auto.
    - split; intros _ i H; exact H.
    - reflexivity.
    - lia.
    - lia. }
  (* general case *)
  assert (Hfl : (fst c =? Z.of_nat N) && (snd c =? Z.of_nat N) = false) by lia.
  rewrite Hfl.
  set (Imin := I_min c) in *. set (Imax := I_max c) in *.
  assert (Hoth : Imax = other Imin).
  { unfold Imax, I_max, Imin, I_min, I_argmax.
    destruct (Z.leb_spec (fst c) (snd c)), (Z.leb_spec (snd c) (fst c)); simpl; auto; lia. }
  assert (Hne : Imin <> Imax) by (rewrite Hoth; destruct Imin; discriminate).
  assert (HselMax : sel Imax c = Z.max (fst c) (snd c)).
  { revert HImin. rewrite Hoth. destruct Imin; simpl; lia. }
  (* state after the overlap step *)
  assert (Hov : exists s' c' Lmin Lmax m M,
      (if ovl then strat_overlap Imin Imax c conv above (repeat false N, repeat false N) perm
       else Ok ((repeat false N, repeat false N), c)) = Ok (s', c') /\
      NoDup M /\ (forall i, In i M <-> over above conv i) /\
      NoDup m /\ (forall i, In i m <-> (nth i (fst above) false = true /\ nth i (snd above) false = true
                                        /\ nth i conv false = false)) /\
      overlap_post N Imin Imax c c' s' Lmin Lmax m M).
  { destruct ovl.
    - apply overlap_ok; auto; lia.
    - destruct (Hovl eq_refl) as [H|Hab]; [lia|].
      exists (repeat false N, repeat false N), c, [], [], [], [].
      split; [reflexivity|]. split; [constructor|].
      split. { intro i; split; [intros []|]. intros [[H|H] _]; [apply (proj1 (Hab i) H)|apply (proj2 (Hab i) H)]. }
      split; [constructor|].
      split. { intro i; split; [intros []|]. intros (H & _). apply (proj1 (Hab i) H). }
      assert (Hst0 : st N Imin Imax (repeat false N, repeat false N) [] []).
      { repeat split; simpl; try apply repeat_length; try constructor;
          try (destruct Imin; simpl; apply reps_blank); destruct Imax; simpl; apply reps_blank. }
      unfold overlap_post. simpl length.
      split; [exact Hst0|]. split; [apply incl_refl|]. split; [apply incl_refl|].
      split; [lia|]. split; [lia|]. split; [intros _; apply incl_refl|]. split; [lia|].
      split; intro Hd; split; try lia. intros _; apply incl_refl. }
  destruct Hov as (s' & c' & Lmin & Lmax & m & M & Eov & HM & HMi & Hm & Hmi & Hpost).
  unfold lvl in *. rewrite Eov. cbn [bind].
  destruct Hpost as (Hst & HLL & HLM & Hcm & Hcm0 & HcmM & HcM0 & Hdef & Hndef).
  assert (Hlf : forall i, In i Lmax -> nth i conv false = false)
    by (intros i Hi; apply HLM, HMi in Hi; apply Hi).
  destruct (fill_ok N Imin Imax c' conv s' Lmin Lmax perm Hne Hperm Hconv Hst HLL Hcm0 HcM0 Hlf)
    as (s2 & full & Efill & Hfn & Hfi & Hfl2 & Hst2).
  rewrite Efill. cbn [bind]. exists s2. split; [reflexivity|].
  set (kM := Z.to_nat (sel Imax c')) in *. set (km := Nat.min (Z.to_nat (sel Imin c')) kM) in *.
  set (Lm2 := Lmin ++ firstn km full) in *. set (LM2 := Lmax ++ firstn kM full) in *.
  assert (Hmin_impl : 0 < sel Imin c' -> sel Imin c' <= sel Imax c').
  { intro H. specialize (HcmM H).
    assert (Hlenle : (length M <= length Lmin)%nat) by (apply NoDup_incl_length; [exact HM|exact HcmM]).
    assert (HlenLmax : (length Lmax <= length M)%nat)
      by (apply NoDup_incl_length; [apply Hst|exact HLM]).
    assert (Hnd : ~ (sel Imin c = 0 /\ 0 < Z.of_nat (length m) <= sel Imax c)) by lia.
    apply Hndef in Hnd. lia. }
  assert (HLL2 : incl Lm2 LM2).
  { apply incl_app_app; [exact HLL|]. apply incl_firstn_le. unfold km; lia. }
  assert (HLM2f : forall i, In i LM2 -> nth i conv false = false).
  { intros i Hi. apply in_app_iff in Hi. destruct Hi as [Hi|Hi]; [apply Hlf, Hi|].
    apply In_firstn in Hi. apply Hfi, Hi. }
  assert (HcntM : cnt (sel Imax s2) = length LM2) by (apply reps_cnt, Hst2).
  assert (Hcntm : cnt (sel Imin s2) = length Lm2) by (apply reps_cnt, Hst2).
  assert (Hreps : reps (sel Imin s2) Lm2 /\ reps (sel Imax s2) LM2) by (split; apply Hst2).
  assert (Hlen2 : length (fst s2) = N /\ length (snd s2) = N) by (split; apply Hst2).
  assert (HlenLM2 : Z.of_nat (length LM2) = Z.of_nat (length Lmax) + Z.min (sel Imax c') (avail conv - Z.of_nat (length Lmax))).
  { unfold LM2. rewrite app_length, firstn_length. unfold kM. clear - Hfl2 HcM0. lia. }
  assert (HlenLmaxM : (length Lmax <= length M)%nat) by (apply NoDup_incl_length; [apply Hst|exact HLM]).
  assert (HlenLminM : (length Lmin <= length Lmax)%nat) by (apply NoDup_incl_length; [apply Hst|exact HLL]).
  assert (HlenLm2 : Z.of_nat (length Lm2) = Z.min (sel Imin c) (avail conv)).
  { unfold Lm2. rewrite app_length, firstn_length.
    destruct (Z.eq_dec (sel Imin c') 0) as [E0|E0].
    - assert (Hk : km = 0%nat) by (unfold km; rewrite E0; reflexivity). rewrite Hk.
      clear - E0 Hcm Hfl2 HlenLminM. simpl; lia.
    - assert (Hpos : 0 < sel Imin c') by (clear - E0 Hcm0; lia).
      specialize (HcmM Hpos). specialize (Hmin_impl Hpos).
      assert (HMl : (length M <= length Lmin)%nat) by (apply NoDup_incl_length; [exact HM|exact HcmM]).
      unfold km, kM. clear - Hpos HMl HlenLminM HlenLmaxM Hcm Hfl2 Hmin_impl. lia. }
  assert (HnotN : ~ (fst c = Z.of_nat N /\ snd c = Z.of_nat N)) by (clear - Hf; lia).
  (* per-role facts *)
  set (dM := deficit (sel Imax c) (sel Imin c) (Z.of_nat (length m))).
  assert (HcountM : Z.of_nat (cnt (sel Imax s2)) = Z.min (sel Imax c - dM) (avail conv)).
  { rewrite HcntM, HlenLM2. unfold dM, deficit.
    destruct (Z.eqb_spec (sel Imin c) 0) as [e|e]; destruct (Z.ltb_spec 0 (Z.of_nat (length m))) as [e1|e1];
      destruct (Z.leb_spec (Z.of_nat (length m)) (sel Imax c)) as [e2|e2]; cbn [andb];
      first [ destruct Hdef as [Hd _]; [split; [exact e|split; [exact e1|exact e2]]|]; rewrite Hd
            | destruct Hndef as [Hd _]; [clear - e e1 e2; lia|]; rewrite Hd ]; clear; lia. }
  assert (Hcountm : Z.of_nat (cnt (sel Imin s2)) =
                    Z.min (sel Imin c - deficit (sel Imin c) (sel Imax c) (Z.of_nat (length m))) (avail conv)).
  { rewrite Hcntm, HlenLm2. unfold deficit.
    destruct (Z.eqb_spec (sel Imax c) 0) as [e|e]; [clear - e HselMax Hz; lia|]. cbn [andb]; clear; lia. }
  assert (HPM : forall i, below_cloud (fst above) (snd above) conv i <-> In i M).
  { intro i; rewrite HMi. unfold below_cloud, over, flagged. rewrite not_true_false. tauto. }
  assert (HnumM : forall n, number_of (below_cloud (fst above) (snd above) conv) n -> n = length M).
  { intros n Hn. eapply number_of_inj; [exact Hn|]. exists M. split; [exact HM|]. split; [reflexivity|].
    intro i; rewrite HPM; tauto. }
  assert (Hmom : max_overlap (sel Imin s2) (sel Imin c) (below_cloud (fst above) (snd above) conv)).
  { intros n Hn. rewrite (HnumM n Hn). split.
    - intros Hle i Hi. apply HPM. apply Hreps in Hi. unfold Lm2 in Hi. apply in_app_iff in Hi.
      destruct Hi as [Hi|Hi]; [apply HLM, HLL, Hi|].
      assert (Hk : km = 0%nat).
      { destruct (Z.eq_dec (sel Imin c') 0) as [E0|E0]; [unfold km; rewrite E0; reflexivity|].
        assert (Hpos : 0 < sel Imin c') by (clear - E0 Hcm0; lia). specialize (HcmM Hpos).
        assert ((length M <= length Lmin)%nat) by (apply NoDup_incl_length; [exact HM|exact HcmM]). clear - H Hle Hcm Hpos. lia. }
      rewrite Hk in Hi. destruct Hi.
    - intros Hle i Hi. apply HPM in Hi. apply Hreps. apply in_app_iff; left.
      destruct (Z.eq_dec (sel Imin c') 0) as [E0|E0]; [|apply HcmM; [clear - E0 Hcm0; lia|exact Hi]].
      revert i Hi. apply NoDup_incl_len; [apply Hst | intros x Hx; apply HLM, HLL, Hx | clear - Hle E0 Hcm; lia]. }
  assert (HmoM : dM = 0 -> max_overlap (sel Imax s2) (sel Imax c) (below_cloud (fst above) (snd above) conv)).
  { intro HdM.
    assert (Hnd : ~ (sel Imin c = 0 /\ 0 < Z.of_nat (length m) <= sel Imax c)).
    { intros (e & e1 & e2). unfold dM, deficit in HdM.
      destruct (Z.eqb_spec (sel Imin c) 0); [|contradiction]. destruct (Z.ltb_spec 0 (Z.of_nat (length m))); [|clear - e1 H; lia].
      destruct (Z.leb_spec (Z.of_nat (length m)) (sel Imax c)); [|clear - e2 H0; lia]. cbn [andb] in HdM. clear - HdM e1; lia. }
    destruct (Hndef Hnd) as [HcM HcMM].
    intros n Hn. rewrite (HnumM n Hn). split.
    - intros Hle i Hi. apply HPM. apply Hreps in Hi. unfold LM2 in Hi. apply in_app_iff in Hi.
      destruct Hi as [Hi|Hi]; [apply HLM, Hi|].
      assert (Hk : kM = 0%nat).
      { destruct (Z.eq_dec (sel Imax c') 0) as [E0|E0]; [unfold kM; rewrite E0; reflexivity|].
        assert (Hpos : 0 < sel Imax c') by (clear - E0 HcM0; lia). specialize (HcMM Hpos).
        assert ((length M <= length Lmax)%nat) by (apply NoDup_incl_length; [exact HM|exact HcMM]). clear - H Hle HcM Hpos. lia. }
      rewrite Hk in Hi. destruct Hi.
    - intros Hle i Hi. apply HPM in Hi. apply Hreps. apply in_app_iff; left.
      destruct (Z.eq_dec (sel Imax c') 0) as [E0|E0]; [|apply HcMM; [clear - E0 HcM0; lia|exact Hi]].
      revert i Hi. apply NoDup_incl_len; [apply Hst | exact HLM | clear - Hle E0 HcM; lia]. }
  assert (Hsub : subset (sel Imin s2) (sel Imax s2)) by (eapply st_subset; [exact Hst2|exact HLL2]).
  assert (Hnc : forall i, flagged conv i -> ~ flagged (sel Imin s2) i /\ ~ flagged (sel Imax s2) i).
  { intros i Hi. assert (H : ~ flagged (sel Imax s2) i).
    { intro Hx. apply Hreps in Hx. apply HLM2f in Hx. unfold flagged in Hi; congruence. }
    split; [|exact H]. intro Hx; apply H, Hsub, Hx. }
  assert (Heq : fst c = snd c -> subset (sel Imax s2) (sel Imin s2)).
  { intros E i Hi. apply Hreps. apply Hreps in Hi. revert i Hi.
    apply NoDup_incl_len; [apply Hreps | exact HLL2 |].
    assert (Es : sel Imin c = sel Imax c) by (rewrite HselMax, HImin; clear - E; lia).
    assert (Hd0 : dM = 0) by (unfold dM, deficit; destruct (Z.eqb_spec (sel Imin c) 0); [clear - HselMax Hz e Es; lia|reflexivity]).
    rewrite Hd0 in HcountM. clear - HcountM HcntM HlenLm2 Es. lia. }
  assert (Hbn : number_of (fun i => flagged (fst above) i /\ flagged (snd above) i /\ ~ flagged conv i) (length m)).
  { exists m; split; [exact Hm|]; split; [reflexivity|].
    intro i; rewrite Hmi; unfold flagged. rewrite not_true_false. tauto. }
  unfold dM in *. clear dM. subst Imax.
  split; [exact Hlen2 | | intros; exfalso; apply HnotN; split; assumption | | ].
  - unfold I_min in Imin. destruct (Z.leb_spec (fst c) (snd c)) as [Hle|Hle]; subst Imin;
      rewrite Hoth in *; simpl in *.
    + split; [intros _; exact Hsub|]. intro H; apply Heq; clear - H Hle; lia.
    + split; [clear - Hle; lia|intros _; exact Hsub].
  - intros _ i Hi. specialize (Hnc i Hi). rewrite Hoth in Hnc. destruct Imin; simpl in Hnc; tauto.
  - intros _. exists (length m). split; [exact Hbn|].
    revert HcountM Hcountm HmoM Hmom. rewrite Hoth. destruct Imin; simpl; intros A B C D.
    + split; [exact B|]; split; [exact A|]; split; [intros _; exact D|exact C].
    + split; [exact A|]; split; [exact B|]; split; [exact C|intros _; exact D].
Qed.

(** ** One column *)

Definition blank (N : nat) : lvl := (repeat false N, repeat false N).

Definition input_ok (N : nat) (l : slevel) : Prop :=
  0 <= fst (s_c l) <= Z.of_nat N /\ 0 <= snd (s_c l) <= Z.of_nat N /\ length (s_conv l) = N.

Definition dummy : slevel := {| s_c := (0, 0); s_conv := []; s_ovl := false |}.

Lemma occ0_not_flagged s : (occ s <= 0)%nat -> forall i, ~ flagged s i.
Proof.
  intros H i Hi. assert (In true s).
  { unfold flagged in Hi. rewrite <- Hi. apply nth_In. apply nth_true_lt in Hi. exact Hi. }
  unfold occ in H. apply (count_occ_In Bool.bool_dec) in H0. lia.
Qed.

Lemma level_ok_zero N c conv above s :
  (1 <= N)%nat -> level_ok N c conv above s -> c = (0, 0) ->
  forall i, ~ flagged (fst s) i /\ ~ flagged (snd s) i.
Proof.
  intros HN H -> i. destruct (lo_count _ _ _ _ _ H) as (b & _ & H1 & H2 & _); [simpl; lia|].
  simpl in *. assert (Hd : forall x, 0 <= deficit 0 0 (Z.of_nat x)) by (intro x; unfold deficit; destruct (_ && _); lia).
  specialize (Hd b). split; apply occ0_not_flagged; lia.
Qed.

Lemma blank_not_flagged N i : ~ flagged (fst (blank N)) i /\ ~ flagged (snd (blank N)) i.
Proof. unfold flagged; simpl; rewrite nth_repeat_bool; split; discriminate. Qed.

Lemma column_ok N perm : (1 <= N)%nat ->
  (forall k site n, is_perm (perm k site n) n) ->
  forall ls, (forall l, In l ls -> input_ok N l) ->
  (forall j, (S j < length ls)%nat -> s_ovl (nth j ls dummy) = false ->
     s_c (nth j ls dummy) = (0, 0) \/ s_c (nth (S j) ls dummy) = (0, 0)) ->
  exists p, strat_column N ls perm
            = Ok (p, length (filter (fun l => (fst (s_c l) =? Z.of_nat N) && (snd (s_c l) =? Z.of_nat N))
                                    (removelast ls))) /\
    length p = length ls /\
    (forall j, (S j = length ls)%nat -> nth j p (blank N) = blank N) /\
    (forall j, (S j < length ls)%nat ->
       level_ok N (s_c (nth j ls dummy)) (s_conv (nth j ls dummy)) (nth (S j) p (blank N)) (nth j p (blank N))).
Proof.
  intros HN Hperm. induction ls as [|l tl IH]; intros Hin Hov.
  { exists []. simpl. repeat split; auto; simpl; intros; lia. }
  destruct tl as [|l2 tl2].
  { exists [blank N]. simpl. split; [reflexivity|]. split; [reflexivity|]. split; [|intros; lia].
    intros [|j] Hj; [reflexivity|lia]. }
  destruct IH as (p & Ep & Hlp & Htop & Hlev).
  { intros x Hx; apply Hin; right; exact Hx. }
  { intros j Hj. apply (Hov (S j)). simpl in *; lia. }
  set (tl := l2 :: tl2) in *.
  assert (Ecol : forall q n, strat_column N tl perm = Ok (q, n) ->
    strat_column N (l :: tl) perm =
    match q with
    | [] => Raise IndexError
    | above :: _ => do (s, full) <- strat_level N (s_c l) (s_conv l) (s_ovl l) above (perm (length tl));
                    Ok (s :: q, if full then S n else n)
    end).
  { intros q n E. change (strat_column N (l :: tl) perm) with
      (do (p, n) <- strat_column N tl perm;
          match p with
          | [] => Raise IndexError
          | above :: _ =>
              do (s, full) <- strat_level N (s_c l) (s_conv l) (s_ovl l) above (perm (length tl));
              Ok (s :: p, if full then S n else n)
          end). rewrite E. reflexivity. }
  rewrite (Ecol _ _ Ep). clear Ecol.
  destruct p as [|above p']; [simpl in Hlp; discriminate|].
  assert (Habove : length (fst above) = N /\ length (snd above) = N /\
     (subset (fst above) (snd above) \/ subset (snd above) (fst above)) /\
     (s_c l2 = (0, 0) -> forall i, ~ flagged (fst above) i /\ ~ flagged (snd above) i)).
  { destruct tl2 as [|l3 tl3].
    - pose proof (Htop 0%nat eq_refl) as E. simpl in E. rewrite E.
      split; [apply repeat_length|]. split; [apply repeat_length|].
      split; [left; intros i Hi; exact Hi|]. intros _ i; apply blank_not_flagged.
    - specialize (Hlev 0%nat). simpl in Hlev.
      assert (L0 : (1 < S (S (length tl3)))%nat) by lia. specialize (Hlev L0).
      split; [apply Hlev|]. split; [apply Hlev|]. split.
      + destruct (lo_nest _ _ _ _ _ Hlev) as [A B].
        destruct (Z.le_ge_cases (fst (s_c l2)) (snd (s_c l2))) as [G|G]; [left; apply A, G|right; apply B, G].
      + intros E. eapply level_ok_zero; [exact HN|exact Hlev|exact E]. }
  destruct Habove as (A1 & A2 & A3 & A4).
  destruct (Hin l) as (I1 & I2 & I3); [left; reflexivity|].
  destruct (level_main N (s_c l) (s_conv l) above (perm (length tl)) (s_ovl l)) as (s & Es & Hs); auto.
  { intro E. specialize (Hov 0%nat). simpl in Hov. destruct Hov as [H|H]; [lia|exact E| |].
    - left. rewrite H; split; reflexivity.
    - right. apply A4, H. }
  rewrite Es. cbn [bind]. exists (s :: above :: p'). split.
  { f_equal. f_equal. change (removelast (l :: tl)) with (l :: removelast tl).
    cbn [filter]. destruct (_ && _); reflexivity. }
  split; [simpl in *; lia|]. split.
  - intros [|j] Hj; [simpl in Hj; lia|]. change (nth (S j) (s :: above :: p') (blank N)) with (nth j (above :: p') (blank N)).
    apply Htop. simpl in *; lia.
  - intros [|j] Hj; [exact Hs|]. apply (Hlev j). simpl in *; lia.
Qed.
