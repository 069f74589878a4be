(** C27: COSP phase emulation. *)
From Verif Require Import Mom_Base Mom_Spec Mom_Facts Xr_Facts Lidar_Spec Lidar_Ldr Class_Model Class_Spec Class_Lidar.
From Coq Require Import Lia.
Local Open Scope R_scope.

(** *** Polynomials *)
Lemma sumR_ext f g n : (forall j, (j < n)%nat -> f j = g j) -> sumR f n = sumR g n.
Proof. induction n as [|n IH]; intro H; [reflexivity|]. simpl. rewrite IH, H by auto with arith. reflexivity. Qed.
Lemma sumR_scal f n x : sumR f n * x = sumR (fun j => f j * x) n.
Proof. induction n as [|n IH]; simpl; [lra|]. rewrite <- IH. lra. Qed.
Lemma sumR_shift f n : sumR f (S n) = f 0%nat + sumR (fun j => f (S j)) n.
Proof. induction n as [|n IH]; [simpl; lra|]. simpl in *. rewrite IH. lra. Qed.
Lemma poly_snoc p c x : poly (p ++ [c]) x = poly p x * x + c.
Proof.
  unfold poly. rewrite app_length. cbn [length]. rewrite Nat.add_1_r, sumR_shift. rewrite sumR_scal.
  rewrite app_nth2 by lia. replace (S (length p) - 1 - 0 - length p)%nat with 0%nat by lia. cbn [nth]. rewrite pow_O.
  rewrite Rplus_comm, Rmult_1_r. f_equal. apply sumR_ext. intros j Hj.
  replace (S (length p) - 1 - S j)%nat with (length p - 1 - j)%nat by lia. rewrite app_nth1 by lia. cbn [pow]. ring.
Qed.
Lemma polyval_fin p x : polyval p (XF x) = XF (poly p x).
Proof.
  unfold polyval. induction p as [|c p IH] using rev_ind; [reflexivity|].
  rewrite fold_left_app, IH. cbn [fold_left xmul xadd]. rewrite poly_snoc. reflexivity.
Qed.

(** *** Reflective layers *)
Definition trues (l : list bool) : nat := length (filter (fun b => b) l).
Lemma length_count_from n l : length (count_from n l) = length l.
Proof. revert n. induction l; intro n; simpl; auto. Qed.
Lemma nth_count_from l : forall n k, (k < length l)%nat ->
  nth k (count_from n l) 0%nat = (n + trues (firstn (S k) l))%nat.
Proof.
  induction l as [|b l IH]; intros n k H; [simpl in H; lia|]. destruct k as [|k].
  - unfold trues. destruct b; simpl; lia.
  - cbn [count_from nth]. rewrite IH by (simpl in H; lia). unfold trues.
    change (firstn (S (S k)) (b :: l)) with (b :: firstn (S k) l). destruct b; cbn [filter length]; lia.
Qed.
Lemma trues_app a b : trues (a ++ b) = (trues a + trues b)%nat.
Proof. unfold trues. rewrite filter_app, app_length. reflexivity. Qed.
Lemma trues_pos l : (0 < trues l)%nat <-> exists j, (j < length l)%nat /\ nth j l false = true.
Proof.
  unfold trues. split.
  - intro H. destruct (filter (fun b => b) l) as [|b f] eqn:E; [simpl in H; lia|].
    assert (I : In b (filter (fun b => b) l)) by (rewrite E; simpl; auto).
    apply filter_In in I. destruct I as [I ->]. apply (In_nth _ _ false) in I. destruct I as (j & Hj & Ej). eauto.
  - intros (j & Hj & Ej). assert (I : In true (filter (fun b => b) l)).
    { apply filter_In. split; [rewrite <- Ej; apply nth_In; exact Hj|reflexivity]. }
    destruct (filter _ l); [destruct I|simpl; lia].
Qed.
Definition mark (hi : list bool) (cnt : list nat) : list nat :=
  map (fun p => if (fst p : bool) && (snd p =? 1)%nat then 0%nat else snd p) (combine hi cnt).
Lemma nth_mark hi cnt k : length cnt = length hi -> (k < length hi)%nat ->
  nth k (mark hi cnt) 0%nat = if nth k hi false && (nth k cnt 0 =? 1)%nat then 0%nat else nth k cnt 0%nat.
Proof.
  intros Hl Hk. unfold mark. set (f := fun p : bool * nat => _).
  rewrite (nth_indep _ 0%nat (f (false, 0%nat))) by (rewrite map_length, combine_length; lia).
  rewrite (map_nth f), combine_nth by auto. reflexivity.
Qed.
Lemma firstn_S_nth {A} (l : list A) k d : (k < length l)%nat -> firstn (S k) l = firstn k l ++ [nth k l d].
Proof.
  revert k. induction l as [|a l IH]; intros k H; [simpl in H; lia|]. destruct k; [reflexivity|].
  change (firstn (S (S k)) (a :: l)) with (a :: firstn (S k) l). rewrite IH by (simpl in H; lia). reflexivity.
Qed.
Lemma nth_firstn_lt {A} (l : list A) k j d : (j < k)%nat -> nth j (firstn k l) d = nth j l d.
Proof. revert k j. induction l as [|a l IH]; intros [|k] [|j] H; try lia; try reflexivity. simpl. apply IH. lia. Qed.
Lemma mark_forward hi k : (k < length hi)%nat ->
  (0 < nth k (mark hi (count_from 0 hi)) 0)%nat <-> exists j, (j < k)%nat /\ nth j hi false = true.
Proof.
  intro Hk. rewrite nth_mark by (rewrite ?length_count_from; auto). rewrite nth_count_from by exact Hk.
  rewrite (firstn_S_nth hi k false Hk), trues_app.
  assert (T : (0 < trues (firstn k hi))%nat <-> exists j, (j < k)%nat /\ nth j hi false = true).
  { rewrite trues_pos, firstn_length_le by lia. split; intros (j & Hj & E); exists j; rewrite nth_firstn_lt in * by exact Hj; auto. }
  destruct (nth k hi false) eqn:E; cbn [andb].
  - change (trues [true]) with 1%nat. destruct (Nat.eqb_spec (0 + (trues (firstn k hi) + 1)) 1); rewrite <- T; lia.
  - change (trues [false]) with 0%nat. rewrite <- T. lia.
Qed.
Lemma mark_backward hi k : (k < length hi)%nat ->
  (0 < nth k (mark hi (rev (count_from 0 (rev hi)))) 0)%nat <-> exists j, (k < j < length hi)%nat /\ nth j hi false = true.
Proof.
  intro Hk. rewrite nth_mark by (rewrite ?rev_length, ?length_count_from, ?rev_length; auto).
  set (k' := (length hi - S k)%nat).
  assert (Hk' : (k' < length (rev hi))%nat) by (rewrite rev_length; unfold k'; lia).
  assert (E1 : nth k hi false = nth k' (rev hi) false).
  { rewrite rev_nth by (unfold k'; lia). f_equal. unfold k'. lia. }
  assert (E2 : nth k (rev (count_from 0 (rev hi))) 0%nat = nth k' (count_from 0 (rev hi)) 0%nat).
  { rewrite rev_nth by (rewrite length_count_from, rev_length; exact Hk).
    rewrite length_count_from, rev_length. reflexivity. }
  rewrite E1, E2, <- nth_mark by (rewrite ?length_count_from; auto). rewrite mark_forward by exact Hk'.
  split; intros (j & Hj & E).
  - exists (length hi - S j)%nat. split; [unfold k' in *; lia|]. rewrite rev_nth in E by (unfold k' in *; lia). exact E.
  - exists (length hi - S j)%nat. split; [unfold k' in *; lia|]. rewrite rev_nth by lia. rewrite <- E. f_equal. lia.
Qed.
Lemma reflective_spec sfc und sr k : (k < length sr)%nat ->
  (0 < nth k (reflective sfc und sr) 0)%nat <->
  exists k', (k' < length sr)%nat /\ nearer sfc k' k /\ xltb (XF und) (nth k' sr XNaN) = true.
Proof.
  intro Hk. unfold reflective. cbv zeta. set (hi := map (xltb (XF und)) sr).
  fold (mark hi (if sfc then count_from 0 hi else rev (count_from 0 (rev hi)))).
  assert (Hl : length hi = length sr) by apply map_length.
  assert (Hn : forall j, (j < length sr)%nat -> nth j hi false = xltb (XF und) (nth j sr XNaN)).
  { intros j Hj. unfold hi. rewrite (nth_indep _ false (xltb (XF und) XNaN)) by (rewrite map_length; exact Hj). apply map_nth. }
  unfold nearer. destruct sfc.
  - rewrite mark_forward by lia. split.
    + intros (j & Hj & E). exists j. rewrite <- Hn by lia. split; [lia|]. auto.
    + intros (j & Hj & L & E). exists j. rewrite Hn by lia. auto.
  - rewrite mark_backward by lia. split.
    + intros (j & Hj & E). exists j. rewrite <- Hn by lia. split; [lia|]. split; [lia|exact E].
    + intros (j & Hj & L & E). exists j. rewrite Hn by lia. split; [lia|exact E].
Qed.

(** *** One mask *)
Lemma cosp_mask_spec e o sr tot cr temp SR TOT CR T i t k :
  cell e i t k ->
  (forall k, (k < nht e)%nat -> sr i t k = XF (SR k)) -> tot i t k = XF (TOT k) -> cr i t k = XF (CR k) ->
  temp t k = XF (T k) ->
  exists v, cosp_mask e o sr tot cr temp i t k = shown (c_conv0 o) v /\ cosp_class o (nht e) SR TOT CR T k v.
Proof.
  intros (Hi & Ht & Hk) HSR HT HC HTe. unfold cosp_mask.
  rewrite HSR, HT, HC, HTe by exact Hk. clear HT HC HTe.
  set (r := nth k _ 0%nat).
  assert (Hr : (0 < r)%nat <-> exists k', (k' < nht e)%nat /\ nearer (c_sfc o) k' k /\ c_undef o < SR k').
  { unfold r. rewrite reflective_spec by (unfold prof3; rewrite map_length, seq_length; exact Hk).
    unfold prof3. rewrite map_length, seq_length.
    assert (N : forall j, (j < nht e)%nat -> nth j (map (sr i t) (seq 0 (nht e))) XNaN = XF (SR j)).
    { intros j Hj. rewrite (nth_indep _ XNaN (sr i t 0%nat)) by (rewrite map_length, seq_length; exact Hj).
      rewrite map_nth, seq_nth by exact Hj. apply HSR. exact Hj. }
    split; intros (j & Hj & L & E); exists j; (split; [exact Hj|]; split; [exact L|]);
      rewrite N in * by exact Hj; apply xltb_fin; exact E. }
  unfold cosp_cell. cbn [xmul]. rewrite polyval_fin, xdiv_fin by lra.
  unfold cosp_class. cbv zeta. set (B := exists k', _) in *. clearbody B. clear HSR.
  assert (Hb : if (0 <? r)%nat then B else ~ B) by (destruct (Nat.ltb_spec 0 r); [tauto|rewrite <- Hr; lia]). clear Hr. clearbody r.
  revert Hb. generalize (0 <? r)%nat. intros bb Hb.
  eexists. split; [apply zeros_nan_shown|].
  destruct (xltb (XF (c_cloud o)) (XF (SR k))) eqn:E1.
  2:{ apply xltb_fin_f in E1. split; [intros _|intro; lra].
      repeat match goal with |- context [xltb ?a ?b] => destruct (xltb a b) end; destruct bb; reflexivity. }
  apply xltb_fin in E1. cbn [Nat.eqb]. rewrite Bool.andb_true_r.
  split; [intro; lra|]. intros _.
  destruct (xltb (XF (27315/100)) (XF (T k))) eqn:E2, (xltb (XF (T k)) (XF (23315/100))) eqn:E3;
    first [apply xltb_fin in E2|apply xltb_fin_f in E2]; first [apply xltb_fin in E3|apply xltb_fin_f in E3]; try (exfalso; lra);
  destruct (xltb (XF (poly (c_curve o) (TOT k * 1000) / 1000)) (XF (CR k))) eqn:E4;
    first [apply xltb_fin in E4|apply xltb_fin_f in E4]; cbn [Nat.ltb Nat.leb andb];
  destruct bb; cbn [andb];
  (split; [intro HB|split; [intros HB HT|split; [intros HB HT|intros HB HT; split; intro H4]]]);
  try reflexivity; try (exfalso; tauto); exfalso; lra.
Qed.

(** *** The fields *)
Lemma cosp_group_run e c hs s B O : forall group,
  (forall h, In h (filter (fun h => memb h hs) group) ->
     numb e s (out "beta_p" h c) (B h) /\ numb e s (out "OD" h c) (O h)) ->
  exists r, cosp_group c hs group s = (Ok r, s) /\ forall i t k, cell e i t k ->
    fst r i t k = XF (sum_over (filter (fun h => memb h hs) group) (fun h => B h i t k)) /\
    snd r i t k = XF (sum_over (filter (fun h => memb h hs) group) (fun h => O h i t k)).
Proof.
  induction group as [|h g IH]; intro H; cbn [cosp_group filter] in *.
  - eexists. split; [reflexivity|]. auto.
  - destruct (memb h hs).
    + destruct (H h (or_introl eq_refl)) as ((b & Hb & Eb) & (o & Ho & Eo)).
      destruct IH as (r & Er & Hr); [intros x Hx; apply H; right; exact Hx|].
      rewrite (bind_rd _ _ _ b) by (apply g3_var; exact Hb). rewrite (bind_rd _ _ _ o) by (apply g3_var; exact Ho).
      rewrite (bind_ok _ _ _ _ _ Er). eexists. split; [reflexivity|]. intros i t k Hc.
      destruct (Hr i t k Hc) as [H1 H2]. cbn [fst snd]. unfold lift2, map3.
      rewrite H1, H2, Eb, Eo by exact Hc. cbn [xadd]. rewrite !sum_over_cons. auto.
    + destruct IH as (r & Er & Hr); [exact H|]. exists r. auto.
Qed.
Lemma xexp_fin x : xexp (XF x) = XF (exp x). Proof. reflexivity. Qed.
Lemma cross_cell_fin eta coef sig tau b od : 0 < tau ->
  cross_cell eta coef (XF sig) (XF tau) (XF b) (XF od) = XF (cross eta coef sig tau b od).
Proof.
  intro Ht. unfold cross_cell, transm. cbn [xadd xmul xexp]. rewrite polyval_fin, xdiv_fin by lra.
  rewrite xdiv_fin by (apply Rgt_not_eq, exp_pos). rewrite xdiv_fin by lra. rewrite xsub_fin. reflexivity.
Qed.

(** The state after storing one mask. *)
Definition stored (o : copts) (mask suffix : string) (s : dset) (m tot crs sr : arr3) : dset :=
  let s1 := upd s mask (V3 m) in
  if c_atb o then upd (upd (upd s1 ("COSP_ATBtot_" ++ suffix)%string (V3 tot)) ("COSP_ATBcross_" ++ suffix)%string (V3 crs))
                      ("COSP_SR_" ++ suffix)%string (V3 sr)
  else s1.
Definition names_of (o : copts) (mask suffix : string) : list string :=
  mask :: (if c_atb o then ["COSP_ATBtot_" ++ suffix; "COSP_ATBcross_" ++ suffix; "COSP_SR_" ++ suffix]%string else []).
Lemma stored_other o mask suffix s m tot crs sr x : ~ In x (names_of o mask suffix) ->
  assoc (dvars (stored o mask suffix s m tot crs sr)) x = assoc (dvars s) x.
Proof.
  unfold stored, names_of. intro H. destruct (c_atb o); simpl in H;
    rewrite !upd_other by (intro; subst; tauto); reflexivity.
Qed.
Definition tot_of o (S Ta : nat -> nat -> R) (B CR OD : nat -> nat -> nat -> R) i t k :=
  att_total (c_eta o) (S t k) (Ta t k) (B i t k) (CR i t k) (OD i t k).
Definition crs_of o (S Ta : nat -> nat -> R) (CR OD : nat -> nat -> nat -> R) i t k :=
  att_cross (c_eta o) (S t k) (Ta t k) (CR i t k) (OD i t k).
Definition sr_of o (S Ta : nat -> nat -> R) (B CR OD : nat -> nat -> nat -> R) i t k :=
  scat_ratio (S t k) (Ta t k) (tot_of o S Ta B CR OD i t k).
Lemma app_neq_len a b (x : string) : String.length a <> String.length b -> (a ++ x <> b ++ x)%string.
Proof. intros H E. apply (f_equal String.length) in E. rewrite !app_str_len in E. lia. Qed.
Lemma cosp_store_run e o mask suffix sig tau b cr od s S Ta B CR OD q0 Te :
  (forall x, mask <> ("COSP_ATB" ++ x)%string /\ mask <> ("COSP_SR_" ++ x)%string) ->
  var3 s "strat_q_subcolumns_cl" q0 -> real2 e s (t_name e) Te ->
  (forall t k, point e t k -> sig t k = XF (S t k) /\ tau t k = XF (Ta t k) /\ 0 < S t k /\ 0 < Ta t k) ->
  (forall i t k, cell e i t k -> b i t k = XF (B i t k) /\ cr i t k = XF (CR i t k) /\ od i t k = XF (OD i t k)) ->
  exists s', cosp_store e o mask suffix sig tau b cr od s = (Ok tt, s') /\
    (forall x, ~ In x (names_of o mask suffix) -> assoc (dvars s') x = assoc (dvars s) x) /\
    fields_ok e o mask suffix s' (sr_of o S Ta B CR OD) (tot_of o S Ta B CR OD) (crs_of o S Ta CR OD) Te.
Proof.
  intros Hmask Hq (te & Hte & Ete) Hst Hb. unfold cosp_store. cbv zeta.
  rewrite (bind_rd _ _ _ q0) by (apply g3_var; exact Hq). rewrite (bind_rd _ _ _ te) by (apply g2_var; exact Hte).
  rewrite bind_assign.
  set (tot := fun i t k => atb_tot (c_eta o) (sig t k) (tau t k) (b i t k) (cr i t k) (od i t k)).
  set (crs := fun i t k => atb_cross (c_eta o) (sig t k) (tau t k) (cr i t k) (od i t k)).
  set (sr := fun i t k => sr_cell (sig t k) (tau t k) (tot i t k)).
  assert (Etot : forall i t k, cell e i t k -> tot i t k = XF (tot_of o S Ta B CR OD i t k)).
  { intros i t k Hc. destruct (Hb i t k Hc) as (E1 & E2 & E3).
    destruct (Hst t k) as (E4 & E5 & _); [unfold cell, point in *; tauto|].
    unfold tot. rewrite E1, E2, E3, E4, E5. reflexivity. }
  assert (Ecrs : forall i t k, cell e i t k -> crs i t k = XF (crs_of o S Ta CR OD i t k)).
  { intros i t k Hc. destruct (Hb i t k Hc) as (E1 & E2 & E3).
    destruct (Hst t k) as (E4 & E5 & _); [unfold cell, point in *; tauto|].
    unfold crs. rewrite E2, E3, E4, E5. reflexivity. }
  assert (Esr : forall i t k, cell e i t k -> sr i t k = XF (sr_of o S Ta B CR OD i t k)).
  { intros i t k Hc. destruct (Hst t k) as (E4 & E5 & P1 & P2); [unfold cell, point in *; tauto|].
    unfold sr. rewrite Etot, E4, E5 by exact Hc. unfold sr_cell. cbn [xmul]. rewrite xdiv_fin; [reflexivity|].
    apply Rgt_not_eq. apply Rmult_lt_0_compat; [apply Rmult_lt_0_compat; [exact P1|lra]|exact P2]. }
  exists (stored o mask suffix s (cosp_mask e o sr tot crs te) tot crs sr). split; [|split].
  - unfold stored. destruct (c_atb o); [|reflexivity]. rewrite !bind_assign. reflexivity.
  - intros x Hx. apply stored_other. exact Hx.
  - split.
    + intro A. unfold stored. rewrite A. cbv zeta.
      split; [exists tot|split; [exists crs|exists sr]]; (split; [|assumption]); unfold var3.
      * rewrite upd_other by (simpl; discriminate). rewrite upd_other by (simpl; discriminate). apply upd_same.
      * rewrite upd_other by (simpl; discriminate). apply upd_same.
      * apply upd_same.
    + exists (cosp_mask e o sr tot crs te). split.
      * unfold stored, var3. destruct (c_atb o); [|apply upd_same]. destruct (Hmask suffix) as [_ N3].
        destruct (Hmask ("tot_" ++ suffix)%string) as [N1 _]. destruct (Hmask ("cross_" ++ suffix)%string) as [N2 _].
        rewrite upd_other by exact N3. rewrite upd_other by exact N2. rewrite upd_other by exact N1. apply upd_same.
      * intros i t k Hc. apply cosp_mask_spec; auto.
        { intros k' Hk'. apply Esr. unfold cell in *. tauto. }
        { apply Ete. unfold cell, point in *. tauto. }
Qed.

Lemma sum_over_app {A} (l1 l2 : list A) f : sum_over (l1 ++ l2) f = sum_over l1 f + sum_over l2 f.
Proof. induction l1 as [|x l IH]; [rewrite sum_over_nil; simpl; lra|]. cbn [app]. rewrite !sum_over_cons, IH. lra. Qed.
Lemma fields_ext e o mask suffix s' SR SR' TOT TOT' CR CR' T :
  (forall i t k, SR i t k = SR' i t k) -> (forall i t k, TOT i t k = TOT' i t k) -> (forall i t k, CR i t k = CR' i t k) ->
  fields_ok e o mask suffix s' SR TOT CR T -> fields_ok e o mask suffix s' SR' TOT' CR' T.
Proof.
  intros E1 E2 E3 (A & m & Hm & H). split.
  - intro X. destruct (A X) as ((a & Ha & Ea) & (b & Hb & Eb) & (c & Hc & Ec)).
    split; [exists a|split; [exists b|exists c]]; (split; [assumption|]); intros i t k Hcell.
    + rewrite <- E2. auto.
    + rewrite <- E3. auto.
    + rewrite <- E1. auto.
  - exists m. split; [exact Hm|]. intros i t k Hc. destruct (H i t k Hc) as (v & Ev & Hv). exists v. split; [exact Ev|].
    unfold cosp_class in *. cbv zeta in *. rewrite <- !E1, <- !E2, <- !E3.
    destruct Hv as [H1 H2]. split; [exact H1|]. intro X. destruct (H2 X) as (K1 & K2 & K3 & K4).
    assert (I : (exists k', (k' < nht e)%nat /\ nearer (c_sfc o) k' k /\ c_undef o < SR' i t k') <->
                (exists k', (k' < nht e)%nat /\ nearer (c_sfc o) k' k /\ c_undef o < SR i t k')).
    { split; intros (k' & P1 & P2 & P3); exists k'; rewrite E1 in *; auto. }
    rewrite I. auto.
Qed.
Lemma fields_carry e o mask suffix s1 s2 SR TOT CR T :
  (forall x, In x (mask :: ["COSP_ATBtot_" ++ suffix; "COSP_ATBcross_" ++ suffix; "COSP_SR_" ++ suffix]%string) ->
     assoc (dvars s2) x = assoc (dvars s1) x) ->
  fields_ok e o mask suffix s1 SR TOT CR T -> fields_ok e o mask suffix s2 SR TOT CR T.
Proof.
  intros E (A & m & Hm & H). split.
  - intro X. destruct (A X) as ((a & Ha & Ea) & (b & Hb & Eb) & (c & Hc & Ec)).
    split; [exists a|split; [exists b|exists c]]; (split; [|assumption]); unfold var3; rewrite E by (simpl; auto); assumption.
  - exists m. split; [|exact H]. unfold var3. rewrite E by (simpl; auto). exact Hm.
Qed.

Section Cosp.
  Context (e : menv) (o : copts) (hs : list string) (sig tau : arr2) (S Ta Te : nat -> nat -> R)
          (B O : bool -> string -> nat -> nat -> nat -> R).
  Hypothesis Hst : forall t k, point e t k -> sig t k = XF (S t k) /\ tau t k = XF (Ta t k) /\ 0 < S t k /\ 0 < Ta t k.
  Definition good (s : dset) : Prop :=
    (exists q0, var3 s "strat_q_subcolumns_cl" q0) /\ real2 e s (t_name e) Te /\
    forall c h, In c (cloud_types e) -> In h (cosp_liq o hs ++ cosp_ice o hs) ->
      numb e s (out "beta_p" h c) (B c h) /\ numb e s (out "OD" h c) (O c h).
  Definition acc_is (acc : arr3 * arr3 * arr3) (cls : list bool) : Prop :=
    forall i t k, cell e i t k ->
      fst (fst acc) i t k = XF (cosp_sum o hs B cls i t k) /\
      snd (fst acc) i t k = XF (cosp_cross o hs S Ta B O cls i t k) /\
      snd acc i t k = XF (cosp_sum o hs O cls i t k).
  Lemma acc_nil : acc_is (zeros3, zeros3, zeros3) [].
  Proof. intros i t k _. repeat split. Qed.

  Lemma cosp_type_run c acc cls s : good s -> In c (cloud_types e) -> acc_is acc cls ->
    exists s' acc', cosp_type e o hs sig tau c acc s = (Ok acc', s') /\ acc_is acc' (cls ++ [c]) /\
      (forall x, ~ In x (cosp_names o (cs c ++ "_COSP_phase_mask", cs c, [c])%string) -> assoc (dvars s') x = assoc (dvars s) x) /\
      fields_ok e o (cs c ++ "_COSP_phase_mask")%string (cs c) s'
        (cosp_sr o hs S Ta B O [c]) (cosp_tot o hs S Ta B O [c]) (cosp_crs o hs S Ta B O [c]) Te.
  Proof.
    intros ((q0 & Hq) & HTe & HBO) Hc Hacc. unfold cosp_type.
    destruct (cosp_group_run e c hs s (B c) (O c) (if c_precip o then ["cl"; "pl"]%string else ["cl"]%string)) as (l & El & Hl).
    { intros h Hh. apply HBO; [exact Hc|]. apply in_or_app. left. exact Hh. }
    destruct (cosp_group_run e c hs s (B c) (O c) (if c_precip o then ["ci"; "pi"]%string else ["ci"]%string)) as (ic & Ei & Hi).
    { intros h Hh. apply HBO; [exact Hc|]. apply in_or_app. right. exact Hh. }
    rewrite (bind_ok _ _ _ _ _ El), (bind_ok _ _ _ _ _ Ei). cbv zeta.
    fold (cosp_liq o hs) in Hl. fold (cosp_ice o hs) in Hi.
    set (b := lift2 xadd (fst l) (fst ic)). set (od := lift2 xadd (snd l) (snd ic)).
    match goal with |- context [lift2 xadd (fun i t k => cross_cell _ (c_liq o) _ _ _ _) ?y] =>
      set (cr := lift2 xadd (fun i t k => cross_cell (c_eta o) (c_liq o) (sig t k) (tau t k) (fst l i t k) (snd l i t k)) y) end.
    assert (Hb : forall i t k, cell e i t k -> b i t k = XF (cosp_sum o hs B [c] i t k) /\
      cr i t k = XF (cosp_cross o hs S Ta B O [c] i t k) /\ od i t k = XF (cosp_sum o hs O [c] i t k)).
    { intros i t k Hcell. destruct (Hl i t k Hcell) as [L1 L2]. destruct (Hi i t k Hcell) as [I1 I2].
      destruct (Hst t k) as (E1 & E2 & P1 & P2); [unfold cell, point in *; tauto|].
      unfold b, od, cr, lift2, cosp_sum, cosp_cross. rewrite L1, L2, I1, I2, E1, E2, !cross_cell_fin by exact P2.
      cbn [xadd]. rewrite !sum_over_cons, !sum_over_nil, !sum_over_app, !Rplus_0_r. auto. }
    destruct (cosp_store_run e o (cs c ++ "_COSP_phase_mask")%string (cs c) sig tau b cr od s S Ta (cosp_sum o hs B [c]) (cosp_cross o hs S Ta B O [c]) (cosp_sum o hs O [c]) q0 Te)
      as (s' & Es & Fs & Ok'); auto.
    { intro x. destruct c; split; discriminate. }
    rewrite (bind_ok _ _ _ _ _ Es). destruct acc as [[ba ca] oa].
    eexists s', _. split; [reflexivity|]. split; [|split].
    - intros i t k Hcell. destruct (Hacc i t k Hcell) as (A1 & A2 & A3). destruct (Hb i t k Hcell) as (B1 & B2 & B3).
      cbn [fst snd] in *. unfold lift2. rewrite A1, A2, A3, B1, B2, B3. cbn [xadd].
      unfold cosp_sum, cosp_cross. rewrite !sum_over_app. auto.
    - exact Fs.
    - exact Ok'.
  Qed.

  Lemma good_upd s s' p : good s -> In p (cosp_masks e) ->
    ~ In (t_name e) (cosp_names o p) ->
    (forall x, ~ In x (cosp_names o p) -> assoc (dvars s') x = assoc (dvars s) x) -> good s'.
  Proof.
    intros ((q0 & Hq) & (g & Hg & Eg) & HBO) Hp Nt F.
    assert (K : forall y, ~ In ("sub_col_" ++ y)%string (cosp_names o p) /\ ~ In "strat_q_subcolumns_cl"%string (cosp_names o p)).
    { intro y. unfold cosp_masks in Hp. apply in_app_or in Hp. unfold cosp_names.
      destruct Hp as [Hp|[<-|[]]].
      - apply in_map_iff in Hp. destruct Hp as (c & <- & _). cbn [fst snd].
        split; (intros [H|H]; [destruct c; discriminate|]); (destruct (c_atb o); [|destruct H]);
          destruct H as [H|[H|[H|[]]]]; discriminate.
      - cbn [fst snd]. split; (intros [H|H]; [discriminate|]); (destruct (c_atb o); [|destruct H]);
          destruct H as [H|[H|[H|[]]]]; discriminate. }
    split; [|split].
    - exists q0. unfold var3. rewrite F; [exact Hq|apply (K ""%string)].
    - exists g. split; [|exact Eg]. unfold var2. rewrite F; [exact Hg|exact Nt].
    - intros c h Hc Hh. destruct (HBO c h Hc Hh) as ((a & Ha & Ea) & (b & Hb & Eb)).
      split; [exists a|exists b]; (split; [|assumption]); unfold var3; (rewrite F; [assumption|]).
      + apply (proj1 (K ("beta_p_" ++ h ++ "_" ++ cs c)%string)).
      + apply (proj1 (K ("OD_" ++ h ++ "_" ++ cs c)%string)).
  Qed.
End Cosp.

Lemma cosp_run e ins o hs S Ta Te B O s b0 :
  i_str ins = "HSRL"%string -> classes_of e (c_hyds o) hs ->
  real2 e s "sigma_180_vol" S -> real2 e s "tau" Ta -> real2 e s (t_name e) Te ->
  (forall t k, point e t k -> 0 < S t k /\ 0 < Ta t k) ->
  var3 s "sub_col_beta_p_tot_strat" b0 -> (exists q0, var3 s "strat_q_subcolumns_cl" q0) ->
  (forall c h, In c (cloud_types e) -> In h (cosp_liq o hs ++ cosp_ice o hs) ->
      numb e s (out "beta_p" h c) (B c h) /\ numb e s (out "OD" h c) (O c h)) ->
  ~ In (t_name e) (flat_map (cosp_names o) (cosp_masks e)) ->
  exists s', lidar_emulate_cosp_phase e ins o s = (Ok tt, s') /\
    unchanged_except (flat_map (cosp_names o) (cosp_masks e)) s s' /\
    forall mask suffix cls, In (mask, suffix, cls) (cosp_masks e) ->
      fields_ok e o mask suffix s'
        (cosp_sr o hs S Ta B O cls) (cosp_tot o hs S Ta B O cls) (cosp_crs o hs S Ta B O cls) Te.
Proof.
  intros Hi Hh (sig & Hsig & Es) (tau & Htau & Et) HTe Hpos Hb0 Hq HBO HN.
  unfold lidar_emulate_cosp_phase.
  rewrite (bind_rd _ _ _ hs) by (apply set_hyd_ok; exact Hh).
  rewrite Hi. cbn [String.eqb Ascii.eqb Bool.eqb negb].
  rewrite (bind_rd _ _ _ sig) by (apply g2_var; exact Hsig). rewrite (bind_rd _ _ _ tau) by (apply g2_var; exact Htau).
  rewrite (bind_rd _ _ _ b0) by (apply g3_var; exact Hb0).
  assert (Hst : forall t k, point e t k -> sig t k = XF (S t k) /\ tau t k = XF (Ta t k) /\ 0 < S t k /\ 0 < Ta t k).
  { intros t k Hp. destruct (Hpos t k Hp). rewrite Es, Et by exact Hp. auto. }
  assert (G : good e o hs Te B O s) by (repeat split; auto; apply HBO; auto).
  assert (NT : forall p, In p (cosp_masks e) -> ~ In (t_name e) (cosp_names o p)).
  { intros p Hp H. apply HN. apply in_flat_map. eauto. }
  set (pc := ("conv_COSP_phase_mask", "conv", [true])%string). set (ps := ("strat_COSP_phase_mask", "strat", [false])%string).
  set (pa := ("COSP_phase_mask_all_hyd", "all_hyd", cloud_types e)%string).
  assert (Hf : In false (cloud_types e)) by (unfold cloud_types; destruct (p_conv e); simpl; auto).
  assert (E1 : exists s1 a1, (if p_conv e then cosp_type e o hs sig tau true (zeros3, zeros3, zeros3) else lret (zeros3, zeros3, zeros3)) s = (Ok a1, s1) /\
     acc_is e o hs S Ta B O a1 (if p_conv e then [true] else []) /\ good e o hs Te B O s1 /\
     (forall x, ~ In x (if p_conv e then cosp_names o pc else []) -> assoc (dvars s1) x = assoc (dvars s) x) /\
     (p_conv e = true -> fields_ok e o "conv_COSP_phase_mask" "conv" s1
        (cosp_sr o hs S Ta B O [true]) (cosp_tot o hs S Ta B O [true]) (cosp_crs o hs S Ta B O [true]) Te)).
  { destruct (p_conv e) eqn:Pc.
    - assert (Ht : In true (cloud_types e)) by (unfold cloud_types; rewrite Pc; simpl; auto).
      assert (Hpc : In pc (cosp_masks e)).
      { unfold cosp_masks, cloud_types. rewrite Pc. left. reflexivity. }
      destruct (cosp_type_run e o hs sig tau S Ta Te B O Hst true (zeros3, zeros3, zeros3) [] s G Ht (acc_nil _ _ _ _ _ _ _))
        as (s1 & a1 & R1 & A1 & F1 & K1).
      exists s1, a1. split; [exact R1|]. split; [exact A1|]. split.
      + apply (good_upd e o hs Te B O s s1 pc G Hpc (NT _ Hpc) F1).
      + split; [exact F1|]. intros _. exact K1.
    - exists s, (zeros3, zeros3, zeros3). split; [reflexivity|]. split; [apply acc_nil|]. split; [exact G|].
      split; [reflexivity|discriminate]. }
  destruct E1 as (s1 & a1 & R1 & A1 & G1 & F1 & K1). rewrite (bind_ok _ _ _ _ _ R1).
  destruct (cosp_type_run e o hs sig tau S Ta Te B O Hst false a1 _ s1 G1 Hf A1) as (s2 & a2 & R2 & A2 & F2 & K2).
  rewrite (bind_ok _ _ _ _ _ R2).
  assert (Hps : In ps (cosp_masks e)).
  { unfold cosp_masks, cloud_types. destruct (p_conv e); simpl; auto. }
  assert (Hpa : In pa (cosp_masks e)).
  { unfold cosp_masks. apply in_or_app. right. left. reflexivity. }
  assert (G2 : good e o hs Te B O s2) by (apply (good_upd e o hs Te B O s1 s2 ps G1 Hps (NT _ Hps) F2)).
  assert (Ecls : (if p_conv e then [true] else []) ++ [false] = cloud_types e) by (unfold cloud_types; destruct (p_conv e); reflexivity).
  rewrite Ecls in A2. destruct a2 as [[b cr] od].
  destruct G2 as ((q0 & Hq0) & HTe2 & HBO2).
  destruct (cosp_store_run e o "COSP_phase_mask_all_hyd" "all_hyd" sig tau b cr od s2 S Ta (cosp_sum o hs B (cloud_types e)) (cosp_cross o hs S Ta B O (cloud_types e)) (cosp_sum o hs O (cloud_types e)) q0 Te)
    as (s' & R3 & F3 & K3); auto.
  { intro x. split; discriminate. }
  exists s'. split; [exact R3|]. split.
  - intros x Hx.
    assert (NX : forall p, In p (cosp_masks e) -> ~ In x (cosp_names o p)).
    { intros p Hp H. apply Hx. apply in_flat_map. eauto. }
    rewrite F3 by (apply (NX pa Hpa)). rewrite F2 by (apply (NX ps Hps)). apply F1.
    destruct (p_conv e) eqn:Pc; [|auto]. apply (NX pc). unfold cosp_masks, cloud_types. rewrite Pc. left. reflexivity.
  - assert (C1 : forall SR TOT CR, fields_ok e o "strat_COSP_phase_mask" "strat" s2 SR TOT CR Te ->
                 fields_ok e o "strat_COSP_phase_mask" "strat" s' SR TOT CR Te).
    { intros SR TOT CR. apply fields_carry. intros x Hx. apply F3. unfold names_of. destruct (c_atb o);
      simpl in Hx; destruct Hx as [<-|[<-|[<-|[<-|[]]]]]; simpl; intuition discriminate. }
    assert (C2 : forall SR TOT CR, fields_ok e o "conv_COSP_phase_mask" "conv" s1 SR TOT CR Te ->
                 fields_ok e o "conv_COSP_phase_mask" "conv" s' SR TOT CR Te).
    { intros SR TOT CR. apply fields_carry. intros x Hx. rewrite F3; [apply F2|]; unfold names_of, cosp_names; destruct (c_atb o);
      simpl in Hx; destruct Hx as [<-|[<-|[<-|[<-|[]]]]]; simpl; intuition discriminate. }
    intros mask suffix cls Hin. unfold cosp_masks in Hin. apply in_app_or in Hin. destruct Hin as [Hin|[Hin|[]]].
    + apply in_map_iff in Hin. destruct Hin as (c & Ec & Hc). injection Ec as <- <- <-. destruct c; cbn [cs].
      * apply C2. apply K1. unfold cloud_types in Hc. destruct (p_conv e); [reflexivity|].
        destruct Hc as [Hc|[]]; discriminate.
      * apply C1. exact K2.
    + injection Hin as <- <- <-. exact K3.
Qed.
Lemma cosp_other e ins o hs s : classes_of e (c_hyds o) hs -> i_str ins <> "HSRL"%string ->
  lidar_emulate_cosp_phase e ins o s = (Raise ValueError, s).
Proof.
  intros Hh N. unfold lidar_emulate_cosp_phase. rewrite (bind_rd _ _ _ hs) by (apply set_hyd_ok; exact Hh).
  apply String.eqb_neq in N. rewrite N. reflexivity.
Qed.
(** The mask takes four values. *)
Lemma cosp_class_range o n SR tot cr T k v : cosp_class o n SR tot cr T k v -> (v <= 3)%nat.
Proof.
  unfold cosp_class. cbv zeta. intros [H0 H1]. destruct (Rlt_le_dec (c_cloud o) (SR k)) as [L|L]; [|rewrite H0 by exact L; lia].
  destruct (H1 L) as (K1 & K2 & K3 & K4).
  destruct (Classical_Prop.classic (exists k', (k' < n)%nat /\ nearer (c_sfc o) k' k /\ c_undef o < SR k')) as [Hb|Hb]; [rewrite K1 by exact Hb; lia|].
  destruct (Rlt_le_dec (T k) (23315/100)); [rewrite K2 by auto; lia|].
  destruct (Rlt_le_dec (27315/100) (T k)); [rewrite K3 by auto; lia|].
  destruct (K4 Hb) as [K5 K6]; [lra|].
  destruct (Rlt_le_dec (poly (c_curve o) (tot k * 1000) / 1000) (cr k)); [rewrite K5 by auto|rewrite K6 by auto]; lia.
Qed.

(** *** Clear air *)
Lemma sum_over_zero {A} (l : list A) f : (forall x, In x l -> f x = 0) -> sum_over l f = 0.
Proof. induction l as [|x l IH]; intro H; [reflexivity|]. rewrite sum_over_cons, IH, H by (simpl; auto; intros; apply H; simpl; auto). lra. Qed.
Lemma cosp_liq_in o hs h : In h (cosp_liq o hs) -> In h (cosp_liq o hs ++ cosp_ice o hs).
Proof. intro. apply in_or_app. auto. Qed.
Lemma cosp_ice_in o hs h : In h (cosp_ice o hs) -> In h (cosp_liq o hs ++ cosp_ice o hs).
Proof. intro. apply in_or_app. auto. Qed.
Lemma clear_air o hs S Ta B O cls i t k :
  c_liq o = cross_liq -> c_ice o = cross_ice -> 0 < S t k -> 0 < Ta t k ->
  (forall c h, In c cls -> In h (cosp_liq o hs ++ cosp_ice o hs) -> B c h i t k = 0 /\ O c h i t k = 0) ->
  cosp_sr o hs S Ta B O cls i t k =
    1 + INR (length cls) * (2994/10000 + 4099/10 * (S t k * Ta t k) - 2 * (mdep / (1 + mdep))) / (1 + mdep).
Proof.
  intros El Ei HS HT HZ.
  assert (E0 : forall F : bool -> string -> nat -> nat -> nat -> R, (forall c h, In c cls -> In h (cosp_liq o hs ++ cosp_ice o hs) -> F c h i t k = 0) ->
            cosp_sum o hs F cls i t k = 0).
  { intros F HF. unfold cosp_sum. apply sum_over_zero. intros c Hc. apply sum_over_zero. auto. }
  unfold cosp_sr, cosp_tot. rewrite !E0 by (intros; apply HZ; auto).
  assert (Ec : cosp_cross o hs S Ta B O cls i t k =
     INR (length cls) * (S t k * (2994/10000 + 4099/10 * (S t k * Ta t k) - 2 * (mdep / (1 + mdep))))).
  { unfold cosp_cross. clear E0. induction cls as [|c cls IH]; [rewrite sum_over_nil; simpl; lra|].
    rewrite sum_over_cons, IH by (intros; apply HZ; simpl; auto). cbn [length]. rewrite S_INR.
    rewrite (sum_over_zero (cosp_liq o hs) (fun h => B c h i t k)) by (intros h Hh; apply HZ; [left; auto|apply cosp_liq_in; auto]).
    rewrite (sum_over_zero (cosp_liq o hs) (fun h => O c h i t k)) by (intros h Hh; apply HZ; [left; auto|apply cosp_liq_in; auto]).
    rewrite (sum_over_zero (cosp_ice o hs) (fun h => B c h i t k)) by (intros h Hh; apply HZ; [left; auto|apply cosp_ice_in; auto]).
    rewrite (sum_over_zero (cosp_ice o hs) (fun h => O c h i t k)) by (intros h Hh; apply HZ; [left; auto|apply cosp_ice_in; auto]).
    rewrite El, Ei. unfold cross, poly, cross_liq, cross_ice. simpl. rewrite !Rmult_0_r, exp_0. field. unfold mdep. lra. }
  rewrite Ec. unfold scat_ratio, att_total. rewrite !Rmult_0_r, exp_0. unfold mdep. field. lra.
Qed.

Lemma clear_air_above : forall o hs S Ta B O cls i t k,
  c_liq o = cross_liq -> c_ice o = cross_ice -> 0 < S t k -> 0 < Ta t k ->
  (forall c h, In c cls -> In h (cosp_liq o hs ++ cosp_ice o hs) -> B c h i t k = 0 /\ O c h i t k = 0) ->
  1 + INR (length cls) * (2/10) <= cosp_sr o hs S Ta B O cls i t k.
Proof.
  intros. rewrite clear_air by assumption.
  apply Rplus_le_compat_l.
  assert (HP: 0 < S t k * Ta t k) by (apply Rmult_lt_0_compat; assumption).
  apply Rle_trans with (INR (length cls) * ((2994/10000 + 4099/10 * (S t k * Ta t k) - 2 * (mdep / (1 + mdep))) / (1 + mdep)));
    [|right; unfold Rdiv; ring].
  apply Rmult_le_compat_l; [apply pos_INR|].
  unfold mdep. set (x := S t k * Ta t k) in *. lra.
Qed.
