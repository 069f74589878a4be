(** [set_q_n] at the level of the model object. *)
From Verif Require Import Gen_Facts Strat_Api Precip_Api Strat_Corol QN_Spec QN_Proofs.
From Coq Require Import Lqa ZifyBool ZifyNat.
Local Open Scope nat_scope.

(** The fraction used for a cell. *)
Definition eff (rad : bool) (thr q f : Q) : Q := if rad then frac_where thr q f else f.

Lemma precip_frac_val m is_conv rad thr T H h f q :
  field m (frac_dict m is_conv rad) h f -> shape2 T H f ->
  field m (q_dict m is_conv) h q -> shape2 T H q ->
  exists g, precip_frac (nm m) is_conv rad thr h m = (Ok g, m) /\ shape2 T H g /\
    forall t j, t < T -> j < H -> at2 0%Q g t j = eff rad thr (at2 0%Q q t j) (at2 0%Q f t j).
Proof.
  intros Hf Hfs Hq Hqs. unfold precip_frac. destruct rad.
  - assert (Hf' : field m (if is_conv then frac_conv_rad (nm m) else frac_strat_rad (nm m)) h f)
      by (destruct is_conv; exact Hf).
    assert (Hq' : field m (if is_conv then q_conv (nm m) else q_strat (nm m)) h q)
      by (destruct is_conv; exact Hq).
    cbv zeta. rewrite (bind_field _ _ _ _ _ Hf'), (bind_field _ _ _ _ _ Hq').
    destruct (grid2_ok (frac_where thr) T H q f Hqs Hfs) as (g & E & Sg & V).
    exists g. unfold lift. rewrite E. split; [reflexivity|]. split; [exact Sg|].
    intros t j Ht Hj. rewrite (V t j 0%Q 0%Q) by assumption. reflexivity.
  - assert (Hf' : field m (if is_conv then frac_conv (nm m) else frac_strat (nm m)) h f)
      by (destruct is_conv; exact Hf).
    cbv zeta. destruct (get_field _ _ _ _ Hf') as (n & E1 & E2). rewrite E1, bind_ret, E2.
    exists f. split; [reflexivity|]. split; [exact Hfs|]. reflexivity.
Qed.

Lemma spread_n_ok n fl v : length fl = n -> spread_n n fl v = Ok (spread fl v).
Proof. intro H. unfold spread_n. rewrite H, Nat.eqb_refl. reflexivity. Qed.

Section Ready.
Context (m : mdl) (is_conv rad : bool) (N T H : nat) (h : string) (f q nf : list (list Q))
        (fl : list (list (list bool))).
Hypothesis Hr : qn_ready m is_conv rad N T H h f q nf fl.

(** The part of [set_q_n] after the inputs have been read. *)
Definition qn_tail (is_conv qc_flag : bool) (sch : sched) (thr : Q) perm (gam : gdraws) (n : nat)
    (frac : list (list Q)) (nprof : list (list xq)) (nsub : list (list (list xq)))
    (q : list (list Q)) (fl : list (list (list bool))) : M unit :=
    if Nat.eqb n 1 then
      act qv <- lift (grid2 (fun q f => [q_incloud thr q f]) q frac);
      act _ <- assign (kind is_conv ++ "_q_subcolumns_" ++ h) 1 (length qv) (VSub qv);
      if is_conv then ret tt
      else assign (kind is_conv ++ "_n_subcolumns_" ++ h) 1 (length nprof)
                  (VSub (map (map (fun x => [x])) nprof))
    else
      act qv <-
        (if qc_flag then
           act mean <- lift (grid2 (fun q f => nan0 (q_incloud thr q f)) q frac);
           act order <- lift (qn_order sch (length frac));
           act cols <- lift (run_columns order (fun tt =>
                         do f <- nth_res fl tt; do mn <- nth_res mean tt;
                         distribute_col n f mn (perm tt) (gam tt)));
           act cols <- lift (np_stack cols);
           ret (map (map (map nan0)) cols)
         else
           act qc <- lift (grid2 (q_incloud thr) q frac);
           lift (map2m (map2m (spread_n n)) fl qc));
      act _ <- assign (kind is_conv ++ "_q_subcolumns_" ++ h) n (length qv) (VSub qv);
      if is_conv then ret tt
      else assign (kind is_conv ++ "_n_subcolumns_" ++ h) n (length nsub) (VSub nsub).

Lemma qn_prefix thr :
  exists frac nprof nsub,
    (forall qc sch perm gam, set_q_n h is_conv qc rad sch thr perm gam m =
      qn_tail is_conv (if rad || is_conv then false else qc) sch thr perm gam N frac nprof nsub q fl m) /\
    shape2 T H frac /\
    (forall t j, t < T -> j < H -> at2 0%Q frac t j = eff rad thr (at2 0%Q q t j) (at2 0%Q f t j)) /\
    (is_conv = false -> shape2 T H nprof /\ shape3 T H N nsub /\
      forall t j, t < T -> j < H ->
        at2 NaN nprof t j = xdiv (Fin (at2 0%Q nf t j)) (Fin (at2 0%Q frac t j)) /\
        at2 [] nsub t j = spread (at2 [] fl t j) (at2 NaN nprof t j)).
Proof.
  destruct Hr as (HN & HT & Hnt & Hd & Hf & Hfs & Hq & Hqs & Hn & Hfl & Hfls).
  assert (Hq' : field m (if is_conv then q_conv (nm m) else q_strat (nm m)) h q)
    by (destruct is_conv; exact Hq).
  destruct (precip_frac_val m is_conv rad thr T H h f q Hf Hfs Hq Hqs) as (frac & Ef & Sf & Vf).
  assert (En : num_sub m = N) by (unfold num_sub; rewrite Hd; reflexivity).
  assert (Hpre : forall qc sch perm gam, exists K, set_q_n h is_conv qc rad sch thr perm gam m = K m frac m /\ K = 
     fun m frac =>
    act nprof <-
      (if is_conv then ret []
       else
         act nn <- get_name (n_field (nm m)) h;
         act nfield <- get_grid nn;
         lift (grid2 (fun a f => xdiv (Fin a) (Fin f)) nfield frac));
    act fl <- get_flag (kind is_conv ++ "_frac_subcolumns_" ++ h);
    act nsub <-
      (if is_conv then ret []
       else lift (map2m (map2m (spread_n N)) fl nprof));
    act qn <- get_name (if is_conv then q_conv (nm m) else q_strat (nm m)) h;
    act q <- get_grid qn;
    qn_tail is_conv (if rad || is_conv then false else qc) sch thr perm gam N frac nprof nsub q fl).
  { intros qc sch perm gam. eexists. split; [|reflexivity].
    unfold set_q_n. rewrite bind_get, En. cbv zeta. destruct (Nat.eqb_spec N 0); [lia|].
    unfold mbind at 1. rewrite Ef. reflexivity. }
  destruct is_conv.
  - exists frac, [], []. split; [|split; [exact Sf|]; split; [exact Vf|discriminate]].
    intros qc sch perm gam. destruct (Hpre qc sch perm gam) as (K & -> & ->). rewrite bind_ret.
    rewrite (bind_flags m _ fl) by exact Hfl. rewrite bind_ret.
    rewrite (bind_field _ _ _ _ _ Hq'). reflexivity.
  - destruct (Hn eq_refl) as [Hnf Hns].
    destruct (grid2_ok (fun a f => xdiv (Fin a) (Fin f)) T H nf frac Hns Sf) as (nprof & E & Sn & Vn).
    destruct (map2m_shape (spread_n N) (fun a b c => length a = N -> c = spread a b) T H fl nprof) as (nsub & E2 & Sn2 & Vn2).
    + apply Hfls.
    + exact Sn.
    + intros t j da db Ht Hj. eexists. split.
      * rewrite spread_n_ok; [reflexivity|].
        pose proof (shape3_cell T H N fl t j Hfls Ht Hj) as L. unfold at2 in *.
        rewrite (nth_indep _ da []); [exact L|]. rewrite (shape2_row T H) by (apply Hfls || assumption). exact Hj.
      * intros _. reflexivity.
    + exists frac, nprof, nsub. split.
      { intros qc sch perm gam. destruct (Hpre qc sch perm gam) as (K & -> & ->).
      destruct (get_field _ _ _ _ Hnf) as (nn & En1 & En2).
      rewrite bind_assoc, En1, bind_ret, bind_assoc. unfold mbind at 1. rewrite En2. rewrite (bind_lift _ _ _ _ E).
      rewrite (bind_flags m _ fl) by exact Hfl. rewrite (bind_lift _ _ _ _ E2).
      rewrite (bind_field _ _ _ _ _ Hq'). reflexivity. }
      split; [exact Sf|]. split; [exact Vf|]. intros _. split; [exact Sn|].
      assert (V : forall t j, t < T -> j < H ->
        at2 NaN nprof t j = xdiv (Fin (at2 0%Q nf t j)) (Fin (at2 0%Q frac t j)) /\
        at2 [] nsub t j = spread (at2 [] fl t j) (at2 NaN nprof t j)).
      { intros t j Ht Hj. split; [apply (Vn t j 0%Q 0%Q NaN); assumption|].
        apply (Vn2 t j [] NaN []); try assumption. apply (shape3_cell T H N); assumption. }
      split; [|exact V]. apply shape3_intro; [exact Sn2|]. intros t j Ht Hj.
      destruct (V t j Ht Hj) as [_ ->]. unfold spread. rewrite map_length. apply (shape3_cell T H N); assumption.
Qed.
End Ready.

(** Length of the values of an in-cloud computation over the cells. *)
Lemma q_incloud_spec thr q f : in_cloud thr q f (nan0 (q_incloud thr q f)).
Proof.
  unfold q_incloud, in_cloud. destruct (above_thr thr q) eqn:E.
  - apply above_thr_iff in E. split; [intro X; lra|]. split.
    + intros _ Hf. rewrite xdiv_fin by exact Hf. simpl. reflexivity.
    + intros _ Hq Hf. unfold xdiv. apply Qeq_bool_iff in Hf. rewrite Hf. unfold sign_inf.
      destruct (Qcompare_spec q 0) as [X|X|X]; try lra. simpl. exact I.
  - apply above_thr_false in E. split; [intros _; simpl; reflexivity|]. split; intro X; lra.
Qed.

Lemma eff_in_cloud rad thr q f : nan0 (q_incloud thr q (eff rad thr q f)) = nan0 (q_incloud thr q f).
Proof.
  unfold eff, q_incloud, frac_where. destruct rad; [|reflexivity].
  destruct (above_thr thr q); reflexivity.
Qed.

Lemma eff_in_cloud' rad thr q f : q_incloud thr q (eff rad thr q f) = q_incloud thr q f.
Proof.
  unfold eff, q_incloud, frac_where. destruct rad; [|reflexivity].
  destruct (above_thr thr q); reflexivity.
Qed.

Lemma n_spec rad thr q f n : in_cloud_n rad thr q f n (nan0 (xdiv (Fin n) (Fin (eff rad thr q f)))).
Proof.
  unfold in_cloud_n. cbv zeta.
  assert (Hz : (eff rad thr q f == 0)%Q <-> (rad = true /\ (q <= thr)%Q) \/ (f == 0)%Q).
  { unfold eff, frac_where. destruct rad.
    - destruct (above_thr thr q) eqn:E.
      + apply above_thr_iff in E. split; [tauto|]. intros [[_ X]|X]; [lra|exact X].
      + apply above_thr_false in E. split; [tauto|reflexivity].
    - split; [tauto|]. intros [[X _]|X]; [discriminate|exact X]. }
  assert (Hv : ~ (eff rad thr q f == 0)%Q -> eff rad thr q f = f).
  { unfold eff, frac_where. destruct rad; [|reflexivity]. destruct (above_thr thr q); [reflexivity|]. intro X; exfalso; apply X; reflexivity. }
  split; [|split].
  - intro Hn. rewrite xdiv_fin by (rewrite Hz; exact Hn). rewrite Hv by (rewrite Hz; exact Hn). simpl. reflexivity.
  - intros Hn H0. apply Hz in Hn. unfold xdiv. apply Qeq_bool_iff in Hn. rewrite Hn. unfold sign_inf.
    destruct (Qcompare_spec n 0) as [X|X|X]; try lra. simpl. reflexivity.
  - intros Hn H0. apply Hz in Hn. unfold xdiv. apply Qeq_bool_iff in Hn. rewrite Hn. unfold sign_inf.
    destruct (Qcompare_spec n 0) as [X|X|X]; try lra. simpl. exact I.
Qed.

Lemma nth_spread fl v i d : i < length fl -> nth i (spread fl v) d = if nth i fl false then nan0 v else Fin 0.
Proof.
  revert i; induction fl as [|b fl IH]; intros [|i] Hi; simpl in *; try lia.
  - destruct b; reflexivity.
  - apply IH. lia.
Qed.

Lemma q_n_differ c h : q_out c h <> n_out h.
Proof. unfold q_out, n_out. destruct c; simpl; discriminate. Qed.

(** Storing the two outputs. *)
Lemma store_qn m is_conv h N (qv nv : list (list (list xq))) (nlen : nat) :
  dim_sub m = Some N -> length qv = ntime m -> (is_conv = false -> nlen = ntime m) ->
  exists m', (act _ <- assign (kind is_conv ++ "_q_subcolumns_" ++ h) N (length qv) (VSub qv);
              if is_conv then ret tt else assign (kind is_conv ++ "_n_subcolumns_" ++ h) N nlen (VSub nv)) m
             = (Ok tt, m') /\
    dim_sub m' = Some N /\ unchanged_except (if is_conv then [q_out is_conv h] else [q_out is_conv h; n_out h]) m m' /\
    values m' (q_out is_conv h) qv /\ (is_conv = false -> values m' (n_out h) nv).
Proof.
  intros Hd Hq Hn. unfold mbind. rewrite assign_ok; [|left; exact Hd|exact Hq].
  destruct is_conv.
  - eexists. split; [reflexivity|]. split; [reflexivity|]. split.
    { do 3 (split; [reflexivity|]). intros x Hx. simpl. apply assoc_put_other. intros ->. apply Hx; left; reflexivity. }
    split; [|discriminate]. unfold values. simpl. apply assoc_put_same.
  - rewrite assign_ok; [|left; reflexivity|apply Hn; reflexivity].
    eexists. split; [reflexivity|]. split; [reflexivity|]. split.
    { do 3 (split; [reflexivity|]). intros x Hx. simpl.
      rewrite assoc_put_other by (intros ->; apply Hx; right; left; reflexivity).
      apply assoc_put_other. intros ->. apply Hx; left; reflexivity. }
    split.
    + unfold values. simpl. rewrite assoc_put_other by discriminate. apply assoc_put_same.
    + intros _. unfold values. simpl. apply assoc_put_same.
Qed.

Definition outputs (is_conv : bool) (h : string) : list string :=
  if is_conv then [q_out is_conv h] else [q_out is_conv h; n_out h].

(** ** Uniform distribution *)
Lemma set_q_n_uniform m is_conv rad qc sch thr perm gam N T H h f q nf fl :
  qn_ready m is_conv rad N T H h f q nf fl -> 2 <= N ->
  (qc = false \/ rad = true \/ is_conv = true) ->
  exists m' qv, set_q_n h is_conv qc rad sch thr perm gam m = (Ok tt, m') /\ dim_sub m' = Some N /\
    unchanged_except (outputs is_conv h) m m' /\ values m' (q_out is_conv h) qv /\ shape3 T H N qv /\
    (forall t j, t < T -> j < H ->
       at2 [] qv t j = spread (at2 [] fl t j) (q_incloud thr (at2 0%Q q t j) (at2 0%Q f t j))) /\
    (is_conv = false -> exists nv, values m' (n_out h) nv /\ shape3 T H N nv /\
       forall t j, t < T -> j < H -> at2 [] nv t j =
         spread (at2 [] fl t j) (xdiv (Fin (at2 0%Q nf t j)) (Fin (eff rad thr (at2 0%Q q t j) (at2 0%Q f t j))))).
Proof.
  intros Hr HN Hu. pose proof (qn_prefix m is_conv rad N T H h f q nf fl Hr thr) as P.
  destruct P as (frac & nprof & nsub & EP & Sf & Vf & Hn). rewrite EP; clear EP.
  destruct Hr as (_ & HT & Hnt & Hd & _ & _ & _ & Hqs & _ & _ & Hfls).
  assert (E : (if rad || is_conv then false else qc) = false).
  { destruct rad, is_conv; simpl; try reflexivity. destruct Hu as [->|[X|X]]; [reflexivity|discriminate|discriminate]. }
  rewrite E. unfold qn_tail. destruct (Nat.eqb_spec N 1); [lia|].
  destruct (grid2_ok (q_incloud thr) T H q frac Hqs Sf) as (qc' & Eq & Sq & Vq).
  destruct (map2m_shape (spread_n N) (fun a b c => length a = N -> c = spread a b) T H fl qc') as (qv & E2 & S2 & V2).
  { apply Hfls. } { exact Sq. }
  { intros t j da db Ht Hj. eexists. split; [|intros _; reflexivity].
    rewrite spread_n_ok; [reflexivity|].
    pose proof (shape3_cell T H N fl t j Hfls Ht Hj) as L. unfold at2 in *.
    rewrite (nth_indep _ da []); [exact L|]. rewrite (shape2_row T H) by (apply Hfls || assumption). exact Hj. }
  rewrite bind_assoc, (bind_lift _ _ _ _ Eq), (bind_lift _ _ _ _ E2).
  destruct (store_qn m is_conv h N qv nsub (length nsub) Hd) as (m' & Em & D & U & Vq' & Vn').
  { destruct S2; congruence. }
  { intro X. destruct (Hn X) as (_ & [[L _] _] & _). congruence. }
  exists m', qv. split; [exact Em|]. split; [exact D|]. split; [exact U|]. split; [exact Vq'|].
  assert (V : forall t j, t < T -> j < H ->
       at2 [] qv t j = spread (at2 [] fl t j) (q_incloud thr (at2 0%Q q t j) (at2 0%Q f t j))).
  { intros t j Ht Hj. rewrite (V2 t j [] NaN []) by (try assumption; apply (shape3_cell T H N); assumption).
    rewrite (Vq t j 0%Q 0%Q NaN) by assumption. rewrite Vf by assumption. rewrite eff_in_cloud'. reflexivity. }
  split. { apply shape3_intro; [exact S2|]. intros t j Ht Hj. rewrite V by assumption. unfold spread.
    rewrite map_length. apply (shape3_cell T H N); assumption. }
  split; [exact V|]. intro X. destruct (Hn X) as (_ & S3 & V3). exists nsub. split; [apply Vn', X|]. split; [exact S3|].
  intros t j Ht Hj. destruct (V3 t j Ht Hj) as [A ->]. rewrite A, Vf by assumption. reflexivity.
Qed.

(** ** One subcolumn *)
Lemma set_q_n_single m is_conv rad qc sch thr perm gam T H h f q nf fl :
  qn_ready m is_conv rad 1 T H h f q nf fl ->
  exists m' qv, set_q_n h is_conv qc rad sch thr perm gam m = (Ok tt, m') /\ dim_sub m' = Some 1 /\
    unchanged_except (outputs is_conv h) m m' /\ values m' (q_out is_conv h) qv /\ shape3 T H 1 qv /\
    (forall t j, t < T -> j < H -> at2 [] qv t j = [q_incloud thr (at2 0%Q q t j) (at2 0%Q f t j)]) /\
    (is_conv = false -> exists nv, values m' (n_out h) nv /\ shape3 T H 1 nv /\
       forall t j, t < T -> j < H -> at2 [] nv t j =
         [xdiv (Fin (at2 0%Q nf t j)) (Fin (eff rad thr (at2 0%Q q t j) (at2 0%Q f t j)))]).
Proof.
  intros Hr. pose proof (qn_prefix m is_conv rad 1 T H h f q nf fl Hr thr) as P.
  destruct P as (frac & nprof & nsub & EP & Sf & Vf & Hn). rewrite EP; clear EP.
  destruct Hr as (_ & HT & Hnt & Hd & _ & _ & _ & Hqs & _ & _ & Hfls).
  unfold qn_tail. rewrite (Nat.eqb_refl 1).
  destruct (grid2_ok (fun q f => [q_incloud thr q f]) T H q frac Hqs Sf) as (qv & Eq & Sq & Vq).
  rewrite (bind_lift _ _ _ _ Eq).
  destruct (store_qn m is_conv h 1 qv (map (map (fun x => [x])) nprof) (length nprof) Hd) as (m' & Em & D & U & Vq' & Vn').
  { destruct Sq; congruence. }
  { intro X. destruct (Hn X) as ([L _] & _ & _). congruence. }
  exists m', qv. split; [exact Em|]. split; [exact D|]. split; [exact U|]. split; [exact Vq'|].
  assert (V : forall t j, t < T -> j < H -> at2 [] qv t j = [q_incloud thr (at2 0%Q q t j) (at2 0%Q f t j)]).
  { intros t j Ht Hj. rewrite (Vq t j 0%Q 0%Q []) by assumption. rewrite Vf by assumption. rewrite eff_in_cloud'. reflexivity. }
  split. { apply shape3_intro; [exact Sq|]. intros t j Ht Hj. rewrite V by assumption. reflexivity. }
  split; [exact V|]. intro X. destruct (Hn X) as (Sn & _ & V3).
  exists (map (map (fun x => [x])) nprof). split; [apply Vn', X|].
  assert (W : forall t j, t < T -> j < H -> at2 [] (map (map (fun x : xq => [x])) nprof) t j =
         [xdiv (Fin (at2 0%Q nf t j)) (Fin (eff rad thr (at2 0%Q q t j) (at2 0%Q f t j)))]).
  { intros t j Ht Hj. rewrite (at2_map _ _ T H t j NaN) by assumption.
    destruct (V3 t j Ht Hj) as [-> _]. rewrite Vf by assumption. reflexivity. }
  split; [|exact W]. apply shape3_intro; [apply shape2_map, Sn|]. intros t j Ht Hj. rewrite W by assumption. reflexivity.
Qed.

(** ** Variable distribution *)

Lemma mapM_hang {A B} (g : A -> res B) l x : In x l ->
  (forall y, In y l -> (exists z, g y = Ok z) \/ g y = Raise Hang) -> g x = Raise Hang -> mapM g l = Raise Hang.
Proof.
  induction l as [|a l IH]; intros Hin Hall Hx; [contradiction|]. simpl.
  destruct (Hall a (or_introl eq_refl)) as [[z E]|E]; rewrite E; simpl; [|reflexivity].
  destruct Hin as [->|Hin]; [congruence|]. rewrite IH; auto. intros y Hy; apply Hall; right; exact Hy.
Qed.

Definition pos_mean (thr q f : Q) : Q := if above_thr thr q then (q / f)%Q else 0%Q.

Lemma combine_seq_map {A} (l : list A) d k : combine (seq k (length l)) l = map (fun i => (k + i, nth i l d)) (seq 0 (length l)).
Proof.
  revert k; induction l as [|x l IH]; intro k; [reflexivity|].
  cbn [length seq combine map]. f_equal; [f_equal; lia|]. rewrite (IH (S k)).
  rewrite <- seq_shift, map_map. apply map_ext. intro i. cbn [nth]. f_equal. lia.
Qed.

(** One column. *)
Lemma distribute_col_ok N H fls means perm gam :
  length fls = H -> length means = H -> (forall j, j < H -> length (nth j fls []) = N) ->
  (forall j n, is_perm (perm j n) n) ->
  (forall j, j < H -> exists gs, gam j = map Fin gs /\ length gs = occ (nth j fls []) /\ forall x, In x gs -> (0 <= x)%Q) ->
  (forall j, j < H -> 1 <= occ (nth j fls []) -> exists mq, nth j means NaN = Fin mq /\ (0 <= mq)%Q) ->
  (forall j, j < H -> 2 <= occ (nth j fls []) -> exists mq, nth j means NaN = Fin mq /\ (0 < mq)%Q) ->
  exists col, distribute_col N fls means perm gam = Ok col /\ length col = H /\
    forall j, j < H -> exists qs, nth j col [] = map Fin qs /\ length qs = N /\
      (forall mq, nth j means NaN = Fin mq -> (qsum qs == mq * inject (occ (nth j fls [])))%Q) /\
      (occ (nth j fls []) = 0 -> (qsum qs == 0)%Q) /\
      (forall i, (0 <= nth i qs 0)%Q) /\ (forall i, ~ flagged (nth j fls []) i -> nth i qs 0%Q = 0%Q).
Proof.
  intros Hl Hm HN Hp Hg H1 H2. unfold distribute_col.
  destruct (map2r_ok pair fls means) as (t & Et & Lt & Vt); [congruence|]. rewrite Et. cbn [bind].
  rewrite (combine_seq_map t ([], NaN)), mapM_map.
  destruct (mapM_seq (fun x => distribute_level N (fst (snd (0 + x, nth x t ([], NaN)))) (snd (snd (0 + x, nth x t ([], NaN)))) (perm (fst (0 + x, nth x t ([], NaN)))) (gam (fst (0 + x, nth x t ([], NaN)))))
    (fun j c => exists qs, c = map Fin qs /\ length qs = N /\
      (forall mq, nth j means NaN = Fin mq -> (qsum qs == mq * inject (occ (nth j fls [])))%Q) /\
      (occ (nth j fls []) = 0 -> (qsum qs == 0)%Q) /\
      (forall i, (0 <= nth i qs 0)%Q) /\ (forall i, ~ flagged (nth j fls []) i -> nth i qs 0%Q = 0%Q)) 0 (length t)) as (col & Ec & Lc & Vc).
  - intros j Hj. assert (Hj' : j < H) by lia. cbn [fst snd]. rewrite (Vt j [] NaN) by lia. cbn [fst snd]. change (0 + j) with j.
    destruct (Hg j Hj') as (gs & -> & Lg & Pg).
    destruct (Nat.eq_dec (occ (nth j fls [])) 0) as [E0|E0].
    + exists (map Fin (repeat 0%Q N)). split.
      { unfold distribute_level. rewrite length_argwhere, E0. simpl. rewrite map_fin_repeat. reflexivity. }
      exists (repeat 0%Q N). split; [reflexivity|]. split; [apply repeat_length|].
      split. { intros mq _. rewrite qsum_zero, E0. change (inject 0) with 0%Q. ring. }
      split; [intros _; apply qsum_zero|]. split; intros; rewrite nth_zero; [lra|reflexivity].
    + destruct (H1 j Hj') as (mq & Em & Pm); [lia|]. rewrite Em.
      destruct (distribute_level_ok N (nth j fls []) mq (perm j) gs) as (qs & E & L & Sm & P & Z); auto.
      { intro X. destruct (H2 j Hj' X) as (mq' & Em' & Pm'). congruence. }
      exists (map Fin qs). split; [exact E|]. exists qs. split; [reflexivity|]. split; [exact L|].
      split. { intros mq' E'. injection E' as <-. exact Sm. }
      split; [intro X; lia|]. split; assumption.
  - exists col. split; [exact Ec|]. split; [lia|]. intros j Hj. apply (Vc j []). lia.
Qed.

Lemma distribute_col_hang N H fls means perm gam j0 :
  length fls = H -> length means = H -> (forall j, j < H -> length (nth j fls []) = N) ->
  (forall j n, is_perm (perm j n) n) ->
  (forall j, j < H -> exists gs, gam j = map Fin gs /\ length gs = occ (nth j fls []) /\ forall x, In x gs -> (0 <= x)%Q) ->
  (forall j, j < H -> 1 <= occ (nth j fls []) -> exists mq, nth j means NaN = Fin mq /\ (0 <= mq)%Q) ->
  j0 < H -> 2 <= occ (nth j0 fls []) -> (exists mq, nth j0 means NaN = Fin mq /\ (mq == 0)%Q) ->
  distribute_col N fls means perm gam = Raise Hang.
Proof.
  intros Hl Hm HN Hp Hg H1 Hj0 Ho (mq0 & Em0 & Pm0). unfold distribute_col.
  destruct (map2r_ok pair fls means) as (t & Et & Lt & Vt); [congruence|]. rewrite Et. cbn [bind].
  rewrite (combine_seq_map t ([], NaN)), mapM_map.
  apply (mapM_hang _ _ j0).
  - apply in_seq. lia.
  - intros j Hj. apply in_seq in Hj. assert (Hj' : j < H) by lia. cbn [fst snd]. rewrite (Vt j [] NaN) by lia. cbn [fst snd]. change (0 + j) with j.
    destruct (Hg j Hj') as (gs & -> & Lg & Pg).
    destruct (Nat.eq_dec (occ (nth j fls [])) 0) as [E0|E0].
    + left. unfold distribute_level. rewrite length_argwhere, E0. simpl. eexists; reflexivity.
    + destruct (H1 j Hj') as (mq & Em & Pm); [lia|]. rewrite Em.
      destruct (le_lt_dec 2 (occ (nth j fls []))) as [G|G].
      * destruct (Qlt_le_dec 0 mq) as [Q1|Q1].
        -- left. destruct (distribute_level_ok N (nth j fls []) mq (perm j) gs) as (qs & E & _); auto. eexists; exact E.
        -- right. apply distribute_level_hang; auto. lra.
      * left. destruct (distribute_level_ok N (nth j fls []) mq (perm j) gs) as (qs & E & _); auto; [lia|]. eexists; exact E.
  - cbn [fst snd]. rewrite (Vt j0 [] NaN) by lia. cbn [fst snd]. change (0 + j0) with j0.
    destruct (Hg j0 Hj0) as (gs & -> & Lg & Pg). rewrite Em0. apply distribute_level_hang; auto.
Qed.

(** The state after the two outputs have been stored is determined by them. *)
Lemma mean_fin rad thr q f fl i : (0 <= thr)%Q -> ((0 < f)%Q) -> flagged fl i ->
  exists mq, nan0 (q_incloud thr q (eff rad thr q f)) = Fin mq /\ (mq == pos_mean thr q f)%Q /\ (0 <= mq)%Q /\
    ((thr < q)%Q -> (0 < mq)%Q) /\ ((q <= thr)%Q -> (mq == 0)%Q).
Proof.
  intros Ht Hf _. rewrite eff_in_cloud. unfold q_incloud, pos_mean. destruct (above_thr thr q) eqn:E.
  - apply above_thr_iff in E. rewrite xdiv_fin by lra. exists (q / f)%Q. split; [reflexivity|]. split; [reflexivity|].
    assert (0 < q / f)%Q by (apply Qlt_shift_div_l; lra). split; [lra|]. split; [auto|]. intro; lra.
  - apply above_thr_false in E. exists 0%Q. split; [reflexivity|]. split; [reflexivity|]. split; [lra|]. split; [intro; lra|reflexivity].
Qed.

Lemma occ_flagged fl : 1 <= occ fl -> exists i, flagged fl i.
Proof.
  intro Ho. rewrite <- length_argwhere in Ho. destruct (argwhere fl) as [|i l] eqn:E; [simpl in Ho; lia|].
  exists i. apply in_argwhere. rewrite E. left; reflexivity.
Qed.

Section Variable_dist.
Context (m : mdl) (N T H : nat) (h : string) (f q nf : list (list Q))
        (fl : list (list (list bool))) (thr : Q) (perm : nat -> nat -> nat -> list nat) (gam : gdraws).
Hypothesis Hr : qn_ready m false false N T H h f q nf fl.
Hypothesis HN : 2 <= N.
Hypothesis Hp : perms_ok perm.
Hypothesis Hg : gammas_ok T H fl gam.
Hypothesis Hf : present_where_fraction T H f fl.
Hypothesis Ht : (0 <= thr)%Q.

(** A cell for which the search never ends. *)
Definition stuck (t j : nat) : Prop := t < T /\ j < H /\ 2 <= occ (at2 [] fl t j) /\ (at2 0%Q q t j <= thr)%Q.

Definition good_row (t : nat) (col : list (list xq)) : Prop :=
  length col = H /\ forall j, j < H -> exists qs, nth j col [] = map Fin qs /\ length qs = N /\
      (qsum qs == pos_mean thr (at2 0%Q q t j) (at2 0%Q f t j) * inject (occ (at2 [] fl t j)))%Q /\
      (forall i, (0 <= nth i qs 0)%Q) /\ (forall i, ~ flagged (at2 [] fl t j) i -> nth i qs 0%Q = 0%Q).

Lemma map_nan0_fin qs : map nan0 (map Fin qs) = map Fin qs.
Proof. rewrite map_map. apply map_ext. reflexivity. Qed.

Lemma variable_columns : exists frac nprof nsub colf,
  (forall sch, set_q_n h false true false sch thr perm gam m =
     qn_tail h false true sch thr perm gam N frac nprof nsub q fl m) /\
  length frac = T /\ shape3 T H N nsub /\
  (forall t, t < T -> (forall j, ~ stuck t j) -> exists c, colf t = Ok c /\ good_row t c /\ map (map nan0) c = c) /\
  (forall t j, stuck t j -> colf t = Raise Hang) /\
  (forall sch, qn_tail h false true sch thr perm gam N frac nprof nsub q fl m =
     (act order <- lift (qn_order sch T);
      act cols <- lift (run_columns order colf);
      act cols <- lift (np_stack cols);
      act _ <- assign (q_out false h) N (length (map (map (map nan0)) cols)) (VSub (map (map (map nan0)) cols));
      assign (n_out h) N (length nsub) (VSub nsub)) m) /\
  (forall t j, t < T -> j < H -> at2 [] nsub t j = spread (at2 [] fl t j) (xdiv (Fin (at2 0%Q nf t j)) (Fin (at2 0%Q f t j)))).
Proof.
  pose proof (qn_prefix m false false N T H h f q nf fl Hr thr) as P.
  destruct P as (frac & nprof & nsub & EP & Sf & Vf & Hn).
  destruct Hr as (_ & HT & Hnt & Hd & _ & _ & _ & Hqs & _ & _ & Hfls).
  destruct (Hn eq_refl) as (Sn & Sn3 & Vn).
  destruct (grid2_ok (fun q f => nan0 (q_incloud thr q f)) T H q frac Hqs Sf) as (mean & Em & Sm & Vm).
  exists frac, nprof, nsub, (fun tt => do f <- nth_res fl tt; do mn <- nth_res mean tt; distribute_col N f mn (perm tt) (gam tt)).
  split; [intro sch; exact (EP true sch perm gam)|]. split; [apply Sf|]. split; [exact Sn3|].
  assert (Hcell : forall t j, t < T -> j < H -> 1 <= occ (nth j (nth t fl []) []) ->
     exists mq, nth j (nth t mean []) NaN = Fin mq /\ (mq == pos_mean thr (at2 0%Q q t j) (at2 0%Q f t j))%Q /\ (0 <= mq)%Q /\
       ((thr < at2 0%Q q t j)%Q -> (0 < mq)%Q) /\ ((at2 0%Q q t j <= thr)%Q -> (mq == 0)%Q)).
  { intros t j Ht' Hj Ho. destruct (occ_flagged _ Ho) as (i & Hi).
    change (nth j (nth t mean []) NaN) with (at2 NaN mean t j).
    rewrite (Vm t j 0%Q 0%Q NaN) by assumption. rewrite Vf by assumption.
    eapply mean_fin; [exact Ht| |exact Hi]. apply (Hf t j i Ht' Hj Hi). }
  assert (Lfl : forall t, t < T -> length (nth t fl []) = H) by (intros; apply (shape2_row T H); [apply Hfls|assumption]).
  assert (Lme : forall t, t < T -> length (nth t mean []) = H) by (intros; apply (shape2_row T H); assumption).
  assert (LN : forall t, t < T -> forall j, j < H -> length (nth j (nth t fl []) []) = N)
    by (intros; apply (shape3_cell T H N fl); assumption).
  assert (HgT : forall t, t < T -> forall j, j < H -> exists gs, gam t j = map Fin gs /\ length gs = occ (nth j (nth t fl []) []) /\ forall x, In x gs -> (0 <= x)%Q).
  { intros t Ht' j Hj. apply (Hg t j Ht' Hj). }
  assert (Hcol : forall t, t < T -> (do f <- nth_res fl t; do mn <- nth_res mean t; distribute_col N f mn (perm t) (gam t))
                 = distribute_col N (nth t fl []) (nth t mean []) (perm t) (gam t)).
  { intros t Ht'. rewrite (nth_res_ok fl t []) by (destruct Hfls as [[L _] _]; lia).
    rewrite (nth_res_ok mean t []) by (destruct Sm; lia). reflexivity. }
  split; [|split; [|split]].
  - intros t Ht' Hns. rewrite Hcol by exact Ht'.
    destruct (distribute_col_ok N H (nth t fl []) (nth t mean []) (perm t) (gam t)) as (c & Ec & Lc & Vc); [auto|auto|auto|intros j n; apply Hp|auto| | |].
    + intros j Hj Ho. destruct (Hcell t j Ht' Hj Ho) as (mq & A & _ & B & _). eauto.
    + intros j Hj Ho. destruct (Hcell t j Ht' Hj) as (mq & A & _ & _ & B & _); [lia|]. exists mq. split; [exact A|].
      apply B. apply Qnot_le_lt. intro X. apply (Hns j). unfold stuck. auto.
    + exists c. split; [exact Ec|]. split.
      * split; [exact Lc|]. intros j Hj. destruct (Vc j Hj) as (qs & A & L & Sm1 & Sm0 & B & C).
        exists qs. split; [exact A|]. split; [exact L|]. split; [|split; assumption].
        change (at2 [] fl t j) with (nth j (nth t fl []) []).
        destruct (Nat.eq_dec (occ (nth j (nth t fl []) [])) 0) as [E0|E0].
        -- rewrite (Sm0 E0), E0. change (inject 0) with 0%Q. ring.
        -- destruct (Hcell t j Ht' Hj) as (mq & M1 & M2 & _); [lia|]. rewrite (Sm1 mq M1), M2. reflexivity.
      * rewrite <- (map_id c) at 2. apply map_ext_in. intros x Hx. destruct (In_nth _ _ [] Hx) as (j & Hj & <-).
        destruct (Vc j ltac:(lia)) as (qs & -> & _). apply map_nan0_fin.
  - intros t j (Ht' & Hj & Ho & Hq'). rewrite Hcol by exact Ht'.
    eapply distribute_col_hang with (H := H) (j0 := j); [auto|auto|auto|intros j1 n; apply Hp|auto| |auto|auto|].
    + intros j1 Hj1 Ho1. destruct (Hcell t j1 Ht' Hj1 Ho1) as (mq & A & _ & B & _). eauto.
    + destruct (Hcell t j Ht' Hj) as (mq & A & _ & _ & _ & B); [unfold at2 in Ho; lia|]. exists mq. split; [exact A|apply B, Hq'].
  - intro sch. unfold qn_tail. destruct (Nat.eqb_spec N 1); [lia|].
    rewrite !bind_assoc. rewrite (bind_lift _ _ _ _ Em). replace (length frac) with T by (symmetry; apply Sf).
    unfold mbind, lift. destruct (qn_order sch T) as [o|e]; [|reflexivity].
    destruct (run_columns o _) as [cols|e]; [|reflexivity]. destruct (np_stack cols); reflexivity.
  - intros t j Ht' Hj. destruct (Vn t j Ht' Hj) as [A ->]. rewrite A, Vf by assumption. reflexivity.
Qed.

Lemma run_columns_nat (g : nat -> res (list (list xq))) ts : run_columns (map Z.of_nat ts) g = mapM g ts.
Proof.
  unfold run_columns. rewrite mapM_map. apply mapM_ext. intro x.
  destruct (Z.ltb_spec (Z.of_nat x) 0); [lia|]. rewrite Nat2Z.id. reflexivity.
Qed.

Lemma mapM_all {A B} (g : A -> res B) (R : A -> B -> Prop) l :
  (forall x, In x l -> exists y, g x = Ok y /\ R x y) -> exists ys, mapM g l = Ok ys /\ Forall2 R l ys /\ mapM g l = Ok ys.
Proof.
  induction l as [|x l IH]; intro Hall; simpl.
  - exists []. split; [reflexivity|]. split; [constructor|reflexivity].
  - destruct (Hall x (or_introl eq_refl)) as (y & E & Rxy). destruct IH as (ys & E2 & F & _); [intros; apply Hall; right; assumption|].
    rewrite E, E2. simpl. exists (y :: ys). split; [reflexivity|]. split; [constructor; assumption|reflexivity].
Qed.

(** There is one column of values per time, whatever the schedule: the result
    of a schedule that processes the times [ts] in turn. *)
Lemma set_q_n_variable : exists colv : nat -> list (list xq),
  (forall t, t < T -> (forall j, ~ stuck t j) -> good_row t (colv t)) /\
  exists nv, shape3 T H N nv /\
  (forall t j, t < T -> j < H -> at2 [] nv t j = spread (at2 [] fl t j) (xdiv (Fin (at2 0%Q nf t j)) (Fin (at2 0%Q f t j)))) /\
  forall sch ts, qn_order sch T = Ok (map Z.of_nat ts) -> ts <> [] -> (forall t, In t ts -> t < T) ->
    ((exists t j, In t ts /\ stuck t j) -> set_q_n h false true false sch thr perm gam m = (Raise Hang, m)) /\
    ((forall t j, In t ts -> ~ stuck t j) ->
       (length ts <> T -> set_q_n h false true false sch thr perm gam m = (Raise ValueError, m)) /\
       (length ts = T -> exists m', set_q_n h false true false sch thr perm gam m = (Ok tt, m') /\
          dim_sub m' = Some N /\ unchanged_except (outputs false h) m m' /\
          values m' (q_out false h) (map colv ts) /\ values m' (n_out h) nv)).
Proof.
  destruct variable_columns as (frac & nprof & nsub & colf & E1 & Lf & Sn & Cok & Chang & E2 & Vn).
  exists (fun t => match colf t with Ok c => c | Raise _ => [] end). split.
  { intros t Ht' Hns. destruct (Cok t Ht' Hns) as (c & -> & G & _). exact G. }
  exists nsub. split; [exact Sn|]. split; [exact Vn|].
  intros sch ts Ho Hne Hts. rewrite E1, E2. rewrite (bind_lift _ _ _ _ Ho).
  rewrite run_columns_nat.
  assert (Hall : forall t, In t ts -> (exists z, colf t = Ok z) \/ colf t = Raise Hang).
  { intros t Hin.
    assert (Dec : (exists j, stuck t j) \/ forall j, ~ stuck t j).
    { assert (D : forall k, (exists j, j < k /\ stuck t j) \/ forall j, j < k -> ~ stuck t j).
      { induction k as [|k [IH|IH]]; [right; intros; lia|left; destruct IH as (j & A & B); exists j; split; [lia|exact B]|].
        assert (Dk : stuck t k \/ ~ stuck t k).
        { unfold stuck. destruct (lt_dec t T); [|right; tauto]. destruct (lt_dec k H); [|right; tauto].
          destruct (le_dec 2 (occ (at2 [] fl t k))); [|right; tauto].
          destruct (Qlt_le_dec thr (at2 0%Q q t k)) as [X|X]; [right; intros (_ & _ & _ & Y); lra|left; tauto]. }
        destruct Dk as [Dk|Dk]; [left; exists k; split; [lia|exact Dk]|].
        right. intros j Hj. destruct (Nat.eq_dec j k) as [->|]; [exact Dk|]. apply IH. lia. }
      destruct (D H) as [(j & _ & X)|X]; [left; eauto|]. right. intros j Hj. apply (X j); [apply Hj|exact Hj]. }
    destruct Dec as [(j & X)|X]; [right; eapply Chang; exact X|].
    left. destruct (Cok t (Hts t Hin) X) as (c & E & _). eauto. }
  split.
  - intros (t & j & Hin & Hst). unfold mbind at 1, lift at 1. rewrite (mapM_hang colf ts t Hin Hall); [reflexivity|]. eapply Chang; exact Hst.
  - intro Hns.
    assert (Hok : exists cols, mapM colf ts = Ok cols /\ map (map (map nan0)) cols = map (fun t => match colf t with Ok c => c | Raise _ => [] end) ts).
    { clear E1 E2 Ho Hne Hall. induction ts as [|t ts IH]; [exists []; split; reflexivity|].
      destruct IH as (cols & Ec & Em). { intros; apply Hts; right; assumption. } { intros; apply Hns; right; assumption. }
      destruct (Cok t (Hts t (or_introl eq_refl)) (fun j => Hns t j (or_introl eq_refl))) as (c & E & _ & Z).
      exists (c :: cols). simpl. rewrite E, Ec. cbn [bind]. split; [reflexivity|]. rewrite Z, Em. reflexivity. }
    destruct Hok as (cols & Ec & Em). rewrite (bind_lift _ _ _ _ Ec).
    assert (Lc : length (map (map (map nan0)) cols) = length ts) by (rewrite Em; apply map_length).
    assert (Hst : np_stack cols = Ok cols).
    { destruct cols; [|reflexivity]. rewrite map_length in Lc. destruct ts; [congruence|discriminate]. }
    rewrite (bind_lift _ _ _ _ Hst), Em.
    destruct Hr as (_ & HT & Hnt & Hd & _). split.
    + intro HL. unfold mbind, assign. rewrite Hd, Nat.eqb_refl. rewrite map_length, Hnt.
      destruct (Nat.eqb_spec (length ts) T); [contradiction|]. reflexivity.
    + intro HL. set (qv := map (fun t => match colf t with Ok c => c | Raise _ => [] end) ts) in *.
      destruct (store_qn m false h N qv nsub (length nsub) Hd) as (m' & E & D & U & V1 & V2).
      { unfold qv. rewrite map_length. congruence. } { intros _. destruct Sn as [[L _] _]. congruence. }
      exists m'. split; [exact E|]. split; [exact D|]. split; [exact U|]. split; [exact V1|]. apply V2; reflexivity.
Qed.
End Variable_dist.

(** ** Order of the columns *)
Lemma qn_order_plain s T : s = Serial \/ s = Parallel None -> qn_order s T = Ok (map Z.of_nat (seq 0 T)).
Proof.
  intros [->| ->]; simpl; f_equal; change 0%Z with (Z.of_nat 0); replace T with (0 + T) at 1 by lia; apply arange_nat.
Qed.

(** Time index that lands at position [p] of a chunked run over [T] times. *)
Definition chunk_src (T c p : nat) : nat :=
  match p with 0 => T - 1 | S p' => T - 1 - (p' / c + 1) * c + p' mod c end.

Lemma qn_blocks fuel T c j : 1 <= c -> j < T -> j < fuel ->
  (j + c <= T) ->
  qn_loop fuel (Z.of_nat T) (Z.of_nat c) (Z.of_nat j) =
    Ok (map Z.of_nat (map (fun p => j - (p / c) * c + p mod c) (seq 0 (c * (j / c + 1))))).
Proof.
  intro Hc. revert j; induction fuel as [|fuel IH]; intros j Hj Hf Hjc; [lia|]. cbn [qn_loop].
  destruct (Z.geb_spec (Z.of_nat j) 0) as [_|X]; [|lia].
  replace (if (Z.of_nat j + Z.of_nat c >? Z.of_nat T)%Z then Z.of_nat T else (Z.of_nat j + Z.of_nat c)%Z)
    with (Z.of_nat (j + c)) by (destruct (Z.gtb_spec (Z.of_nat j + Z.of_nat c) (Z.of_nat T)); lia).
  assert (Hfirst : arange (Z.of_nat j) (Z.of_nat (j + c)) = map Z.of_nat (map (fun p => j - (p / c) * c + p mod c) (seq 0 c))).
  { rewrite arange_nat. f_equal. rewrite <- (map_id (seq j c)).
    replace (seq j c) with (map (fun x => j + x) (seq 0 c)).
    2:{ clear. revert j. induction c as [|c IH]; intro j; [reflexivity|]. simpl. f_equal; [lia|].
        rewrite <- (IH (S j)). rewrite <- seq_shift, map_map. apply map_ext. intro; lia. }
    rewrite map_map. apply map_ext_in. intros p Hp. apply in_seq in Hp.
    rewrite Nat.div_small, Nat.mod_small by lia. lia. }
  destruct (le_lt_dec c j) as [Hcj|Hcj].
  - replace (Z.of_nat j - Z.of_nat c)%Z with (Z.of_nat (j - c)) by lia. rewrite IH by lia. cbn [bind]. f_equal.
    rewrite Hfirst, <- !map_app. f_equal.
    assert (Hd : j / c = (j - c) / c + 1).
    { replace j with ((j - c) + 1 * c) at 1 by lia. rewrite Nat.div_add by lia. lia. }
    replace (c * (j / c + 1)) with (c + c * ((j - c) / c + 1)) by lia. rewrite seq_app, map_app. f_equal.
    set (L := c * ((j - c) / c + 1)). rewrite Nat.add_0_l.
    replace (seq c L) with (map (fun x => x + 1 * c) (seq 0 L)).
    2:{ assert (G : forall l a, map (fun x => x + 1 * c) (seq a l) = seq (a + c) l).
        { clear. induction l as [|l IHl]; intro b; simpl; [reflexivity|]. f_equal; [lia|]. apply (IHl (S b)). }
        apply (G L 0). }
    rewrite map_map. apply map_ext_in. intros p Hp. rewrite Nat.div_add, Nat.mod_add by lia.
    assert (p / c * c <= j - c).
    { apply in_seq in Hp. unfold L in Hp. assert (p / c < (j - c) / c + 1) by (apply Nat.div_lt_upper_bound; lia).
      assert (p / c * c <= (j - c) / c * c) by (apply Nat.mul_le_mono_r; lia).
      pose proof (Nat.mul_div_le (j - c) c ltac:(lia)). lia. }
    lia.
  - destruct fuel as [|fuel]; cbn [qn_loop]; (destruct (Z.geb_spec (Z.of_nat j - Z.of_nat c) 0); [lia|]); cbn [bind];
      rewrite app_nil_r, Hfirst, Nat.div_small, Nat.mul_1_r by lia; reflexivity.
Qed.

Lemma qn_order_chunk T c : 1 <= T -> 1 <= c ->
  qn_order (Parallel (Some (Z.of_nat c))) T =
    Ok (map Z.of_nat (map (chunk_src T c) (seq 0 (1 + c * ((T - 1) / c))))).
Proof.
  intros HT Hc. cbn [qn_order]. destruct T as [|T']; [lia|]. cbn [qn_loop].
  replace (Z.of_nat (S T') - 1)%Z with (Z.of_nat T') by lia.
  destruct (Z.geb_spec (Z.of_nat T') 0) as [_|X]; [|lia].
  replace (if (Z.of_nat T' + Z.of_nat c >? Z.of_nat (S T'))%Z then Z.of_nat (S T') else (Z.of_nat T' + Z.of_nat c)%Z)
    with (Z.of_nat (T' + 1)) by (destruct (Z.gtb_spec (Z.of_nat T' + Z.of_nat c) (Z.of_nat (S T'))); lia).
  rewrite arange_nat. replace (S T' - 1) with T' by lia.
  cbn [Nat.add seq map]. unfold chunk_src at 1. replace (S T' - 1) with T' by lia.
  destruct (le_lt_dec c T') as [Hcj|Hcj].
  - replace (Z.of_nat T' - Z.of_nat c)%Z with (Z.of_nat (T' - c)) by lia. rewrite qn_blocks by lia. cbn [bind]. f_equal.
    cbn [app]. f_equal. f_equal.
    assert (Hd : T' / c = (T' - c) / c + 1).
    { replace T' with ((T' - c) + 1 * c) at 1 by lia. rewrite Nat.div_add by lia. lia. }
    rewrite Hd. rewrite <- seq_shift, map_map. apply map_ext_in. intros p Hp. unfold chunk_src.
    replace (S T' - 1) with T' by lia.
    assert (p / c * c <= T' - c).
    { apply in_seq in Hp. assert (p / c < (T' - c) / c + 1) by (apply Nat.div_lt_upper_bound; lia).
      assert (p / c * c <= (T' - c) / c * c) by (apply Nat.mul_le_mono_r; lia).
      pose proof (Nat.mul_div_le (T' - c) c ltac:(lia)). lia. }
    lia.
  - rewrite Nat.div_small, Nat.mul_0_r by lia. simpl seq. cbn [map].
    assert (E : forall n, qn_loop n (Z.of_nat (S T')) (Z.of_nat c) (Z.of_nat T' - Z.of_nat c) = Ok []).
    { intro n. destruct n; cbn [qn_loop]; (destruct (Z.geb_spec (Z.of_nat T' - Z.of_nat c) 0); [lia|reflexivity]). }
    rewrite E. reflexivity.
Qed.
