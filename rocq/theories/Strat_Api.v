(** Evaluation of [set_stratiform] (model in [Gen_Model]). *)
From Verif Require Import Gen_Facts Conv_Proofs Strat_Spec Strat_Proofs Strat_Level.
From Coq Require Import Lqa ZifyBool ZifyNat.
Local Open Scope nat_scope.

Lemma zipb_ok f a b : length a = length b ->
  exists c, zipb f a b = Ok c /\ length c = length a /\
    forall i, i < length a -> nth i c false = f (nth i a false) (nth i b false).
Proof.
  revert b; induction a as [|x a IH]; intros [|y b] H; simpl in *; try discriminate.
  - exists []; split; [reflexivity|]; split; [reflexivity|]. intros; lia.
  - destruct (IH b) as (c & E & L & P); [congruence|]. rewrite E; simpl.
    eexists; split; [reflexivity|]; split; [simpl; congruence|].
    intros [|i] Hi; [reflexivity|]. apply P; lia.
Qed.

Lemma map2m_shape {A B C} (f : A -> B -> res C) (R : A -> B -> C -> Prop) T H a b :
  shape2 T H a -> shape2 T H b ->
  (forall t j da db, t < T -> j < H -> exists c, f (at2 da a t j) (at2 db b t j) = Ok c /\ R (at2 da a t j) (at2 db b t j) c) ->
  exists c, map2m (map2m f) a b = Ok c /\ shape2 T H c /\
    forall t j da db dc, t < T -> j < H -> R (at2 da a t j) (at2 db b t j) (at2 dc c t j).
Proof.
  intros Ha Hb Hf.
  destruct (map2m_ok (map2m f) (fun x y z => length z = length x /\
     forall i da db dc, i < length x -> R (nth i x da) (nth i y db) (nth i z dc)) a b) as (c & E & Hl & Hc).
  - destruct Ha, Hb; congruence.
  - intros t da db Ht. rewrite (nth_indep a da []), (nth_indep b db []) by (destruct Ha, Hb; lia).
    assert (Ht' : t < T) by (destruct Ha; lia).
    destruct (map2m_ok f R (nth t a []) (nth t b [])) as (z & E & L & P).
    + rewrite (shape2_row T H), (shape2_row T H) by assumption. reflexivity.
    + intros j da' db' Hj. rewrite (shape2_row T H) in Hj by assumption. apply (Hf t j da' db' Ht' Hj).
    + exists z; auto.
  - exists c. split; [exact E|].
    assert (Hc' : forall t, t < T -> length (nth t c []) = H /\
              forall i da db dc, i < H -> R (nth i (nth t a []) da) (nth i (nth t b []) db) (nth i (nth t c []) dc)).
    { intros t Ht. destruct (Hc t [] [] []) as [L P]; [destruct Ha; lia|].
      rewrite (shape2_row T H) in * by assumption. auto. }
    split.
    + apply shape2_intro; [destruct Ha; lia|]. intros t Ht; apply Hc', Ht.
    + intros t j da db dc Ht Hj. apply Hc'; assumption.
Qed.

Lemma flags_or_ok T H N a b : shape3 T H N a -> shape3 T H N b ->
  exists c, flags_or a b = Ok c /\ shape3 T H N c /\
    forall t j i, t < T -> j < H -> (flagged (at2 [] c t j) i <-> flagged (at2 [] a t j) i \/ flagged (at2 [] b t j) i).
Proof.
  intros Ha Hb.
  destruct (map2m_shape (zipb orb) (fun x y z => length x = N -> length y = N -> length z = N /\ forall i, flagged z i <-> flagged x i \/ flagged y i) T H a b)
    as (c & E & Hs & P); try apply Ha; try apply Hb.
  - intros t j da db Ht Hj.
    assert (Ea : at2 da a t j = at2 [] a t j) by (apply nth_indep; rewrite (shape2_row T H); [exact Hj|apply Ha|exact Ht]).
    assert (Eb : at2 db b t j = at2 [] b t j) by (apply nth_indep; rewrite (shape2_row T H); [exact Hj|apply Hb|exact Ht]).
    rewrite Ea, Eb.
    pose proof (shape3_cell T H N a t j Ha Ht Hj) as La. pose proof (shape3_cell T H N b t j Hb Ht Hj) as Lb.
    destruct (zipb_ok orb (at2 [] a t j) (at2 [] b t j)) as (z & E & L & Q); [congruence|].
    exists z; split; [exact E|]. intros _ _. split; [congruence|]. intro i. unfold flagged.
    destruct (le_lt_dec N i) as [Hi|Hi].
    + rewrite !nth_overflow by lia. intuition discriminate.
    + rewrite Q by lia. apply orb_true_iff.
  - exists c. split; [exact E|].
    assert (P' : forall t j, t < T -> j < H -> length (at2 [] c t j) = N /\
       forall i, flagged (at2 [] c t j) i <-> flagged (at2 [] a t j) i \/ flagged (at2 [] b t j) i).
    { intros t j Ht Hj. apply P; try assumption; apply (shape3_cell T H N); assumption. }
    split; [apply shape3_intro; [exact Hs|intros; apply P'; assumption]|]. intros t j i Ht Hj. apply P'; assumption.
Qed.

Lemma roll1_nth {A} (l : list A) i d : S i < length l -> nth i (roll1 l) d = nth (S i) l d.
Proof. destruct l as [|x l]; simpl; intro H; [lia|]. rewrite app_nth1 by lia. reflexivity. Qed.

Lemma length_roll1 {A} (l : list A) : length (roll1 l) = length l.
Proof. destruct l; simpl; [reflexivity|]. rewrite app_length; simpl; lia. Qed.

Lemma strat_ovl_ok cs : exists o, strat_ovl cs = Ok o /\ length o = length cs /\
  forall j, S j < length cs -> nth j o false = strat_cloudy (nth j cs (0, 0)%Z) && strat_cloudy (nth (S j) cs (0, 0)%Z).
Proof.
  unfold strat_ovl. destruct (zipb_ok andb (map strat_cloudy cs) (roll1 (map strat_cloudy cs))) as (o & E & L & P).
  - rewrite length_roll1; reflexivity.
  - exists o. split; [exact E|]. rewrite map_length in *. split; [exact L|].
    intros j Hj. rewrite P by lia. rewrite roll1_nth by (rewrite map_length; lia).
    change false with (strat_cloudy (0, 0)%Z). rewrite !map_nth. reflexivity.
Qed.

Lemma mk_slevels_ok cs convs ovl : length convs = length cs -> length ovl = length cs ->
  exists ls, mk_slevels cs convs ovl = Ok ls /\ length ls = length cs /\
    forall j, j < length cs -> nth j ls dummy = {| s_c := nth j cs (0, 0)%Z; s_conv := nth j convs []; s_ovl := nth j ovl false |}.
Proof.
  revert convs ovl; induction cs as [|c cs IH]; intros convs ovl H1 H2.
  - exists []. split; [destruct convs, ovl; reflexivity|]. split; [reflexivity|]. simpl; intros; lia.
  - destruct convs as [|cv convs], ovl as [|o ovl]; try discriminate. simpl.
    destruct (IH convs ovl) as (ls & E & L & P); [simpl in *; lia..|]. rewrite E; simpl.
    eexists; split; [reflexivity|]. split; [simpl; congruence|].
    intros [|j] Hj; [reflexivity|]. apply P; simpl in Hj; lia.
Qed.

Lemma not_cloudy c : (0 <= fst c)%Z -> (0 <= snd c)%Z -> strat_cloudy c = false -> c = (0, 0)%Z.
Proof. destruct c as [a b]; unfold strat_cloudy; simpl; intros. f_equal; lia. Qed.

(** One column through [strat_col]. *)
Lemma strat_col_ok N cs convs perm : 1 <= N ->
  (forall k site n, is_perm (perm k site n) n) ->
  length convs = length cs ->
  (forall j, j < length cs -> (0 <= fst (nth j cs (0, 0)%Z) <= Z.of_nat N)%Z /\ (0 <= snd (nth j cs (0, 0)%Z) <= Z.of_nat N)%Z) ->
  (forall j, j < length cs -> length (nth j convs []) = N) ->
  exists p, strat_col N cs convs perm = Ok p /\ length p = length cs /\
    (forall j, (S j = length cs) -> nth j p (blank N) = blank N) /\
    (forall j, (S j < length cs) ->
       level_ok N (nth j cs (0, 0)%Z) (nth j convs []) (nth (S j) p (blank N)) (nth j p (blank N))).
Proof.
  intros HN Hp Hl Hc Hcv. unfold strat_col.
  destruct (strat_ovl_ok cs) as (o & Eo & Lo & Po). rewrite Eo. cbn [bind].
  destruct (mk_slevels_ok cs convs o Hl Lo) as (ls & El & Ll & Pl). rewrite El. cbn [bind].
  destruct (column_ok N perm HN Hp ls) as (p & Ep & Lp & Top & Lev).
  - intros l Hin. destruct (In_nth _ _ dummy Hin) as (j & Hj & <-). rewrite Ll in Hj. rewrite Pl by exact Hj.
    unfold input_ok; simpl. destruct (Hc j Hj) as [A B]. split; [exact A|]. split; [exact B|]. apply Hcv, Hj.
  - intros j Hj. rewrite Ll in Hj. rewrite !Pl by lia. simpl. intro Ho. rewrite Po in Ho by exact Hj.
    apply andb_false_iff in Ho as [Ho|Ho]; [left|right]; apply not_cloudy; try exact Ho; apply Hc; lia.
  - rewrite Ep. cbn [bind]. exists p. split; [reflexivity|]. split; [congruence|]. split.
    + intros j Hj. apply Top. congruence.
    + intros j Hj. assert (Hj' : S j < length ls) by congruence. specialize (Lev j Hj').
      rewrite Pl in Lev by lia. exact Lev.
Qed.

Lemma nth_res_ok {A} (l : list A) i d : i < length l -> nth_res l i = Ok (nth i l d).
Proof. intro H. unfold nth_res. rewrite (nth_error_nth' l d H). reflexivity. Qed.

(** Reading the fraction of a type through the two logics. *)
Lemma frac_of_ok {B} m hs rad thr T H F Qv h (k : list (list Q) -> M B) :
  strat_fracs m hs rad T H F Qv -> In h hs ->
  exists g, (forall m2, ds m2 = ds m ->
    mbind (if rad then
            act fname <- get_name (frac_strat_rad (nm m)) h;
            act f <- get_grid fname;
            act qn <- get_name (q_strat (nm m)) h;
            act q <- get_grid qn;
            lift (grid2 (frac_where thr) q f)
          else
            act fname <- get_name (frac_strat (nm m)) h;
            get_grid fname) k m2 = k g m2) /\ shape2 T H g /\
   (forall N t j, t < T -> j < H ->
      (0 <= count_of N (at2 0%Q g t j) <= Z.of_nat N)%Z /\
      requested rad thr (at2 0%Q (Qv h) t j) (at2 0%Q (F h) t j) N (count_of N (at2 0%Q g t j))).
Proof.
  intros Hfr Hh. destruct (Hfr h Hh) as (Hf & Hs & Hp & Hq). unfold strat_frac_dict in Hf. destruct rad.
  - destruct (Hq eq_refl) as (Hqf & Hqs).
    destruct (grid2_ok (frac_where thr) T H (Qv h) (F h) Hqs Hs) as (g & Eg & Sg & Pg).
    exists g. split; [|split; [exact Sg|]].
    + intros m2 D.
      assert (Hf2 : field m2 (frac_strat_rad (nm m)) h (F h)) by (destruct Hf as (x & A & B0); exists x; rewrite D; auto).
      assert (Hq2 : field m2 (q_strat (nm m)) h (Qv h)) by (destruct Hqf as (x & A & B0); exists x; rewrite D; auto).
      rewrite bind_assoc. destruct (get_field _ _ _ _ Hf2) as (n1 & E1 & E2). rewrite E1, bind_ret, bind_assoc.
      unfold mbind at 1. rewrite E2. rewrite bind_assoc.
      destruct (get_field _ _ _ _ Hq2) as (n2 & E3 & E4). rewrite E3, bind_ret, bind_assoc.
      unfold mbind at 1. rewrite E4. apply bind_lift, Eg.
    + intros N t j Ht Hj. rewrite (Pg t j 0%Q 0%Q) by assumption. split; [|apply count_requested_rad].
      unfold frac_where. pose proof (proportions_at T H _ 0%Q t j Hs Hp Ht Hj).
      destruct (above_thr _ _); [apply count_of_range; assumption|rewrite count_of_0; lia].
  - exists (F h). split; [|split; [exact Hs|]].
    + intros m2 D.
      assert (Hf2 : field m2 (frac_strat (nm m)) h (F h)) by (destruct Hf as (x & A & B0); exists x; rewrite D; auto).
      destruct (get_field _ _ _ _ Hf2) as (n1 & E1 & E2). rewrite bind_assoc, E1, bind_ret.
      unfold mbind. rewrite E2. reflexivity.
    + intros N t j Ht Hj. split; [apply count_of_range; eapply proportions_at; eassumption|apply count_requested_micro].
Qed.

(** The convective mask that [set_stratiform] uses, and the state it starts
    allocation from. *)
Lemma strat_conv_ok {B} m Ncol N T H (k : list (list (list bool)) -> M B) :
  strat_columns m Ncol N T H ->
  exists cv m1,
    mbind (if process_conv m then
       if negb (has_var "conv_frac_subcolumns_cl" m) then raise KeyError
       else if negb (has_var "conv_frac_subcolumns_ci" m) then raise KeyError
       else
         act c1 <- get_flag "conv_frac_subcolumns_cl";
         act c2 <- get_flag "conv_frac_subcolumns_ci";
         lift (flags_or c1 c2)
     else
       act _ <- (if Nat.eqb (num_sub m) 0
                 then match Ncol with Some n => set_dim n | None => raise TypeError end
                 else ret tt);
       act fname <- get_name (frac_strat (nm m)) "cl";
       act f <- get_grid fname;
       match Ncol with
       | Some n => ret (map (map (fun _ => repeat false n)) f)
       | None => raise TypeError
       end) k m = k cv m1 /\
    ds m1 = ds m /\ dim_sub m1 = Some N /\ ntime m1 = ntime m /\ process_conv m1 = process_conv m /\ nm m1 = nm m /\
    shape3 T H N cv /\ forall t j i, t < T -> j < H -> (flagged (at2 [] cv t j) i <-> convective m t j i).
Proof.
  intros [(Hpc & Hd & HN1 & Hg)|(Hpc & -> & Hd & (f & Hf & Hfs))].
  - destruct (Hg "cl"%string) as (g1 & F1 & S1); [left; reflexivity|].
    destruct (Hg "ci"%string) as (g2 & F2 & S2); [right; left; reflexivity|].
    destruct (flags_or_ok T H N g1 g2 S1 S2) as (cv & E & S & P).
    exists cv, m. rewrite Hpc.
    change ("conv_frac_subcolumns_" ++ "cl")%string with "conv_frac_subcolumns_cl"%string in *.
    change ("conv_frac_subcolumns_" ++ "ci")%string with "conv_frac_subcolumns_ci"%string in *.
    rewrite (has_flags _ _ _ F1), (has_flags _ _ _ F2). simpl negb. cbv iota.
    split. { rewrite bind_assoc, (bind_flags _ _ _ _ F1), bind_assoc, (bind_flags _ _ _ _ F2). apply bind_lift, E. }
    do 5 (split; [first [assumption|congruence]|]). split; [exact S|].
    intros t j i Ht Hj. split.
    + intro Hi. split; [exact Hpc|]. apply P in Hi; [|assumption..].
      destruct Hi as [Hi|Hi]; [exists "cl"%string, g1|exists "ci"%string, g2]; auto.
    + intros (_ & h & g & [-> | ->] & Fg & Hi); apply P; try assumption.
      * left. unfold flags in *. change ("conv_frac_subcolumns_" ++ "cl")%string with "conv_frac_subcolumns_cl"%string in *. congruence.
      * right. unfold flags in *. change ("conv_frac_subcolumns_" ++ "ci")%string with "conv_frac_subcolumns_ci"%string in *. congruence.
  - rewrite Hpc.
    assert (Hm1 : exists m1, (forall C (k' : unit -> M C), mbind (if Nat.eqb (num_sub m) 0 then set_dim N else ret tt) k' m = k' tt m1) /\
       ds m1 = ds m /\ dim_sub m1 = Some N /\ ntime m1 = ntime m /\ process_conv m1 = process_conv m /\ nm m1 = nm m).
    { destruct (Nat.eqb_spec (num_sub m) 0) as [E|E].
      - exists (with_dim N m). split; [|repeat split]. intros. unfold mbind.
        destruct Hd as [[_ Hd]|Hd]; [rewrite (set_dim_unset _ _ Hd)|rewrite (set_dim_same _ _ Hd)]; reflexivity.
      - exists m. split; [intros; reflexivity|]. destruct Hd as [[Hd _]|Hd]; [congruence|]. repeat split; auto. }
    destruct Hm1 as (m1 & E1 & D1 & D2 & D3 & D4 & D5).
    exists (map (map (fun _ => repeat false N)) f), m1.
    assert (Hf1 : field m1 (frac_strat (nm m)) "cl" f) by (destruct Hf as (x & A & B0); exists x; rewrite D1; auto).
    split.
    { rewrite bind_assoc, E1, bind_assoc. destruct (get_field _ _ _ _ Hf1) as (n1 & E2 & E3).
      rewrite E2, bind_ret, bind_assoc. unfold mbind at 1. rewrite E3. reflexivity. }
    do 5 (split; [first [assumption|congruence]|]). split.
    { split; [apply shape2_map, Hfs|].
      intros r Hr c Hcin. apply in_map_iff in Hr as (x & <- & _). apply in_map_iff in Hcin as (y & <- & _). apply repeat_length. }
    intros t j i Ht Hj. split.
    + intro Hi. unfold flagged in Hi. rewrite (at2_map _ f T H _ _ 0%Q) in Hi by assumption.
      rewrite nth_repeat_bool in Hi. discriminate.
    + intros (Hc & _). congruence.
Qed.

Lemma set_stratiform_ok m Ncol rad sch thr dr N T H F Qv :
  strat_ready m Ncol rad N T H F Qv -> good_sched sch -> draws_ok dr ->
  exists m' gl gi, set_stratiform Ncol rad sch thr dr m = (Ok tt, m') /\
    flags m' "strat_frac_subcolumns_cl" gl /\ flags m' "strat_frac_subcolumns_ci" gi /\
    shape3 T H N gl /\ shape3 T H N gi /\ dim_sub m' = Some N /\
    unchanged_except ["strat_frac_subcolumns_cl"; "strat_frac_subcolumns_ci"]%string m m' /\
    (forall t j, t < T -> S j = H -> at2 [] gl t j = repeat false N /\ at2 [] gi t j = repeat false N) /\
    (forall t j, t < T -> S j < H -> forall kl ki cv,
       requested rad thr (at2 0%Q (Qv "cl"%string) t j) (at2 0%Q (F "cl"%string) t j) N kl ->
       requested rad thr (at2 0%Q (Qv "ci"%string) t j) (at2 0%Q (F "ci"%string) t j) N ki ->
       conv_here m N t j cv ->
       level_ok N (kl, ki) cv (at2 [] gl t (S j), at2 [] gi t (S j)) (at2 [] gl t j, at2 [] gi t j)).
Proof.
  intros (HN & HT & Hnt & Hcols & Hfr & (f0 & Hf0)) Hs Hdr. unfold set_stratiform. rewrite bind_get.
  match goal with |- context[mbind _ ?K m] => destruct (strat_conv_ok m Ncol N T H K Hcols) as (cv & m1 & E & D1 & D2 & D3 & D4 & D5 & Scv & Pcv) end.
  rewrite E; clear E.
  assert (Hf01 : field m1 (frac_strat_rad (nm m)) "cl" f0) by (destruct Hf0 as (x & A & B0); exists x; rewrite D1; auto).
  rewrite (bind_field _ _ _ _ _ Hf01).
  assert (H1 : match Ncol with Some 1%nat => true | _ => false end = false).
  { destruct Hcols as [(_ & _ & X & _)|(_ & -> & _)].
    - destruct Ncol as [[|[|n]]|]; try reflexivity. congruence.
    - destruct N as [|[|n]]; try reflexivity. lia. }
  rewrite H1, bind_get, D2. rewrite D5.
  match goal with |- context[mbind _ ?K m1] => destruct (frac_of_ok m _ rad thr T H F Qv "cl"%string K Hfr (or_introl eq_refl)) as (g1 & E1 & S1 & P1) end.
  rewrite E1 by exact D1; clear E1.
  match goal with |- context[mbind _ ?K m1] => destruct (frac_of_ok m _ rad thr T H F Qv "ci"%string K Hfr (or_intror (or_introl eq_refl))) as (g2 & E2 & S2 & P2) end.
  rewrite E2 by exact D1; clear E2.
  destruct (grid2_ok (fun a b => (count_of N a, count_of N b)) T H g1 g2 S1 S2) as (cs & Ec & Sc & Pc).
  rewrite (bind_lift _ _ _ _ Ec).
  assert (Lc : length cs = T) by apply Sc. rewrite Lc.
  rewrite (bind_lift _ _ _ _ (tt_order_good sch T Hs)). rewrite run_columns_seq.
  destruct (mapM_seq (fun tt => do c <- nth_res cs tt; do cv0 <- nth_res cv tt; strat_col N c cv0 (dr tt))
    (fun t p => length p = H /\
       (forall j, S j = H -> nth j p (blank N) = blank N) /\
       (forall j, S j < H -> level_ok N (at2 (0,0)%Z cs t j) (at2 [] cv t j) (nth (S j) p (blank N)) (nth j p (blank N)))) 0 T) as (cols & Em & Lm & Pm).
  { intros t Ht. assert (Ht' : t < T) by lia.
    rewrite (nth_res_ok cs t []) by lia. rewrite (nth_res_ok cv t []) by (destruct Scv as [[? ?] ?]; lia). cbn [bind].
    pose proof (shape2_row T H cs t Sc Ht') as Lr.
    pose proof (shape2_row T H cv t (proj1 Scv) Ht') as Lv.
    destruct (strat_col_ok N (nth t cs []) (nth t cv []) (dr t)) as (p & Ep & Lp & Top & Lev).
    - lia.
    - intros; apply Hdr.
    - congruence.
    - rewrite Lr. intros j Hj. change (nth j (nth t cs []) (0,0)%Z) with (at2 (0,0)%Z cs t j).
      rewrite (Pc t j 0%Q 0%Q) by assumption. simpl. split; [apply P1|apply P2]; assumption.
    - rewrite Lr. intros j Hj. apply (shape3_cell T H N cv t j Scv Ht' Hj).
    - rewrite Lr in *. exists p. split; [exact Ep|]. split; [exact Lp|]. split; [exact Top|]. exact Lev. }
  rewrite (bind_lift _ _ _ _ Em).
  assert (Es : np_stack cols = Ok cols) by (destruct cols; [simpl in Lm; lia|reflexivity]).
  rewrite (bind_lift _ _ _ _ Es). rewrite Lm. simpl in Pm.
  unfold mbind at 1. rewrite assign_ok; [|left; exact D2|congruence].
  rewrite assign_ok; [|left; reflexivity|simpl; congruence].
  assert (Sm : shape2 T H cols).
  { apply shape2_intro; [exact Lm|]. intros t Ht. apply (Pm t []), Ht. }
  assert (A1 : forall t j, t < T -> j < H -> at2 [] (map (map fst) cols) t j = fst (at2 (blank N) cols t j))
    by (intros; apply (at2_map _ _ T H); assumption).
  assert (A2 : forall t j, t < T -> j < H -> at2 [] (map (map snd) cols) t j = snd (at2 (blank N) cols t j))
    by (intros; apply (at2_map _ _ T H); assumption).
  assert (Lev : forall t j, t < T -> S j < H ->
     level_ok N (at2 (0,0)%Z cs t j) (at2 [] cv t j) (at2 (blank N) cols t (S j)) (at2 (blank N) cols t j)).
  { intros t j Ht Hj. apply (Pm t [] Ht), Hj. }
  assert (Top : forall t j, t < T -> S j = H -> at2 (blank N) cols t j = blank N).
  { intros t j Ht Hj. apply (Pm t [] Ht), Hj. }
  assert (Lens : forall t j, t < T -> j < H -> length (fst (at2 (blank N) cols t j)) = N /\ length (snd (at2 (blank N) cols t j)) = N).
  { intros t j Ht Hj. destruct (Nat.eq_dec (S j) H) as [E|E].
    - rewrite Top by assumption. simpl. rewrite repeat_length; auto.
    - apply (Lev t j Ht). lia. }
  eexists _, (map (map fst) cols), (map (map snd) cols). split; [reflexivity|].
  split. { unfold flags, stored; simpl. rewrite assoc_put_other by discriminate. apply assoc_put_same. }
  split. { unfold flags, stored; simpl. apply assoc_put_same. }
  split. { apply shape3_intro; [apply shape2_map, Sm|]. intros t j Ht Hj. rewrite A1 by assumption. apply Lens; assumption. }
  split. { apply shape3_intro; [apply shape2_map, Sm|]. intros t j Ht Hj. rewrite A2 by assumption. apply Lens; assumption. }
  split; [reflexivity|]. split.
  { split; [exact D3|]. split; [exact D4|]. split; [exact D5|]. intros x Hx. simpl.
    rewrite !assoc_put_other; [rewrite D1; reflexivity| |]; intros ->; apply Hx; simpl; tauto. }
  split.
  { intros t j Ht Hj. rewrite A1, A2 by lia. rewrite Top by assumption. split; reflexivity. }
  intros t j Ht Hj kl ki cv0 R1 R2 [Hcv1 Hcv2].
  rewrite !A1, !A2 by lia. rewrite <- !surjective_pairing.
  specialize (Lev t j Ht Hj). rewrite (Pc t j 0%Q 0%Q) in Lev by lia.
  assert (Hj' : j < H) by lia.
  destruct (P1 N t j Ht Hj') as [_ Q1]. destruct (P2 N t j Ht Hj') as [_ Q2].
  rewrite (requested_unique _ _ _ _ _ _ _ R1 Q1), (requested_unique _ _ _ _ _ _ _ R2 Q2).
  replace cv0 with (at2 [] cv t j); [exact Lev|].
  apply (nth_ext _ _ false false).
  - rewrite (shape3_cell T H N cv t j Scv Ht Hj'). symmetry; exact Hcv1.
  - intros i _. pose proof (Pcv t j i Ht Hj') as X. specialize (Hcv2 i). unfold flagged in *.
    destruct (nth i (at2 [] cv t j) false), (nth i cv0 false); tauto || (try reflexivity); exfalso; intuition congruence.
Qed.
