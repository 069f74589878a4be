(** Evaluation of [set_precip] (model in [Gen_Model]). *)
From Verif Require Import Gen_Facts Conv_Proofs Strat_Spec Precip_Spec Precip_Proofs Strat_Api.
From Coq Require Import Lqa ZifyBool ZifyNat.
Local Open Scope nat_scope.

Lemma precip_frac_ok m is_conv rad thr T H F Qv h :
  frac_input m is_conv rad T H F Qv h ->
  exists g, precip_frac (nm m) is_conv rad thr h m = (Ok g, m) /\ shape2 T H g /\
   (forall N t j, t < T -> j < H ->
      (0 <= count_of N (at2 0%Q g t j) <= Z.of_nat N)%Z /\
      requested rad thr (at2 0%Q (Qv h) t j) (at2 0%Q (F h) t j) N (count_of N (at2 0%Q g t j))).
Proof.
  intros (Hf & Hs & Hp & Hq). unfold precip_frac, frac_dict, q_dict in *. destruct rad.
  - destruct (Hq eq_refl) as (Hqf & Hqs).
    destruct (grid2_ok (frac_where thr) T H (Qv h) (F h) Hqs Hs) as (g & Eg & Sg & Pg).
    exists g. split; [|split; [exact Sg|]].
    + assert (Hf' : field m (if is_conv then frac_conv_rad (nm m) else frac_strat_rad (nm m)) h (F h)) by (destruct is_conv; exact Hf).
      rewrite (bind_field _ _ _ _ _ Hf'). rewrite (bind_field _ _ _ _ _ Hqf). unfold lift. rewrite Eg. reflexivity.
    + intros N t j Ht Hj. rewrite (Pg t j 0%Q 0%Q) by assumption. split; [|apply count_requested_rad].
      unfold frac_where. pose proof (proportions_at T H _ 0%Q t j Hs Hp Ht Hj).
      destruct (above_thr _ _); [apply count_of_range; assumption|rewrite count_of_0; lia].
  - exists (F h). split; [|split; [exact Hs|]].
    + assert (Hf' : field m (if is_conv then frac_conv (nm m) else frac_strat (nm m)) h (F h)) by (destruct is_conv; exact Hf).
      destruct (get_field _ _ _ _ Hf') as (n1 & E1 & E2). rewrite E1. unfold mbind, ret. exact E2.
    + intros N t j Ht Hj. split; [apply count_of_range; eapply proportions_at; eassumption|apply count_requested_micro].
Qed.

Lemma mapMM_read {A B} (f : A -> M B) (R : A -> B -> Prop) m l :
  (forall x, In x l -> exists y, f x m = (Ok y, m) /\ R x y) ->
  exists ys, mapMM f l m = (Ok ys, m) /\ Forall2 R l ys.
Proof.
  induction l as [|x l IH]; intro H; simpl.
  - exists []; split; [reflexivity|constructor].
  - destruct (H x) as (y & E & Ry); [left; reflexivity|].
    destruct IH as (ys & E' & R'); [intros z Hz; apply H; right; exact Hz|].
    exists (y :: ys). split; [|constructor; assumption].
    unfold mbind. rewrite E, E'. reflexivity.
Qed.

Lemma stack_classes_ok T H (fs : list (list (list Z))) : fs <> [] -> (forall f, In f fs -> shape2 T H f) ->
  exists c, stack_classes fs = Ok c /\ shape2 T H c /\
    forall t j, t < T -> j < H -> at2 [] c t j = map (fun f => at2 0%Z f t j) fs.
Proof.
  induction fs as [|f fs IH]; intros Hne Hs; [congruence|].
  destruct fs as [|f2 fs].
  - simpl. exists (map (map (fun c => [c])) f). split; [reflexivity|].
    assert (S := Hs f (or_introl eq_refl)). split; [apply shape2_map, S|].
    intros t j Ht Hj. rewrite (at2_map _ _ T H _ _ 0%Z) by assumption. reflexivity.
  - destruct IH as (c & E & S & P); [discriminate|intros x Hx; apply Hs; right; exact Hx|].
    change (stack_classes (f :: f2 :: fs)) with (do t <- stack_classes (f2 :: fs); grid2 (fun c l => c :: l) f t).
    rewrite E. cbn [bind].
    destruct (grid2_ok (fun (c : Z) l => c :: l) T H f c) as (d & E' & S' & P'); [apply Hs; left; reflexivity|exact S|].
    exists d. split; [exact E'|]. split; [exact S'|].
    intros t j Ht Hj. rewrite (P' t j 0%Z []) by assumption. rewrite P by assumption. reflexivity.
Qed.

Lemma precip_here_false cs : (forall c, In c cs -> 0 <= c)%Z -> precip_here cs = false -> forall c, In c cs -> c = 0%Z.
Proof.
  intros Hp H c Hc. destruct (Z.eq_dec c 0) as [E|E]; [exact E|exfalso].
  assert (X : precip_here cs = true); [|congruence].
  apply existsb_exists. exists c. split; [exact Hc|]. specialize (Hp c Hc). lia.
Qed.

Lemma set_last_false_nth l j : S j < length l -> nth j (set_last_false l) false = nth j l false.
Proof.
  intro H. unfold set_last_false. destruct l as [|x l]; [reflexivity|].
  assert (Hl : length (removelast (x :: l)) = length l).
  { pose proof (app_removelast_last false (l := x :: l)) as E. specialize (E ltac:(discriminate)).
    apply (f_equal (@length bool)) in E. rewrite app_length in E. simpl length in E at 3. simpl in E |- *. lia. }
  rewrite app_nth1 by (rewrite Hl; simpl in H; lia).
  rewrite (app_removelast_last false (l := x :: l)) at 2 by discriminate.
  rewrite app_nth1; [reflexivity|]. rewrite Hl; simpl in H; lia.
Qed.

Lemma length_set_last_false l : length (set_last_false l) = length l.
Proof.
  destruct l as [|x l]; [reflexivity|]. unfold set_last_false.
  pose proof (app_removelast_last false (l := x :: l)) as E. specialize (E ltac:(discriminate)).
  apply (f_equal (@length bool)) in E. rewrite app_length in *. simpl in *. lia.
Qed.

Lemma precip_ovl_ok css : exists o, precip_ovl css = Ok o /\ length o = length css /\
  (forall j, S (S j) < length css -> nth j o false = precip_here (nth j css []) && precip_here (nth (S j) css [])).
Proof.
  unfold precip_ovl.
  destruct (zipb_ok andb (map precip_here css) (set_last_false (roll1 (map precip_here css)))) as (o & E & L & P).
  - rewrite length_set_last_false, length_roll1; reflexivity.
  - exists o. split; [exact E|]. rewrite map_length in *. split; [exact L|].
    intros j Hj. rewrite P by lia. rewrite set_last_false_nth by (rewrite length_roll1, map_length; lia).
    rewrite roll1_nth by (rewrite map_length; lia).
    change false with (precip_here []). rewrite !map_nth. reflexivity.
Qed.

Lemma mk_plevels_ok css clouds ovl : length clouds = length css -> length ovl = length css ->
  exists ls, mk_plevels css clouds ovl = Ok ls /\ length ls = length css /\
    forall j, j < length css -> nth j ls pdummy = {| q_cs := nth j css []; q_cloudy := nth j clouds []; q_ovl := nth j ovl false |}.
Proof.
  revert clouds ovl; induction css as [|c cs IH]; intros convs ovl H1 H2.
  - exists []. split; [destruct convs, ovl; reflexivity|]. split; [reflexivity|]. simpl; intros; lia.
  - destruct convs as [|cv convs], ovl as [|o ovl]; try discriminate. simpl.
    destruct (IH convs ovl) as (ls & E & L & P); [simpl in *; lia..|]. rewrite E; simpl.
    eexists; split; [reflexivity|]. split; [simpl; congruence|].
    intros [|j] Hj; [reflexivity|]. apply P; simpl in Hj; lia.
Qed.

Lemma precip_col_ok N ncls css clouds perm :
  (forall k site n, is_perm (perm k site n) n) ->
  length clouds = length css ->
  (forall j, j < length css -> length (nth j css []) = ncls /\ forall c, In c (nth j css []) -> (0 <= c <= Z.of_nat N)%Z) ->
  (forall j, j < length css -> length (nth j clouds []) = N) ->
  exists p, precip_col N ncls css clouds perm = Ok p /\ length p = length css /\
    (forall j, S j = length css -> nth j p (pblank N ncls) = pblank N ncls) /\
    (forall j, S j < length css ->
       precip_spec N (nth j css []) (nth j clouds []) (nth (S j) p (pblank N ncls)) (nth j p (pblank N ncls))).
Proof.
  intros Hp Hl Hc Hcv. unfold precip_col.
  destruct (precip_ovl_ok css) as (o & Eo & Lo & Po). rewrite Eo. cbn [bind].
  destruct (mk_plevels_ok css clouds o Hl Lo) as (ls & El & Ll & Pl). rewrite El. cbn [bind].
  destruct (precip_column_ok N ncls perm Hp ls) as (p & Ep & Lp & Top & Lev).
  - intros l Hin. destruct (In_nth _ _ pdummy Hin) as (j & Hj & <-). rewrite Ll in Hj. rewrite Pl by exact Hj.
    unfold pinput_ok; simpl. destruct (Hc j Hj) as [A B]. split; [exact A|]. split; [exact B|]. apply Hcv, Hj.
  - intros j Hj. rewrite Ll in *. rewrite !Pl by lia. simpl. intro Ho.
    destruct (Nat.eq_dec (S (S j)) (length css)) as [E|E]; [right; right; exact E|].
    rewrite Po in Ho by lia.
    apply andb_false_iff in Ho as [Ho|Ho]; [left|right; left]; apply precip_here_false; try exact Ho;
      intros c Hcc; [destruct (Hc j) as [_ B]|destruct (Hc (S j)) as [_ B]]; try lia; apply B in Hcc; lia.
  - rewrite Ep. cbn [bind]. exists p. split; [reflexivity|]. split; [congruence|]. split.
    + intros j Hj. apply Top. congruence.
    + intros j Hj. assert (Hj' : S j < length ls) by congruence. specialize (Lev j Hj').
      rewrite Pl in Lev by lia. exact Lev.
Qed.

(** Storing one result per class. *)
Lemma assign_all {X} (name : X -> string) (v : X -> val) N len l m :
  dim_sub m = Some N -> len = ntime m -> NoDup (map name l) ->
  exists m', mapMM (fun x => assign (name x) N len (v x)) l m = (Ok (map (fun _ => tt) l), m') /\
    dim_sub m' = Some N /\ unchanged_except (map name l) m m' /\
    forall x, In x l -> assoc (ds m') (name x) = Some (v x).
Proof.
  revert m; induction l as [|x l IH]; intros m Hd Hl Hn; simpl.
  - exists m. split; [reflexivity|]. split; [exact Hd|]. split; [repeat split|]. intros x [].
  - inversion_clear Hn as [|? ? Hx Hn'].
    unfold mbind at 1. rewrite assign_ok by auto.
    destruct (IH (stored m (name x) N (v x))) as (m' & E & D & (U1 & U2 & U3 & U4) & P); [reflexivity|exact Hl|exact Hn'|].
    unfold mbind at 1. rewrite E. exists m'. split; [reflexivity|]. split; [exact D|]. split.
    + split; [exact U1|]. split; [exact U2|]. split; [exact U3|].
      intros y Hy. rewrite U4 by (intro; apply Hy; right; assumption). simpl.
      apply assoc_put_other. intros ->. apply Hy; left; reflexivity.
    + intros y [<-|Hy]; [|apply P, Hy]. rewrite U4 by exact Hx. simpl. apply assoc_put_same.
Qed.

Lemma nth_repeat_lt {A} (x d : A) n i : i < n -> nth i (repeat x n) d = x.
Proof. revert i; induction n as [|n IH]; intros [|i] H; simpl; try lia; [reflexivity|]. apply IH; lia. Qed.

Lemma map_snd_combine_seq {A} (l : list A) k : map snd (combine (seq k (length l)) l) = l.
Proof. revert k; induction l as [|x l IH]; intro k; simpl; [reflexivity|]. rewrite IH; reflexivity. Qed.

Lemma in_combine_seq {A} (l : list A) i d : i < length l -> In (i, nth i l d) (combine (seq 0 (length l)) l).
Proof.
  intro Hi. assert (G : forall k, In (k + i, nth i l d) (combine (seq k (length l)) l)).
  { revert i Hi; induction l as [|x l IH]; intros i Hi k; simpl in *; [lia|].
    destruct i as [|i]; [left; f_equal; lia|]. right. replace (k + S i) with (S k + i) by lia. apply IH; lia. }
  apply (G 0).
Qed.

Lemma Forall2_nth {A B} (R : A -> B -> Prop) l l' da db i : Forall2 R l l' -> i < length l -> R (nth i l da) (nth i l' db).
Proof.
  intro H; revert i; induction H as [|x y l l' Hxy H IH]; intros i Hi; simpl in *; [lia|].
  destruct i; [exact Hxy|]. apply IH; lia.
Qed.

Lemma Forall2_len {A B} (R : A -> B -> Prop) l l' : Forall2 R l l' -> length l = length l'.
Proof. induction 1; simpl; congruence. Qed.

Lemma kind_out is_conv h : (kind is_conv ++ "_frac_subcolumns_" ++ h)%string = frac_out is_conv h.
Proof. reflexivity. Qed.

Lemma frac_out_inj c a b : frac_out c a = frac_out c b -> a = b.
Proof. intro E. unfold frac_out in E. apply append_inj in E. apply append_inj in E. exact E. Qed.

Lemma NoDup_map_inj {A B} (f : A -> B) l : (forall x y, f x = f y -> x = y) -> NoDup l -> NoDup (map f l).
Proof.
  intros Hf H; induction H as [|x l Hx H IH]; simpl; constructor; [|exact IH].
  intro Hin. apply in_map_iff in Hin as (y & E & Hy). apply Hf in E. congruence.
Qed.

Lemma set_precip_ok m is_conv rad sch thr dr N T H hs F Qv ci cl :
  precip_ready m is_conv rad N T H hs F Qv ci cl -> good_sched sch -> draws_ok dr ->
  exists m' G, set_precip is_conv None rad sch hs thr dr m = (Ok tt, m') /\
    dim_sub m' = Some N /\ unchanged_except (map (frac_out is_conv) hs) m m' /\
    (forall h, In h hs -> flags m' (frac_out is_conv h) (G h) /\ shape3 T H N (G h)) /\
    (forall h t j, In h hs -> t < T -> S j = H -> at2 [] (G h) t j = repeat false N) /\
    (forall t j, t < T -> S j < H -> forall ks cv,
       requests rad thr F Qv N t j hs ks ->
       cloudy_here ci cl N t j cv ->
       precip_spec N ks cv (map (fun h => at2 [] (G h) t (S j)) hs) (map (fun h => at2 [] (G h) t j) hs)).
Proof.
  intros (HN & HT & Hnt & Hd & Hnd & Hne & Fci & Sci & Fcl & Scl & Hfr) Hs Hdr.
  unfold set_precip. rewrite bind_get.
  assert (Hns : num_sub m = N) by (unfold num_sub; rewrite Hd; reflexivity). rewrite Hns.
  assert (HN0 : (N =? 0) = false) by (apply Nat.eqb_neq; lia). rewrite HN0, bind_ret, bind_ret.
  destruct (mapMM_read (precip_frac (nm m) is_conv rad thr)
     (fun h g => shape2 T H g /\ forall N t j, t < T -> j < H ->
      (0 <= count_of N (at2 0%Q g t j) <= Z.of_nat N)%Z /\
      requested rad thr (at2 0%Q (Qv h) t j) (at2 0%Q (F h) t j) N (count_of N (at2 0%Q g t j))) m hs) as (fs & Ef & Rf).
  { intros h Hh. apply precip_frac_ok, Hfr, Hh. }
  unfold mbind at 1. rewrite Ef.
  change (kind is_conv ++ "_frac_subcolumns_ci")%string with (frac_out is_conv "ci").
  change (kind is_conv ++ "_frac_subcolumns_cl")%string with (frac_out is_conv "cl").
  rewrite (bind_flags _ _ _ _ Fci).
  assert (HN1 : (N =? 1) = false) by (apply Nat.eqb_neq; lia). rewrite HN1, bind_get.
  rewrite (has_flags _ _ _ Fcl). change (negb true) with false. cbv iota. rewrite (bind_flags _ _ _ _ Fcl).
  rewrite Hns.
  destruct (flags_or_ok T H N ci cl Sci Scl) as (cv & Ecv & Scv & Pcv). rewrite (bind_lift _ _ _ _ Ecv).
  pose proof (Forall2_len _ _ _ Rf) as Lfs.
  destruct (stack_classes_ok T H (map (map (map (count_of N))) fs)) as (css & Ec & Sc & Pc).
  { destruct hs; [congruence|]. destruct fs; [discriminate|]. simpl. discriminate. }
  { intros f Hf. apply in_map_iff in Hf as (g & <- & Hg). apply shape2_map.
    destruct (In_nth _ _ [] Hg) as (i & Hi & <-). rewrite <- Lfs in Hi.
    apply (Forall2_nth _ _ _ ""%string [] i Rf Hi). }
  rewrite (bind_lift _ _ _ _ Ec). assert (Lc : length css = T) by apply Sc. rewrite Lc.
  rewrite (bind_lift _ _ _ _ (tt_order_good sch T Hs)). rewrite run_columns_seq.
  assert (Hcell : forall t j, t < T -> j < H -> length (at2 [] css t j) = length hs /\
     (forall c, In c (at2 [] css t j) -> (0 <= c <= Z.of_nat N)%Z) /\
     requests rad thr F Qv N t j hs (at2 [] css t j)).
  { intros t j Ht Hj. rewrite Pc by assumption. rewrite map_map. rewrite map_length. split; [symmetry; exact Lfs|].
    assert (G : Forall2 (fun h f => (0 <= at2 0%Z (map (map (count_of N)) f) t j <= Z.of_nat N)%Z /\
       requested rad thr (at2 0%Q (Qv h) t j) (at2 0%Q (F h) t j) N (at2 0%Z (map (map (count_of N)) f) t j)) hs fs).
    { clear - Rf Ht Hj. induction Rf as [|h g hs gs Hg R IH]; constructor; [|exact IH].
      destruct Hg as [Sg Pg]. rewrite (at2_map _ _ T H _ _ 0%Q) by assumption. apply Pg; assumption. }
    clear - G. split.
    - intros c Hc. induction G as [|h g hs gs Hg R IH]; simpl in Hc; [contradiction|].
      destruct Hc as [<-|Hc]; [apply Hg|apply IH, Hc].
    - unfold requests. induction G as [|h g hs gs Hg R IH]; simpl; constructor; [apply Hg|exact IH]. }
  destruct (mapM_seq (fun tt => do c <- nth_res css tt; do cv0 <- nth_res cv tt; precip_col N (length hs) c cv0 (dr tt))
    (fun t p => length p = H /\
       (forall j, S j = H -> nth j p (pblank N (length hs)) = pblank N (length hs)) /\
       (forall j, S j < H -> precip_spec N (at2 [] css t j) (at2 [] cv t j) (nth (S j) p (pblank N (length hs))) (nth j p (pblank N (length hs))))) 0 T) as (cols & Em & Lm & Pm).
  { intros t Ht. assert (Ht' : t < T) by lia.
    rewrite (nth_res_ok css t []) by lia. rewrite (nth_res_ok cv t []) by (destruct Scv as [[? ?] ?]; lia). cbn [bind].
    pose proof (shape2_row T H css t Sc Ht') as Lr.
    pose proof (shape2_row T H cv t (proj1 Scv) Ht') as Lv.
    destruct (precip_col_ok N (length hs) (nth t css []) (nth t cv []) (dr t)) as (p & Ep & Lp & Top & Lev).
    - intros; apply Hdr.
    - congruence.
    - rewrite Lr. intros j Hj. destruct (Hcell t j Ht' Hj) as (A & B & _). split; assumption.
    - rewrite Lr. intros j Hj. apply (shape3_cell T H N cv t j Scv Ht' Hj).
    - rewrite Lr in *. exists p. auto. }
  rewrite (bind_lift _ _ _ _ Em).
  assert (Es : np_stack cols = Ok cols) by (destruct cols; [simpl in Lm; lia|reflexivity]).
  rewrite (bind_lift _ _ _ _ Es). rewrite Lm. simpl in Pm.
  set (v := fun ih : nat * string => VFlag (map (map (fun l => nth (fst ih) l [])) cols)).
  destruct (assign_all (fun ih : nat * string => frac_out is_conv (snd ih)) v N T (combine (seq 0 (length hs)) hs) m Hd)
    as (m' & Ea & Da & Ua & Pa).
  { symmetry; exact Hnt. }
  { rewrite <- (map_map snd (frac_out is_conv)). rewrite map_snd_combine_seq. apply NoDup_map_inj; [apply frac_out_inj|exact Hnd]. }
  assert (Ua' : unchanged_except (map (frac_out is_conv) hs) m m').
  { rewrite <- (map_map snd (frac_out is_conv)), map_snd_combine_seq in Ua. exact Ua. }
  unfold mbind at 1. unfold v in Ea. fold (frac_out is_conv). 
  match goal with |- context[mapMM ?f ?l m] => replace (mapMM f l m) with (@Ok (list unit) (map (fun _ => tt) (combine (seq 0 (length hs)) hs)), m') by (symmetry; exact Ea) end.
  set (idx := fun h => length (fst (let fix f (l : list string) := match l with [] => ([], false) | x :: l' => if String.eqb x h then ([], true) else let (a, b) := f l' in (x :: a, b) end in f hs))).
  exists m', (fun h => map (map (fun l => nth (idx h) l [])) cols).
  assert (Hidx : forall i d, i < length hs -> idx (nth i hs d) = i).
  { intros i d Hi. unfold idx. clear - Hnd Hi. revert i Hi. induction hs as [|x hs IH]; intros i Hi; simpl in *; [lia|].
    inversion_clear Hnd as [|? ? Hx Hnd']. destruct i as [|i].
    - rewrite String.eqb_refl. reflexivity.
    - destruct (String.eqb_spec x (nth i hs d)) as [E|E].
      + exfalso. apply Hx. rewrite E. apply nth_In. lia.
      + specialize (IH Hnd' i ltac:(lia)).
        destruct ((fix f (l : list string) := match l with [] => ([], false) | x0 :: l' => if String.eqb x0 (nth i hs d) then ([], true) else let (a, b) := f l' in (x0 :: a, b) end) hs) as [a b].
        simpl in *. congruence. }
  assert (Hidx' : forall h, In h hs -> idx h < length hs /\ nth (idx h) hs ""%string = h).
  { intros h Hh. destruct (In_nth _ _ ""%string Hh) as (i & Hi & E). rewrite <- E. rewrite Hidx by exact Hi. split; [exact Hi|reflexivity]. }
  assert (Sm : shape2 T H cols).
  { apply shape2_intro; [exact Lm|]. intros t Ht. apply (Pm t []), Ht. }
  set (bl := pblank N (length hs)) in *.
  assert (A1 : forall i t j, t < T -> j < H -> at2 [] (map (map (fun l => nth i l [])) cols) t j = nth i (at2 bl cols t j) [])
    by (intros; apply (at2_map (fun l => nth i l []) _ T H); assumption).
  assert (Lev : forall t j, t < T -> S j < H ->
     precip_spec N (at2 [] css t j) (at2 [] cv t j) (at2 bl cols t (S j)) (at2 bl cols t j)).
  { intros t j Ht Hj. apply (Pm t [] Ht), Hj. }
  assert (Top : forall t j, t < T -> S j = H -> at2 bl cols t j = bl).
  { intros t j Ht Hj. apply (Pm t [] Ht), Hj. }
  assert (Lens : forall t j, t < T -> j < H -> length (at2 bl cols t j) = length hs /\ forall s, In s (at2 bl cols t j) -> length s = N).
  { intros t j Ht Hj. destruct (Nat.eq_dec (S j) H) as [E|E].
    - rewrite Top by assumption. unfold bl, pblank. rewrite repeat_length. split; [reflexivity|].
      intros s Hin. apply repeat_spec in Hin. subst s. apply repeat_length.
    - assert (Hj' : S j < H) by lia. destruct (Lev t j Ht Hj') as [P1 P2 _ _ _ _].
      split; [|exact P2]. rewrite P1. apply Hcell; [exact Ht|lia]. }
  split; [reflexivity|]. split; [exact Da|]. split; [exact Ua'|]. split.
  { intros h Hh. destruct (Hidx' h Hh) as [Hi Hn]. split.
    - pose proof (Pa _ (in_combine_seq hs (idx h) ""%string Hi)) as E. simpl in E. rewrite Hn in E. exact E.
    - apply shape3_intro; [apply shape2_map, Sm|]. intros t j Ht Hj. rewrite A1 by assumption.
      destruct (Lens t j Ht Hj) as [L1 L2]. apply L2, nth_In. lia. }
  split.
  { intros h t j Hh Ht Hj. destruct (Hidx' h Hh) as [Hi _]. rewrite A1 by lia. rewrite Top by assumption.
    unfold bl, pblank. apply nth_repeat_lt. exact Hi. }
  intros t j Ht Hj ks cvv Hk [Hcv1 Hcv2].
  assert (Emap : forall j, j < H -> map (fun h => at2 [] (map (map (fun l => nth (idx h) l [])) cols) t j) hs = at2 bl cols t j).
  { intros j' Hj'. apply (nth_ext _ _ [] []).
    - rewrite map_length. symmetry. apply Lens; assumption.
    - intros i Hi. rewrite map_length in Hi.
      rewrite (nth_indep _ [] ((fun h => at2 [] (map (map (fun l => nth (idx h) l [])) cols) t j') ""%string)) by (rewrite map_length; exact Hi).
      rewrite (map_nth (fun h => at2 [] (map (map (fun l => nth (idx h) l [])) cols) t j') hs ""%string i).
      rewrite A1 by assumption. rewrite Hidx by exact Hi. reflexivity. }
  rewrite !Emap by lia. specialize (Lev t j Ht Hj).
  assert (Hj' : j < H) by lia. destruct (Hcell t j Ht Hj') as (_ & _ & R).
  replace ks with (at2 [] css t j).
  - replace cvv with (at2 [] cv t j); [exact Lev|].
    apply (nth_ext _ _ false false).
    + rewrite (shape3_cell T H N cv t j Scv Ht Hj'). symmetry; exact Hcv1.
    + intros i _. pose proof (Pcv t j i Ht Hj') as X. specialize (Hcv2 i). unfold flagged in *.
      destruct (nth i (at2 [] cv t j) false), (nth i cvv false); try reflexivity; exfalso; intuition congruence.
  - clear - Hk R. unfold requests in *. revert Hk R. generalize (at2 [] css t j). revert ks.
    induction hs as [|h hs IH]; intros ks l Hk R; inversion Hk; inversion R; subst; [reflexivity|].
    f_equal; [eapply requested_unique; eassumption|]. apply IH; assumption.
Qed.
