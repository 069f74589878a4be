(** One-subcolumn mode ("subcolumn generator turned off"). *)
From Verif Require Import Gen_Facts Conv_Proofs Strat_Api Precip_Api Strat_Corol QN_Spec QN_Proofs QN_Api.
From Coq Require Import Lqa.
Local Open Scope nat_scope.

(** The flags of the single subcolumn of [q] are "above the threshold". *)
Lemma off_flags thr T H (q : list (list Q)) : shape2 T H q ->
  let g := map (map (fun x => [above_thr thr x])) q in
  shape3 T H 1 g /\ forall t j, t < T -> j < H -> (flagged (at2 [] g t j) 0 <-> (thr < at2 0%Q q t j)%Q).
Proof.
  intros S g.
  assert (V : forall t j, t < T -> j < H -> at2 [] g t j = [above_thr thr (at2 0%Q q t j)]).
  { intros t j Ht Hj. unfold g. rewrite (at2_map _ _ T H t j 0%Q) by assumption. reflexivity. }
  split.
  - apply shape3_intro; [apply shape2_map, S|]. intros t j Ht Hj. rewrite V by assumption. reflexivity.
  - intros t j Ht Hj. rewrite V by assumption. unfold flagged. simpl. apply above_thr_iff.
Qed.

Lemma strat_single m rad sch thr dr T H (Qv : string -> list (list Q)) :
  process_conv m = false -> (unset m \/ dim_sub m = Some 1) -> ntime m = T ->
  (exists f, field m (frac_strat (nm m)) "cl" f) -> (exists f, field m (frac_strat_rad (nm m)) "cl" f) ->
  (forall h, In h ["cl"; "ci"]%string -> field m (q_strat (nm m)) h (Qv h) /\ shape2 T H (Qv h)) ->
  not_input m "strat_frac_subcolumns_cl" ->
  exists m' G, set_stratiform (Some 1) rad sch thr dr m = (Ok tt, m') /\ dim_sub m' = Some 1 /\
    unchanged_except ["strat_frac_subcolumns_cl"; "strat_frac_subcolumns_ci"]%string m m' /\
    forall h, In h ["cl"; "ci"]%string ->
      flags m' (frac_out false h) (G h) /\ shape3 T H 1 (G h) /\
      forall t j, t < T -> j < H -> (flagged (at2 [] (G h) t j) 0 <-> (thr < at2 0%Q (Qv h) t j)%Q).
Proof.
  intros Hpc Hd Hnt (f & Hf) (r & Hrf) Hq Hni.
  unfold set_stratiform. rewrite bind_get, Hpc.
  set (m1 := if num_sub m =? 0 then {| ds := ds m; dim_sub := Some 1; ntime := ntime m; process_conv := process_conv m; nm := nm m |} else m).
  assert (D1 : dim_sub m1 = Some 1).
  { unfold m1. destruct (Nat.eqb_spec (num_sub m) 0); [reflexivity|]. destruct Hd as [[Hd _]|Hd]; [contradiction|exact Hd]. }
  assert (X1 : ds m1 = ds m /\ nm m1 = nm m /\ ntime m1 = ntime m /\ process_conv m1 = process_conv m) by (unfold m1; destruct (num_sub m =? 0); auto).
  destruct X1 as (X1 & X2 & X3 & X4).
  assert (E1 : (if num_sub m =? 0 then set_dim 1 else ret tt) m = (Ok tt, m1)).
  { unfold m1. destruct (num_sub m =? 0); [|reflexivity].
    destruct Hd as [[_ Hd]|Hd]; [rewrite (set_dim_unset _ _ Hd)|rewrite (set_dim_same _ _ Hd)]; reflexivity. }
  rewrite bind_assoc. unfold mbind at 1. rewrite E1.
  assert (K : forall d h g, field m d h g -> field m1 d h g) by (intros d h g (n & A & B); exists n; rewrite X1; auto).
  rewrite bind_assoc.
  replace (act fname <- get_name (frac_strat (nm m)) "cl";
     act f0 <- get_grid fname; ret (map (map (fun _ => repeat false 1)) f0)) with
     (act fname <- get_name (frac_strat (nm m)) "cl";
     act f0 <- get_grid fname; ret (map (map (fun _ : Q => repeat false 1)) f0)) by reflexivity.
  destruct (get_field m1 _ _ _ (K _ _ _ Hf)) as (fn & Ea & Eb). rewrite Ea, bind_ret, bind_assoc. unfold mbind at 1. rewrite Eb, bind_ret.
  rewrite (bind_field _ _ _ _ _ (K _ _ _ Hrf)).
  change (match 1 with 1 => true | _ => false end) with true. cbv iota.
  destruct (Hq "cl"%string) as [Q1 S1]; [left; reflexivity|]. destruct (Hq "ci"%string) as [Q2 S2]; [right; left; reflexivity|].
  rewrite (bind_field _ _ _ _ _ (K _ _ _ Q1)).
  set (v1 := VFlag _) at 1. unfold mbind at 1. rewrite assign_ok; [|left; exact D1|rewrite X3, Hnt; apply S1].
  assert (Q2' : field (stored m1 "strat_frac_subcolumns_cl" 1 v1) (q_strat (nm m)) "ci" (Qv "ci"%string)).
  { destruct Q2 as (n & A & B). exists n. split; [exact A|]. simpl. rewrite assoc_put_other, X1; [exact B|].
    intros ->. eapply Hni; [|exact A]. unfold dicts; simpl; auto. }
  rewrite (bind_field _ _ _ _ _ Q2').
  rewrite assign_ok; [|left; reflexivity|simpl; rewrite X3, Hnt; apply S2].
  eexists. exists (fun h => map (map (fun x => [above_thr thr x])) (Qv h)). split; [reflexivity|]. split; [reflexivity|]. split.
  - do 3 (split; [assumption|]). intros x Hx. simpl. rewrite !assoc_put_other, X1; [reflexivity| |]; intros ->; apply Hx; simpl; auto.
  - intros h Hh. destruct (off_flags thr T H (Qv h)) as [A B]; [apply Hq, Hh|]. split; [|split; assumption].
    destruct Hh as [<-|[<-|[]]]; unfold flags; simpl.
    + rewrite assoc_put_other, assoc_put_same by discriminate. reflexivity.
    + apply assoc_put_same.
Qed.

Lemma assign_off m0 is_conv thr T H (Qv : string -> list (list Q)) hs :
  (forall h, In h hs -> not_input m0 (frac_out is_conv h)) ->
  forall m, nm m = nm m0 -> dim_sub m = Some 1 -> ntime m = T ->
  (forall h, In h hs -> field m (q_dict m0 is_conv) h (Qv h) /\ shape2 T H (Qv h)) ->
  exists m', mapMM (fun h =>
      act qn <- get_name (if is_conv then q_conv (nm m0) else q_strat (nm m0)) h;
      act q <- get_grid qn;
      assign (kind is_conv ++ "_frac_subcolumns_" ++ h) 1 (length q)
             (VFlag (map (map (fun x => [above_thr thr x])) q))) hs m = (Ok (map (fun _ => tt) hs), m') /\
    dim_sub m' = Some 1 /\ unchanged_except (map (frac_out is_conv) hs) m m' /\
    forall h, In h hs -> flags m' (frac_out is_conv h) (map (map (fun x => [above_thr thr x])) (Qv h)).
Proof.
  intro Hni. induction hs as [|h hs IH]; intros m Hnm Hd Hnt Hq; cbn [mapMM map].
  - exists m. split; [reflexivity|]. split; [exact Hd|]. split; [repeat split|]. intros h [].
  - destruct (Hq h) as [Q1 S1]; [left; reflexivity|].
    set (v := VFlag (map (map (fun x => [above_thr thr x])) (Qv h))).
    destruct (IH (fun h' Hh => Hni h' (or_intror Hh)) (stored m (frac_out is_conv h) 1 v)) as (m' & E & D & (U1 & U2 & U3 & U4) & P).
    { exact Hnm. } { reflexivity. } { exact Hnt. }
    { intros h' Hh. destruct (Hq h' (or_intror Hh)) as [(n & A & B) Sh]. split; [|exact Sh].
      exists n. split; [exact A|]. simpl. rewrite assoc_put_other; [exact B|]. intros ->.
      eapply (Hni h); [left; reflexivity| |exact A]. unfold q_dict, dicts. destruct is_conv; simpl; auto. }
    exists m'. split.
    { rewrite bind_assoc. destruct (get_field m _ _ _ Q1) as (qn & Ea & Eb).
      change (if is_conv then q_conv (nm m0) else q_strat (nm m0)) with (q_dict m0 is_conv) at 1. rewrite Ea, bind_ret, bind_assoc.
      unfold mbind at 1. rewrite Eb. unfold mbind at 1. rewrite kind_out.
      rewrite assign_ok; [|left; exact Hd|rewrite Hnt; apply S1]. fold v. unfold mbind at 1.
      match goal with |- match ?x with _ => _ end = _ => replace x with (@Ok (list unit) (map (fun _ => tt) hs), m') by (symmetry; exact E) end.
      reflexivity. }
    split; [exact D|]. split.
    + do 3 (split; [assumption|]). intros y Hy. rewrite U4 by (intro; apply Hy; right; assumption). simpl.
      apply assoc_put_other. intros ->. apply Hy; left; reflexivity.
    + intros h' Hh'. destruct (in_dec string_dec h' hs) as [Hin|Hin]; [apply P, Hin|].
      destruct Hh' as [<-|Hh']; [|contradiction]. unfold flags. rewrite U4; [simpl; apply assoc_put_same|].
      intro X. apply in_map_iff in X as (h2 & E2 & X). apply frac_out_inj in E2. subst h2. contradiction.
Qed.

Lemma precip_single m is_conv rad sch thr dr T H (F Qv : string -> list (list Q)) hs ci :
  dim_sub m = Some 1 -> ntime m = T ->
  (forall h, In h hs -> frac_input m is_conv rad T H F Qv h) ->
  (forall h, In h hs -> field m (q_dict m is_conv) h (Qv h) /\ shape2 T H (Qv h)) ->
  flags m (frac_out is_conv "ci") ci ->
  (forall h, In h hs -> not_input m (frac_out is_conv h)) ->
  exists m' G, set_precip is_conv None rad sch hs thr dr m = (Ok tt, m') /\ dim_sub m' = Some 1 /\
    unchanged_except (map (frac_out is_conv) hs) m m' /\
    forall h, In h hs ->
      flags m' (frac_out is_conv h) (G h) /\ shape3 T H 1 (G h) /\
      forall t j, t < T -> j < H -> (flagged (at2 [] (G h) t j) 0 <-> (thr < at2 0%Q (Qv h) t j)%Q).
Proof.
  intros Hd Hnt Hfr Hq Hci Hni. unfold set_precip. rewrite bind_get.
  assert (N1 : num_sub m = 1) by (unfold num_sub; rewrite Hd; reflexivity).
  rewrite N1. cbn [Nat.eqb]. rewrite bind_ret. cbv zeta. rewrite bind_ret.
  destruct (mapMM_read (precip_frac (nm m) is_conv rad thr) (fun _ _ => True) m hs) as (fs & Ef & _).
  { intros h Hh. destruct (precip_frac_ok m is_conv rad thr T H F Qv h (Hfr h Hh)) as (y & E & _). eauto. }
  unfold mbind at 1. rewrite Ef.
  change (kind is_conv ++ "_frac_subcolumns_ci")%string with (frac_out is_conv "ci").
  rewrite (bind_flags _ _ _ _ Hci).
  destruct (assign_off m is_conv thr T H Qv hs Hni m eq_refl Hd Hnt Hq) as (m' & E & D & U & P).
  unfold mbind at 1.
  match goal with |- context[match ?x with _ => _ end = _] => replace x with (@Ok (list unit) (map (fun _ => tt) hs), m') by (symmetry; exact E) end.
  exists m', (fun h => map (map (fun x => [above_thr thr x])) (Qv h)). split; [reflexivity|]. split; [exact D|]. split; [exact U|].
  intros h Hh. split; [apply P, Hh|]. apply off_flags, Hq, Hh.
Qed.

(** Convective generation asked for one subcolumn. *)
Lemma conv_single m hyd rad thr : num_sub m = 0 \/ dim_sub m = Some 1 ->
  exists e, fst (set_convective hyd (Some 1) rad thr m) = Raise e /\
    ((exists f, field m (frac_conv (nm m)) hyd f) -> (exists q, field m (q_conv (nm m)) hyd q) -> e = ValueError).
Proof.
  intro Hd. unfold set_convective. rewrite bind_get, bind_ret.
  assert (Hc : (negb (num_sub m =? 1) && negb (num_sub m =? 0)) = false).
  { unfold num_sub in *. destruct Hd as [Hd|Hd]; rewrite Hd; reflexivity. }
  rewrite Hc.
  destruct (assoc (frac_conv (nm m)) hyd) as [fn|] eqn:E1.
  2:{ unfold mbind at 1, get_name. rewrite E1. exists KeyError. split; [reflexivity|]. intros (f & n & A & _). congruence. }
  unfold get_name at 1. rewrite E1, bind_ret.
  unfold mbind at 1. destruct (get_grid fn m) as [[g|e] m1] eqn:E2.
  2:{ exists e. split; [reflexivity|]. intros (f & n & A & B) _. assert (n = fn) by congruence. subst n.
      unfold get_grid, mbind, get_var in E2. rewrite B in E2. discriminate. }
  assert (m1 = m).
  { unfold get_grid, mbind, get_var in E2. destruct (assoc (ds m) fn) as [[]|]; inversion E2; reflexivity. }
  subst m1.
  assert (E3 : (exists m1, (if num_sub m =? 0 then set_dim 1 else ret tt) m = (Ok tt, m1) /\ ds m1 = ds m) \/
               (if num_sub m =? 0 then set_dim 1 else ret tt) m = (Raise ValueError, m)).
  { destruct (num_sub m =? 0); [|left; exists m; split; reflexivity]. unfold set_dim.
    match goal with |- context[if ?b then _ else _] => destruct b end; [right; reflexivity|left; eexists; split; reflexivity]. }
  destruct E3 as [(m1 & E3 & X1)|E3];
    [|unfold mbind at 1; rewrite E3; exists ValueError; split; reflexivity].
  unfold mbind at 1. rewrite E3, bind_get. cbv zeta.
  destruct (assoc (q_conv (nm m)) hyd) as [qn|] eqn:E4.
  2:{ unfold mbind at 1, get_name. rewrite E4. exists KeyError. split; [reflexivity|]. intros _ (f & n & A & _). congruence. }
  unfold get_name at 1. rewrite E4, bind_ret.
  unfold mbind at 1. destruct (get_grid qn m1) as [[g2|e] m2] eqn:E5.
  - exists ValueError. split; [reflexivity|]. reflexivity.
  - exists e. split; [reflexivity|]. intros _ (f & n & A & B). assert (n = qn) by congruence. subst n.
    unfold get_grid, mbind, get_var in E5. rewrite X1, B in E5. discriminate.
Qed.

(** The subcolumn mixing ratio and number concentration. *)
Lemma qn_single m is_conv rad qc sch thr perm gam T H h f q nf fl :
  qn_ready m is_conv rad 1 T H h f q nf fl ->
  exists m' qv, set_q_n h is_conv qc rad sch thr perm gam m = (Ok tt, m') /\ dim_sub m' = Some 1 /\
    unchanged_except (if is_conv then [q_out is_conv h] else [q_out is_conv h; n_out h]) m m' /\
    values m' (q_out is_conv h) qv /\ shape3 T H 1 qv /\
    (forall t j, t < T -> j < H -> exists v, at2 [] qv t j = [v] /\
       ((at2 0%Q q t j <= thr)%Q -> v = Fin 0) /\
       ((thr < at2 0%Q q t j)%Q -> v = xdiv (Fin (at2 0%Q q t j)) (Fin (at2 0%Q f t j)))).
Proof.
  intro Hr. destruct (set_q_n_single m is_conv rad qc sch thr perm gam T H h f q nf fl Hr) as (m' & qv & E & D & U & V & S & P & _).
  exists m', qv. do 5 (split; [assumption|]). intros t j Ht Hj. rewrite P by assumption. eexists. split; [reflexivity|].
  unfold q_incloud. split; intro X; [apply above_thr_false in X|apply above_thr_iff in X]; rewrite X; reflexivity.
Qed.
