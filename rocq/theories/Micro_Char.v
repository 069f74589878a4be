(** What the lidar microphysics method stores, for gamma classes. *)
From Verif Require Import Mom_Base Mom_Spec Mom_Facts Xr_Facts Sched_Model Psd_Model Lidar_Model Lidar_Spec
  Lidar_Od Lidar_Loop Lidar_Api Lidar_Perm Mom_Writes Psd_Spec Radar_Model Micro_Spec Micro_Loop.
Local Open Scope R_scope.

Lemma gamma_not_p3 e h : gamma_class e h -> is_p3ci e h = false.
Proof.
  unfold is_p3ci. intros [H|H].
  - destruct H as [<-|[<-|[]]]; reflexivity.
  - destruct (String.eqb_spec (mcphys e) "P3"%string) as [E|E]; [|apply andb_false_r].
    rewrite E in H. exfalso. apply H. reflexivity.
Qed.

Section M.
Variables (Gam : R -> R) (e : menv) (ins : inst) (z : arr2) (sfc mie : bool) (sch : sched) (kw : psd_kw)
  (lut : string * bool).
Hypothesis TO : micro_tables_ok e.
Notation loop := (micro_loop Gam e ins z sfc mie sch kw lut).
Notation mo := (mopt Gam e ins mie sch kw lut).
Notation after := (after_class e z sfc).

Definition aM (s : dset) (h : string) : arr3 := match mo h s with Ok (a, _) => fill0 a | _ => zeros3 end.
Definition bM (s : dset) (h : string) : arr3 := match mo h s with Ok (_, b) => fill0 b | _ => zeros3 end.

Lemma mopt_agree h s t p : agree (minp e) s t -> mo h s = Ok p -> mo h t = Ok p.
Proof. apply mopt_dep. Qed.
Lemma aM_agree h s t p : agree (minp e) s t -> mo h s = Ok p -> aM s h = aM t h /\ bM s h = bM t h.
Proof. intros A E. unfold aM, bM. rewrite E, (mopt_agree h s t p A E). auto. Qed.

Lemma not_outs_psd f h hs : (f = "alpha_p" \/ f = "beta_p" \/ f = "OD")%string ->
  h <> "tot"%string -> ~ In h hs -> ~ In (out f h false) (loop_outs false hs ++ psd_names).
Proof.
  intros Hf Nt Nh I. rewrite in_app_iff in I. destruct I as [I|I]; [|exact (psd_out _ _ _ I)].
  revert I. apply not_loop_outs; assumption.
Qed.

Lemma micro_char hs : forall l s at0 bt ot,
  (forall h, In h hs -> is_p3ci e h = false) -> ~ In "tot"%string hs ->
  var3 s (out "alpha_p" "tot" false) at0 -> var3 s (out "beta_p" "tot" false) bt -> var3 s (out "OD" "tot" false) ot ->
  (forall h, In h hs -> (exists p, mo h s = Ok p) /\ exists q, var3 s (qn false h) q) ->
  exists s' at1 bt1 ot1, loop hs l s = (Ok tt, s') /\
    var3 s' (out "alpha_p" "tot" false) at1 /\ var3 s' (out "beta_p" "tot" false) bt1 /\
    var3 s' (out "OD" "tot" false) ot1 /\
    (forall h, In h hs -> var3 s' (out "alpha_p" h false) (aM s h) /\ var3 s' (out "beta_p" h false) (bM s h)
                          /\ var3 s' (out "OD" h false) (od_of e z sfc (aM s h))) /\
    (forall i t k,
      at1 i t k = xadd (at0 i t k) (xsum (map (fun h => fillna 0 (aM s h i t k)) hs)) /\
      bt1 i t k = xadd (bt i t k) (xsum (map (fun h => fillna 0 (bM s h i t k)) hs)) /\
      ot1 i t k = xadd (ot i t k) (xsum (map (fun h => fillna 0 (od_of e z sfc (aM s h) i t k)) hs))) /\
    dseen s' = dseen s /\
    (forall x, ~ In x (loop_outs false hs ++ psd_names) -> assoc (dvars s') x = assoc (dvars s) x).
Proof.
  induction hs as [|h hs IH]; intros l s at0 bt ot Hok NT Hat Hbt Hot Hs.
  - exists s, at0, bt, ot. split; [reflexivity|]. do 3 (split; [assumption|]).
    split; [intros h []|]. split; [|auto]. intros i t k. cbn [map]. rewrite xsum_nil, !xadd_0_r. auto.
  - assert (Nt : h <> "tot"%string) by (intros ->; apply NT; left; reflexivity).
    assert (NT' : ~ In "tot"%string hs) by (intro; apply NT; right; assumption).
    destruct (Hs h (or_introl eq_refl)) as [[[al be] Hp] [q Hq]].
    destruct (step_run Gam e ins z sfc mie sch kw lut TO h hs l s al be q at0 bt ot Nt
                (Hok h (or_introl eq_refl)) Hat Hbt Hot Hp Hq) as (s1 & E1 & AC).
    pose proof (after_agree e z sfc TO s h al be at0 bt ot s1 AC) as Ag.
    destruct AC as (Ca & Cb & Co & Ta & Tb & To & Sn & Fr).
    assert (EaM : aM s h = fill0 al) by (unfold aM; rewrite Hp; reflexivity).
    assert (EbM : bM s h = fill0 be) by (unfold bM; rewrite Hp; reflexivity).
    destruct (IH l s1 _ _ _ (fun h' H' => Hok h' (or_intror H')) NT' Ta Tb To)
      as (s' & at1 & bt1 & ot1 & E & V1 & V2 & V3 & VC & T & Sn' & Fr').
    { intros h' Hh'. destruct (Hs h' (or_intror Hh')) as [[p Hp'] [q' Hq']]. split.
      - exists p. exact (mopt_agree h' s s1 p Ag Hp').
      - exists q'. unfold var3. rewrite <- (Ag (qn false h')); [exact Hq'|left; apply inp_q]. }
    exists s', at1, bt1, ot1. split; [rewrite E1; exact E|]. do 3 (split; [assumption|]).
    assert (Heq : forall h', In h' hs -> aM s h' = aM s1 h' /\ bM s h' = bM s1 h').
    { intros h' Hh'. destruct (Hs h' (or_intror Hh')) as [[p Hp'] _]. exact (aM_agree h' s s1 p Ag Hp'). }
    split; [|split; [|split]].
    + intros h' Hh'. destruct (in_dec string_dec h' hs) as [Hin|Nin].
      * destruct (Heq h' Hin) as [-> ->]. apply VC; exact Hin.
      * destruct Hh' as [<-|Hh']; [|contradiction]. rewrite EaM, EbM.
        split; [|split]; unfold var3; (rewrite Fr' by (apply not_outs_psd; auto)); assumption.
    + intros i t k. destruct (T i t k) as (T1 & T2 & T3). cbn [map]. rewrite !xsum_cons.
      assert (Em : forall G : dset -> string -> arr3,
                 (forall h', In h' hs -> G s h' = G s1 h') ->
                 map (fun h' => fillna 0 (G s1 h' i t k)) hs = map (fun h' => fillna 0 (G s h' i t k)) hs).
      { intros G HG. apply map_ext_in. intros h' Hh'. rewrite (HG h' Hh'). reflexivity. }
      rewrite T1, T2, T3.
      rewrite (Em aM), (Em bM), (Em (fun s h' => od_of e z sfc (aM s h'))).
      * rewrite EaM, EbM, !xadd_assoc. auto.
      * intros h' Hh'. f_equal. apply (Heq h' Hh').
      * intros h' Hh'. apply (Heq h' Hh').
      * intros h' Hh'. apply (Heq h' Hh').
    + rewrite Sn'. exact Sn.
    + intros x Nx. rewrite !in_app_iff in Nx. unfold loop_outs in Nx. rewrite in_app_iff in Nx. cbn [flat_map] in Nx.
      rewrite in_app_iff in Nx.
      rewrite Fr'.
      * apply Fr. rewrite !in_app_iff. tauto.
      * unfold loop_outs. rewrite !in_app_iff. tauto.
Qed.

Lemma micro_success hs : forall l s s' at0 bt ot,
  (forall h, In h hs -> is_p3ci e h = false) -> ~ In "tot"%string hs ->
  var3 s (out "alpha_p" "tot" false) at0 -> var3 s (out "beta_p" "tot" false) bt -> var3 s (out "OD" "tot" false) ot ->
  loop hs l s = (Ok tt, s') ->
  forall h, In h hs -> (exists p, mo h s = Ok p) /\ exists q, var3 s (qn false h) q.
Proof.
  induction hs as [|h hs IH]; intros l s s' at0 bt ot Hok NT Hat Hbt Hot E; [intros h []|].
  assert (Nt : h <> "tot"%string) by (intros ->; apply NT; left; reflexivity).
  assert (NT' : ~ In "tot"%string hs) by (intro; apply NT; right; assumption).
  destruct (step_inv Gam e ins z sfc mie sch kw lut TO h hs l s s' at0 bt ot Nt
              (Hok h (or_introl eq_refl)) Hat Hbt Hot E) as (al & be & q & s1 & Hm & Hq & AC & E1).
  pose proof (after_agree e z sfc TO s h al be at0 bt ot s1 AC) as Ag.
  destruct AC as (Ca & Cb & Co & Ta & Tb & To & Sn & Fr).
  intros h' [<-|Hh']; [eauto|].
  destruct (IH l s1 s' _ _ _ (fun h' H' => Hok h' (or_intror H')) NT' Ta Tb To E1 h' Hh') as [[p Hp] [q' Hq']].
  assert (Ag' : agree (minp e) s1 s) by (intros x Hx; symmetry; apply Ag; exact Hx).
  split; [exists p; exact (mopt_agree h' s1 s p Ag' Hp)|].
  exists q'. unfold var3. rewrite (Ag (qn false h')); [exact Hq'|left; apply inp_q].
Qed.

(** The totals are created by the first class when they are absent. *)
Definition with_totals (s : dset) : dset :=
  if has s (out "beta_p" "tot" false) then s
  else upd (upd (upd s (out "beta_p" "tot" false) (V3 zeros3)) (out "alpha_p" "tot" false) (V3 zeros3))
         (out "OD" "tot" false) (V3 zeros3).
Lemma micro_totals_run s : micro_totals s = (Ok tt, with_totals s).
Proof. unfold micro_totals, with_totals, lbind, rd. destruct (has s _); reflexivity. Qed.
Lemma with_totals_idem s : with_totals (with_totals s) = with_totals s.
Proof.
  unfold with_totals at 1. destruct (has (with_totals s) (out "beta_p" "tot" false)) eqn:E; [reflexivity|].
  exfalso. revert E. unfold with_totals. destruct (has s (out "beta_p" "tot" false)) eqn:E0; [congruence|].
  unfold has. rewrite !upd_other by names. rewrite upd_same. discriminate.
Qed.
Lemma loop_with_totals h hs l s : loop (h :: hs) l s = loop (h :: hs) l (with_totals s).
Proof.
  cbn [micro_loop]. rewrite (bind_ok _ _ _ _ _ (micro_totals_run s)).
  rewrite (bind_ok _ _ _ _ _ (micro_totals_run (with_totals s))), with_totals_idem. reflexivity.
Qed.
Lemma with_totals_agree s : agree (minp e) s (with_totals s).
Proof.
  intros x Hx. unfold with_totals. destruct (has s (out "beta_p" "tot" false)); [reflexivity|].
  rewrite !upd_other by (apply (minp_not_outs e TO); exact Hx). reflexivity.
Qed.
Lemma with_totals_fresh s : has s (out "beta_p" "tot" false) = false ->
  var3 (with_totals s) (out "alpha_p" "tot" false) zeros3 /\ var3 (with_totals s) (out "beta_p" "tot" false) zeros3 /\
  var3 (with_totals s) (out "OD" "tot" false) zeros3.
Proof. intro H. unfold with_totals. rewrite H. split; [|split]; look. Qed.
Lemma with_totals_seen s : dseen (with_totals s) = dseen s.
Proof. unfold with_totals. destruct (has s _); reflexivity. Qed.
End M.
