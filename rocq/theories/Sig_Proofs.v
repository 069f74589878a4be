(** Signals. *)
From Coq Require Import Reals Lra.
From Verif Require Import Xr_Facts Sig_Spec Xds_Proofs.
Local Open Scope string_scope.
Local Open Scope list_scope.

Lemma zhalf_length z : length (zhalf z) = length z.
Proof. induction z as [|a z IH]; [reflexivity|]. cbn [zhalf]. destruct z; [reflexivity|]. cbn [length] in *. now rewrite IH. Qed.
Lemma zhalf_nth (z : nat -> R) n : forall i0 l, l < n ->
  nth l (zhalf (map (fun i => XF (z i / 1000)) (seq i0 n))) XNaN =
  XF (if Nat.ltb (S l) n then ((z (i0 + l)%nat + z (S (i0 + l))%nat) / 2 / 1000)%R else (z (i0 + l)%nat / 1000)%R).
Proof.
  induction n as [|n IH]; intros i0 l L; [lia|]. destruct n as [|n].
  - assert (l = 0) by lia. subst. cbn. rewrite Nat.add_0_r. reflexivity.
  - destruct l as [|l].
    + cbn [seq map zhalf nth]. rewrite Nat.add_0_r. change (Nat.ltb 1 (S (S n))) with true. cbn [xsub xopp xadd]. rewrite xdiv_fin by lra. cbn [xadd]. f_equal. field.
    + etransitivity; [exact (IH (S i0) l ltac:(lia))|].
      replace (S i0 + l) with (i0 + S l) by lia.
      replace (Nat.ltb (S (S l)) (S (S n))) with (Nat.ltb (S l) (S n)); [reflexivity|].
      destruct (Nat.ltb_spec (S l) (S n)), (Nat.ltb_spec (S (S l)) (S (S n))); reflexivity || lia.
Qed.
Lemma each_inv {S} (f : nat -> S -> res S) (P : nat -> S -> Prop) n :
  (forall i s, i < n -> P i s -> exists s', f i s = Ok s' /\ P (Datatypes.S i) s') ->
  forall m i0 s, i0 + m = n -> P i0 s -> exists s', each f (seq i0 m) s = Ok s' /\ P n s'.
Proof.
  intro H. induction m as [|m IH]; intros i0 s E P0.
  - exists s. split; [reflexivity|]. replace n with i0 by lia. exact P0.
  - cbn [seq each]. destruct (H i0 s ltac:(lia) P0) as (s' & -> & P1). cbn [bind]. apply IH; [lia|exact P1].
Qed.
Lemma nth_rows {A} (h : nat -> A) d n l : l < n -> nth l (map h (seq 0 n)) d = h l.
Proof. intro L. rewrite (nth_indep _ d (h 0)) by (rewrite map_length, seq_length; exact L). rewrite map_nth, seq_nth by exact L. reflexivity. Qed.

Section Signals.
Variables (x : xds) (lev : string) (tot ze : nat -> nat -> nat -> nat -> xr) (sig tau : nat -> nat -> nat -> xr) (z : nat -> nat -> nat -> R).
Hypothesis H : simulated x lev tot ze sig tau z.
Let S := sz x "subcolumn". Let T := sz x "time". Let C := sz x "ncol". Let N := sz x lev.

Lemma cell_ok i j k : i < S -> j < T -> k < C -> exists r, get_ATB_ATBmol x i j k = Ok r /\
  r_tot r = map (fun l => tot i j l k) (seq 0 N) /\ r_ze r = map (fun l => ze i j l k) (seq 0 N) /\
  r_mol r = map (fun l => xmul (sig j l k) (tau j l k)) (seq 0 N) /\
  r_z r = map (fun l => XF (z j l k / 1000)) (seq 0 N) /\ r_half r = zhalf (map (fun l => XF (z j l k / 1000)) (seq 0 N)).
Proof.
  intros I J K. destruct H as [(v1 & A1 & D1 & V1) (v2 & A2 & D2 & V2) (v3 & A3 & D3 & V3) (v4 & A4 & D4 & V4) (v5 & A5 & D5 & V5) NP].
  unfold get_ATB_ATBmol, getv, row4, row3. rewrite A1, A2, A3, A4, A5. cbn [bind]. rewrite D1, D2, D3, D4, D5. fold S T C N.
  rewrite (proj2 (Nat.ltb_lt _ _) I), (proj2 (Nat.ltb_lt _ _) J), (proj2 (Nat.ltb_lt _ _) K). cbn [andb bind].
  rewrite String.eqb_refl. cbn [negb]. rewrite !map_length, seq_length.
  destruct (Nat.eqb_spec N 0) as [E|_]; [unfold N in E; lia|].
  assert (ZE : map (fun a => xdiv a (XF 1000)) (map (fun n => vat v5 [j; n; k]) (seq 0 N)) = map (fun l => XF (z j l k / 1000)) (seq 0 N)).
  { rewrite map_map. apply map_ext_in. intros l L. apply in_seq in L. rewrite V5 by (assumption || (unfold N in L; lia)). apply xdiv_fin. lra. }
  rewrite ZE. eexists. split; [reflexivity|]. cbn [r_tot r_ze r_mol r_z r_half].
  split; [apply map_ext; intro; apply V1|]. split; [apply map_ext; intro; apply V2|]. split; [|auto].
  generalize (seq 0 N). induction l as [|a l IH]; [reflexivity|]. cbn [map combine fst snd]. rewrite V3, V4, IH. reflexivity.
Qed.
Definition right4 (g : nat -> nat -> nat -> nat -> xr) (f : nat -> nat -> nat -> nat -> xr) (done : nat -> nat -> nat -> Prop) : Prop :=
  forall i j k l, i < S -> j < T -> k < C -> l < N -> done i j k -> g i j l k = f i j l k.
Definition good (done : nat -> nat -> nat -> Prop) (s : signals) : Prop :=
  right4 (s_tot s) tot done /\ right4 (s_ze s) ze done /\ right4 (s_mol s) (fun i j l k => xmul (sig j l k) (tau j l k)) done /\
  right4 (fun _ j l k => s_z s j l k) (fun _ j l k => XF (z j l k / 1000)) done /\
  right4 (fun _ j l k => s_half s j l k) (fun _ j l k => XF (edge_km N (fun l => z j l k) l)) done.
Definition upto (i0 j0 k0 i j k : nat) : Prop := i < i0 \/ (i = i0 /\ (j < j0 \/ (j = j0 /\ k < k0))).
Lemma step_ok i j k s : i < S -> j < T -> k < C -> good (upto i j k) s ->
  exists s', (do r <- get_ATB_ATBmol x i j k; store N N i j k r s) = Ok s' /\ good (upto i j (1 + k)) s'.
Proof.
  intros I J K G. destruct (cell_ok i j k I J K) as (r & -> & E1 & E2 & E3 & E4 & E5). cbn [bind]. unfold store.
  rewrite E1, E2, E3, E4, E5, zhalf_length, !map_length, seq_length, Nat.eqb_refl. cbn [andb]. eexists. split; [reflexivity|].
  destruct G as (G1 & G2 & G3 & G4 & G5).
  assert (set4_ok : forall g f, right4 g f (upto i j k) -> right4 (set4 g i j k (map (fun l => f i j l k) (seq 0 N))) f (upto i j (1 + k))).
  { intros g f R i' j' k' l I' J' K' L U. unfold set4.
    destruct (Nat.eqb_spec i' i) as [->|]; [destruct (Nat.eqb_spec j' j) as [->|]; [destruct (Nat.eqb_spec k' k) as [->|]|]|]; cbn [andb];
      [rewrite nth_rows by exact L; reflexivity|..]; apply R; try assumption; unfold upto in *; lia. }
  assert (set3_ok : forall g f row, right4 (fun _ => g) (fun _ => f) (upto i j k) -> (forall l, l < N -> nth l row XNaN = f j l k) ->
     right4 (fun _ => set3 g j k row) (fun _ => f) (upto i j (1 + k))).
  { intros g f row R W i' j' k' l I' J' K' L U. unfold set3.
    destruct (Nat.eqb_spec j' j) as [->|]; [destruct (Nat.eqb_spec k' k) as [->|]|]; cbn [andb].
    - apply W. exact L.
    - apply (R i'); try assumption; unfold upto in *; lia.
    - apply (R i'); try assumption; unfold upto in *; lia. }
  split; [apply set4_ok; exact G1|]. split; [apply set4_ok; exact G2|]. split; [apply (set4_ok _ (fun i j l k => xmul (sig j l k) (tau j l k))); exact G3|].
  split.
  - apply (set3_ok (s_z s) (fun j l k => XF (z j l k / 1000))); [exact G4|]. intros l L. exact (nth_rows (fun l => XF (z j l k / 1000)) XNaN N l L).
  - apply (set3_ok (s_half s) (fun j l k => XF (edge_km N (fun l => z j l k) l))); [exact G5|]. intros l L.
    rewrite (zhalf_nth (fun l => z j l k)) by exact L. unfold edge_km. cbn [Nat.add]. destruct (Nat.ltb (Datatypes.S l) N); reflexivity.
Qed.
Lemma good_ext (d d' : nat -> nat -> nat -> Prop) s : (forall i j k, i < S -> j < T -> k < C -> d' i j k -> d i j k) -> good d s -> good d' s.
Proof. intros D (G1 & G2 & G3 & G4 & G5). repeat split; intros i j k l I J K L U; [apply G1|apply G2|apply G3|apply (G4 i)|apply (G5 i)]; auto. Qed.

Theorem signals_ok empty : exists s, get_radar_lidar_signals empty x = Ok s /\
  forall i j l k, i < S -> j < T -> l < N -> k < C ->
    s_tot s i j l k = tot i j l k /\ s_ze s i j l k = ze i j l k /\ s_mol s i j l k = xmul (sig j l k) (tau j l k) /\
    s_z s j l k = XF (z j l k / 1000) /\ s_half s j l k = XF (edge_km N (fun l => z j l k) l).
Proof.
  assert (R : exists s, get_radar_lidar_signals empty x = Ok s /\ good (fun i _ _ => i < S) s).
  { unfold get_radar_lidar_signals. pose proof H as [(v1 & A1 & D1 & _) _ _ _ (v5 & A5 & D5 & _) _]. unfold getv. rewrite A1, A5. cbn [bind]. rewrite D1, D5.
    assert (HD : forall d, In d ["subcolumn"; "time"; lev; "ncol"] -> has_dim x d = true).
    { intros d I. apply has_dim_in, in_dims. exists "sub_col_beta_att_tot", v1. split; [|rewrite D1; exact I].
      clear -A1. induction (all_vars x) as [|[a b] l IH]; [discriminate|]. cbn in A1. destruct (String.eqb_spec a "sub_col_beta_att_tot") as [->|]; [injection A1 as ->; left; reflexivity|right; auto]. }
    rewrite !HD by (simpl; tauto). cbn [andb]. fold S T C N.
    apply (each_inv _ (fun i s => good (fun i' _ _ => i' < i) s) S); [|lia|].
    - intros i s I G. 
      destruct (each_inv (fun j => each (fun k s => do r <- get_ATB_ATBmol x i j k; store N N i j k r s) (seq 0 C)) (fun j s => good (upto i j 0) s) T) with (m := T) (i0 := 0) (s := s)
        as (s' & E & G'); [|lia| |].
      + intros j s1 J G1.
        destruct (each_inv (fun k s => do r <- get_ATB_ATBmol x i j k; store N N i j k r s) (fun k s => good (upto i j k) s) C) with (m := C) (i0 := 0) (s := s1)
          as (s' & E & G'); [|lia|exact G1|].
        * intros k s2 K G2. apply (step_ok i j k s2 I J K G2).
        * exists s'. split; [exact E|]. eapply good_ext; [|exact G']. intros i' j' k' _ _ K' U. unfold upto in *. lia.
      + eapply good_ext; [|exact G]. intros i' j' k' _ _ _ U. unfold upto in U. cbv beta. lia.
      + exists s'. split; [exact E|]. eapply good_ext; [|exact G']. intros i' j' k' _ J' _ U. cbv beta in U. unfold upto. lia.
    - repeat split; intros i j k l I J K L U; lia. }
  destruct R as (s & E & G1 & G2 & G3 & G4 & G5). exists s. split; [exact E|]. intros i j l k I J L K.
  split; [apply G1; auto|]. split; [apply G2; auto|]. split; [apply (G3 i j k l); auto|]. split; [apply (G4 i j k l); auto|apply (G5 i j k l); auto].
Qed.
End Signals.
