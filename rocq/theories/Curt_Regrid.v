(** Displays of regridded fields, and what they do to the array given. *)
From Coq Require Import Reals Lra ZArith Lia.
From Verif Require Import Xr_Facts Disp_Stat Disp_Prof Disp_Crop Xds_Proofs Xds_Stack Xds_Fields Load_Facts Curt_Model Curt_Spec Curt_Facts Curt_Time Curt_Thm.
Local Open Scope string_scope.
Local Open Scope list_scope.

Lemma position_ok n z i : indexes n z i -> position n z = Ok i.
Proof.
  intros [I [E|[E1 E2]]]; unfold position.
  - subst z. destruct (0 <=? Z.of_nat i)%Z eqn:H1; [|apply Z.leb_gt in H1; lia]. destruct (Z.of_nat i <? Z.of_nat n)%Z eqn:H2; [|apply Z.ltb_ge in H2; lia].
    cbn [andb]. rewrite Nat2Z.id. reflexivity.
  - destruct (0 <=? z)%Z eqn:H1; [apply Z.leb_le in H1; lia|]. cbn [andb]. destruct (z <? 0)%Z eqn:H2; [|apply Z.ltb_ge in H2; lia].
    destruct (- Z.of_nat n <=? z)%Z eqn:H3; [|apply Z.leb_gt in H3; lia]. cbn [andb]. rewrite <- E2, Nat2Z.id. reflexivity.
Qed.
Lemma xleb_not_positive a : xleb a (XF 0) = not_positive a.
Proof. destruct a; reflexivity. Qed.
Lemma xeqb_is_zero a : xeqb a (XF 0) = is_zero a.
Proof. destruct a; reflexivity. Qed.
Lemma timed_vector d c times : timed d c times -> exists g, vector (d_ds d) (time_dim (d_model d)) = Ok (times, g) /\ forall j, j < times -> g j = XF (c j).
Proof.
  intros ((v & A & D & V & _) & T & _). exists (fun i => vat v [i]). split.
  - rewrite (vector_ok _ _ v (time_dim (d_model d))); [rewrite T; reflexivity| |exact D]. unfold all_vars. rewrite Xds_Round.assoc_app, A. reflexivity.
  - intros j J. apply V. rewrite T. exact J.
Qed.
Lemma squeeze_two a m n : ash a = [m; n] -> m <> 1 -> n <> 1 -> ash (squeeze a) = [m; n] /\ forall i j, aat (squeeze a) [i; j] = aat a [i; j].
Proof.
  intros E M N. unfold squeeze. cbn [ash aat]. rewrite E. cbn [filter].
  destruct (Nat.eqb_spec m 1); [contradiction|]. destruct (Nat.eqb_spec n 1); [contradiction|]. cbn [negb]. split; [reflexivity|].
  intros i j. cbn [expand]. destruct (Nat.eqb_spec m 1); [contradiction|]. destruct (Nat.eqb_spec n 1); [contradiction|]. reflexivity.
Qed.
Lemma squeeze_one a n : ash a = [1; n] \/ ash a = [n; 1] -> length (ash (squeeze a)) <> 2.
Proof. unfold squeeze. cbn [ash]. intros [->| ->]; cbn [filter]; destruct (Nat.eqb n 1); cbn; lia. Qed.
Lemma finish_ok d c times g ys (y : nat -> R) a (f : nat -> nat -> xr) (levels : nat) titled dated :
  timed d c times -> (forall j, j < times -> g j = XF (c j)) -> (forall k, k < levels -> nth k ys XNaN = XF (y k)) -> length ys = levels ->
  ash a = [times; levels] -> times <> 1 -> levels <> 1 -> (forall t k, aat a [t; k] = f t k) ->
  (titled = true \/ (dated = true /\ 0 < times)) ->
  exists p, finish (d_model d) times g ys a titled dated = Ok p /\ shows p times levels c y f.
Proof.
  intros (_ & T & OWN) G Y L S N1 N2 V TT. destruct (squeeze_two a times levels S N1 N2) as [S2 V2].
  unfold finish. rewrite L.
  destruct (draw_plain times levels g (fun i => nth i ys XNaN) c y (flip_axes (squeeze a)) f (no_opts titled dated) G Y) as (p & P & SH & _).
  - cbn [flip_axes ash]. rewrite S2. reflexivity.
  - intros j k. cbn [flip_axes aat rev app]. rewrite V2. apply V.
  - discriminate.
  - change (with_mask (no_opts titled dated) None (HBool false)) with (no_opts titled dated) in P. rewrite P. cbn [bind].
    rewrite OWN, T, title_ok by exact TT. exists p. split; [reflexivity|exact SH].
Qed.
Lemma finish_fails d times g ys a n titled dated : ash a = [1; n] \/ ash a = [n; 1] -> exists e, finish (d_model d) times g ys a titled dated = Raise e.
Proof.
  intro S. apply squeeze_one in S. unfold finish. unfold draw. cbn [no_opts o_log o_mask o_hatch option_map hide bind]. unfold pcolormesh. cbn [flip_axes ash].
  destruct (rev (ash (squeeze a))) as [|p [|q [|r l]]] eqn:R; try (exists ValueError; reflexivity).
  exfalso. apply S. rewrite <- (rev_length (ash (squeeze a))), R. reflexivity.
Qed.

Section CF.
Context (d : disp) (c : nat -> R) (times a b n : nat) (g : nat -> nat -> nat -> xr) (col : Z) (k0 : nat).
Context (TM : timed d c times) (C : indexes n col k0).
Lemma cf_array grid titled dated :
  let A' := fst (regridded_CF d (array3 a b n g) grid col titled dated) in
  ash A' = [a; b; n] /\ forall t h k, aat A' [t; h; k] = if Nat.eqb k k0 && not_positive (g t h k) then XNaN else g t h k.
Proof.
  cbv zeta. destruct (timed_vector d c times TM) as (gx & VX & _). unfold regridded_CF. rewrite VX. cbn [array3 ash]. rewrite (position_ok n col k0 C). cbn [fst ash aat].
  split; [reflexivity|]. intros t h k. cbn [array3 aat nth]. rewrite xleb_not_positive. reflexivity.
Qed.
Lemma cf_panel grid (y : nat -> R) titled dated : a = times -> length grid = b -> (forall k, k < b -> nth k grid XNaN = XF (y k)) -> times <> 1 -> b <> 1 ->
  (titled = true \/ (dated = true /\ 0 < times)) ->
  exists p, snd (regridded_CF d (array3 a b n g) grid col titled dated) = Ok p /\
    shows p times b c y (fun t h => if not_positive (g t h k0) then XNaN else g t h k0).
Proof.
  intros -> L Y N1 N2 TT. destruct (timed_vector d c times TM) as (gx & VX & X). unfold regridded_CF. rewrite VX. cbn [array3 ash]. rewrite (position_ok n col k0 C). cbn [snd].
  apply (finish_ok d c times gx grid y _ _ b titled dated TM X Y L); [reflexivity|exact N1|exact N2| |exact TT].
  intros t h. cbn [slice3 aat array3 nth]. rewrite Nat.eqb_refl, xleb_not_positive. reflexivity.
Qed.
Lemma cf_single grid titled dated : a = 1 \/ b = 1 -> exists e, snd (regridded_CF d (array3 a b n g) grid col titled dated) = Raise e.
Proof.
  intro H. destruct (timed_vector d c times TM) as (gx & VX & X). unfold regridded_CF. rewrite VX. cbn [array3 ash]. rewrite (position_ok n col k0 C). cbn [snd].
  apply (finish_fails d times gx grid _ (if Nat.eqb a 1 then b else a)). cbn [slice3 ash firstn]. destruct H as [-> | ->]; [left; reflexivity|].
  destruct (Nat.eqb_spec a 1) as [->|]; [left|right]; reflexivity.
Qed.
End CF.
Section SR.
Context (d : disp) (c : nat -> R) (times ns a b n : nat) (g : nat -> nat -> nat -> nat -> xr) (col sub : Z) (k0 s0 : nat).
Context (TM : timed d c times) (C : indexes n col k0) (S : indexes ns sub s0).
Lemma sr_array grid titled dated :
  let A' := fst (regridded_SR d (array4 ns a b n g) grid col sub titled dated) in
  ash A' = [ns; a; b; n] /\
  forall s t h k, aat A' [s; t; h; k] = if Nat.eqb s s0 && Nat.eqb k k0 && is_zero (g s t h k) then XNaN else g s t h k.
Proof.
  cbv zeta. destruct (timed_vector d c times TM) as (gx & VX & _). unfold regridded_SR. rewrite VX. cbn [array4 ash].
  rewrite (position_ok ns sub s0 S), (position_ok n col k0 C). cbn [fst ash aat].
  split; [reflexivity|]. intros s t h k. cbn [array4 aat nth]. rewrite xeqb_is_zero. reflexivity.
Qed.
Lemma sr_panel grid (y : nat -> R) titled dated : a = times -> length grid = b -> (forall k, k < b -> nth k grid XNaN = XF (y k)) -> times <> 1 -> b <> 1 ->
  (titled = true \/ (dated = true /\ 0 < times)) ->
  exists p, snd (regridded_SR d (array4 ns a b n g) grid col sub titled dated) = Ok p /\
    shows p times b c (fun k => y k * 1000)%R (fun t h => if is_zero (g s0 t h k0) then XNaN else g s0 t h k0).
Proof.
  intros -> L Y N1 N2 TT. destruct (timed_vector d c times TM) as (gx & VX & X). unfold regridded_SR. rewrite VX. cbn [array4 ash].
  rewrite (position_ok ns sub s0 S), (position_ok n col k0 C). cbn [snd].
  apply (finish_ok d c times gx _ _ _ _ b titled dated TM X); [|rewrite map_length; exact L|reflexivity|exact N1|exact N2| |exact TT].
  - intros k K. rewrite (nth_indep _ XNaN (xmul XNaN (XF 1000))) by (rewrite map_length; lia). rewrite (map_nth (fun z => xmul z (XF 1000))), Y by exact K. reflexivity.
  - intros t h. cbn [slice4 aat array4 nth]. rewrite !Nat.eqb_refl, xeqb_is_zero. reflexivity.
Qed.
End SR.

(** Several displays of one array. *)
Fixpoint cf_all (d : disp) (grid : list xr) (titled dated : bool) (cols : list Z) (A : arr) : arr :=
  match cols with [] => A | z :: r => cf_all d grid titled dated r (fst (regridded_CF d A grid z titled dated)) end.
Lemma cf_step d c times A col n k0 grid titled dated a b : timed d c times -> indexes n col k0 -> ash A = [a; b; n] ->
  ash (fst (regridded_CF d A grid col titled dated)) = [a; b; n] /\
  forall t h k, aat (fst (regridded_CF d A grid col titled dated)) [t; h; k] = if Nat.eqb k k0 && not_positive (aat A [t; h; k]) then XNaN else aat A [t; h; k].
Proof.
  intros TM C S. destruct (timed_vector d c times TM) as (gx & VX & _). unfold regridded_CF. rewrite VX, S. rewrite (position_ok n col k0 C). cbn [fst ash aat].
  split; [reflexivity|]. intros t h k. cbn [nth]. rewrite xleb_not_positive. reflexivity.
Qed.
Theorem cf_history d c times a b n g grid titled dated cols ks : timed d c times -> Forall2 (fun z k => indexes n z k) cols ks ->
  forall t h k, aat (cf_all d grid titled dated cols (array3 a b n g)) [t; h; k] =
    if existsb (Nat.eqb k) ks && not_positive (g t h k) then XNaN else g t h k.
Proof.
  intros TM F t h k.
  assert (Gen : forall cols ks, Forall2 (fun z k => indexes n z k) cols ks -> forall A, ash A = [a; b; n] ->
    aat (cf_all d grid titled dated cols A) [t; h; k] = if existsb (Nat.eqb k) ks && not_positive (aat A [t; h; k]) then XNaN else aat A [t; h; k]).
  { clear F. induction 1 as [|z k0 cols' ks' I F IH]; intros A S; [reflexivity|]. cbn [cf_all existsb].
    destruct (cf_step d c times A z n k0 grid titled dated a b TM I S) as [S' V]. rewrite (IH _ S'), V.
    destruct (Nat.eqb k k0); cbn [andb orb]; [|reflexivity]. destruct (not_positive (aat A [t; h; k])) eqn:E; [|rewrite E, Bool.andb_false_r; reflexivity].
    cbn [not_positive]. rewrite Bool.andb_false_r. reflexivity. }
  rewrite (Gen cols ks F); reflexivity.
Qed.

(** Colours of classes. *)
Lemma int_part_nat (k : nat) e : (0 <= e < 1)%R -> Int_part (INR k + e) = Z.of_nat k.
Proof.
  intros E. symmetry. unfold Int_part. rewrite INR_IZR_INZ. assert (up (IZR (Z.of_nat k) + e) = Z.of_nat k + 1)%Z as ->; [|lia].
  symmetry. apply tech_up; rewrite plus_IZR; lra.
Qed.
Theorem class_colours cl var zeros l : (cl = Some l \/ cl = None /\ var = Some (Some l)) -> l <> [] ->
  exists b, change_plot_to_class_mask cl var None zeros = Ok b /\
    (forall k, 1 <= k <= length l -> In (k, nth (k - 1) l "") (b_ticks b)) /\
    (zeros = false -> In (0, "clear") (b_ticks b)) /\
    (forall k, (if zeros then 1 else 0) <= k <= length l -> (b_lo b < INR k < b_hi b)%R /\ (0 <= colour b (INR k) < Z.of_nat (b_colours b))%Z) /\
    (forall k k', (if zeros then 1 else 0) <= k <= length l -> (if zeros then 1 else 0) <= k' <= length l -> colour b (INR k) = colour b (INR k') -> k = k') /\
    length (b_ticks b) = b_colours b.
Proof.
  intros H NE. assert (L0 : 0 < length l) by (destruct l; [congruence|cbn; lia]).
  assert (LR : (0 < INR (length l))%R) by (apply lt_0_INR; exact L0).
  assert (TK : forall i l k, 1 <= k <= length l -> In (i + k, nth (k - 1) l "") (combine (seq (S i) (length l)) l)).
  { clear. intros i l. revert i. induction l as [|a l IH]; intros i k K; cbn in K; [lia|]. cbn [length seq combine]. destruct (Nat.eq_dec k 1) as [->|N].
    - left. cbn. f_equal. lia.
    - right. replace (i + k) with (S i + (k - 1)) by lia. replace (nth (k - 1) (a :: l) "") with (nth (k - 1 - 1) l "").
      + apply IH. lia.
      + destruct k as [|[|k]]; [lia|lia|]. cbn. rewrite Nat.sub_0_r. reflexivity. }
  assert (E : change_plot_to_class_mask cl var None zeros = Ok (if zeros
      then {| b_colours := length l; b_lo := 1 / 2; b_hi := INR (length l) + 1 / 2; b_ticks := combine (seq 1 (length l)) l |}
      else {| b_colours := S (length l); b_lo := - (1 / 2); b_hi := INR (length l) + 1 / 2; b_ticks := combine (seq 0 (S (length l))) ("clear" :: l) |})).
  { unfold change_plot_to_class_mask. destruct H as [->|[-> ->]]; cbn [bind]; destruct zeros; reflexivity. }
  rewrite E. eexists. split; [reflexivity|]. clear E H. destruct zeros.
  - assert (CO : forall k, 1 <= k <= length l -> colour {| b_colours := length l; b_lo := 1 / 2; b_hi := INR (length l) + 1 / 2; b_ticks := combine (seq 1 (length l)) l |} (INR k) = Z.of_nat (k - 1)).
    { intros k K. unfold colour. cbn [b_lo b_hi b_colours]. replace ((INR k - 1 / 2) / (INR (length l) + 1 / 2 - 1 / 2) * INR (length l))%R with (INR (k - 1) + 1 / 2)%R.
      - apply int_part_nat. lra.
      - rewrite minus_INR by lia. cbn [INR]. field. lra. }
    cbn [b_ticks b_lo b_hi b_colours]. split; [intros k K; apply (TK 0); exact K|]. split; [discriminate|]. split; [|split].
    + intros k K. split. * pose proof (le_INR 1 k ltac:(lia)) as A. pose proof (le_INR k (length l) ltac:(lia)) as B. cbn [INR] in A. lra.
      * rewrite CO by exact K. lia.
    + intros k k' K K'. rewrite !CO by assumption. lia.
    + rewrite combine_length, seq_length. lia.
  - assert (CO : forall k, 0 <= k <= length l -> colour {| b_colours := S (length l); b_lo := - (1 / 2); b_hi := INR (length l) + 1 / 2; b_ticks := combine (seq 0 (S (length l))) ("clear" :: l) |} (INR k) = Z.of_nat k).
    { intros k K. unfold colour. cbn [b_lo b_hi b_colours]. rewrite S_INR. replace ((INR k - - (1 / 2)) / (INR (length l) + 1 / 2 - - (1 / 2)) * (INR (length l) + 1))%R with (INR k + 1 / 2)%R.
      - apply int_part_nat. lra.
      - field. lra. }
    cbn [b_ticks b_lo b_hi b_colours]. split; [intros k K; right; apply (TK 0); exact K|]. split; [intros _; left; reflexivity|]. split; [|split].
    + intros k K. split. * pose proof (pos_INR k) as A. pose proof (le_INR k (length l) ltac:(lia)) as B. lra.
      * rewrite CO by exact K. lia.
    + intros k k' K K'. rewrite !CO by assumption. lia.
    + rewrite combine_length, seq_length. cbn [length]. lia.
Qed.
