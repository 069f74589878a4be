(** Drawing and selection. *)
From Coq Require Import Reals Lra ZArith Lia.
From Verif Require Import Xr_Facts Disp_Stat Disp_Prof Disp_Crop Xds_Proofs Xds_Stack Xds_Fields Load_Facts Curt_Model Curt_Spec.
Local Open Scope string_scope.
Local Open Scope list_scope.

Lemma all_finite n (x : nat -> xr) (c : nat -> R) : (forall i, i < n -> x i = XF (c i)) -> forallb (fun i => isfin (x i)) (seq 0 n) = true.
Proof. intro H. apply forallb_forall. intros i I. apply in_seq in I. rewrite H by lia. reflexivity. Qed.
Lemma same_shape_true a b : ash a = ash b -> same_shape a b = true.
Proof. intro E. unfold same_shape. destruct (list_eq_dec Nat.eq_dec (ash a) (ash b)); [reflexivity|contradiction]. Qed.
Lemma same_shape_false a b : ash a <> ash b -> same_shape a b = false.
Proof. intro E. unfold same_shape. destruct (list_eq_dec Nat.eq_dec (ash a) (ash b)); [contradiction|reflexivity]. Qed.
Lemma hide_shape k h a : ash (hide k h a) = ash a.
Proof. unfold hide. destruct k as [k|]; [|reflexivity]. destruct (same_shape k a && negb (truthy h)); reflexivity. Qed.
Lemma xleb_hides k : xleb k (XF 0) = negb (hides k).
Proof. destruct k as [r| | |]; try reflexivity. cbn. unfold Rleb. destruct (Rle_dec r 0); reflexivity. Qed.

Section Draw.
Context (nx ny : nat) (x y : nat -> xr) (c e : nat -> R) (a : arr) (o : opts).
Context (X : forall i, i < nx -> x i = XF (c i)) (Y : forall i, i < ny -> y i = XF (e i)) (S : ash a = [ny; nx])
  (L : o_log o = true -> o_lo o <> None /\ o_hi o <> None).

Lemma draw_log : (if o_log o then match o_lo o, o_hi o with Some _, Some _ => Ok tt | _, _ => Raise UnboundLocalError end else Ok tt) = Ok tt.
Proof. destruct (o_log o); [|reflexivity]. destruct (L eq_refl) as [A B]. destruct (o_lo o), (o_hi o); congruence. Qed.
Lemma mesh_ok b : ash b = [ny; nx] -> pcolormesh nx ny x y b = Ok (ny, nx, false).
Proof. intro E. unfold pcolormesh. rewrite E, (all_finite nx x c X), (all_finite ny y e Y), !Nat.eqb_refl. reflexivity. Qed.
Lemma draw_ok hat :
  (if hatches (o_hatch o) then
     match option_map flip_axes (o_mask o) with
     | None => Ok (Some (fun _ _ => true))
     | Some k => if same_shape k (hide (option_map flip_axes (o_mask o)) (o_hatch o) a)
                 then Ok (Some (fun i j => negb (xeqb (aat k [i; j]) (XF 0)))) else Raise IndexError
     end else Ok None) = Ok hat ->
  draw nx ny x y a o = Ok {| p_rows := ny; p_cols := nx; p_edges := false; p_x := x; p_y := y;
    p_val := fun i j => aat (hide (option_map flip_axes (o_mask o)) (o_hatch o) a) [i; j];
    p_log := o_log o; p_lo := o_lo o; p_hi := o_hi o; p_hatch := hat |}.
Proof.
  intro H. unfold draw. rewrite draw_log. cbn [bind]. rewrite mesh_ok by (rewrite hide_shape; exact S). cbn [bind fst snd].
  rewrite H. reflexivity.
Qed.
End Draw.

Lemma vector_ok x n v d : assoc (all_vars x) n = Some v -> vdims v = [d] -> vector x n = Ok (sz x d, fun i => vat v [i]).
Proof. intros A D. unfold vector, axis_of. rewrite A, D. reflexivity. Qed.
Lemma vector_dim x d : In d (all_dims x) -> (forall v, assoc (all_vars x) d = Some v -> vdims v = [d]) -> exists g, vector x d = Ok (sz x d, g).
Proof.
  intros I A. unfold vector, axis_of. destruct (assoc (all_vars x) d) as [v|]; [rewrite (A v eq_refl); eexists; reflexivity|].
  apply memb_in in I. rewrite I. eexists. reflexivity.
Qed.
Lemma pick_assoc d i x n : assoc (all_vars (pick_ds d i x)) n = option_map (pick d i) (assoc (all_vars x) n).
Proof. unfold all_vars, pick_ds. cbn [coords vars]. unfold on_vals. rewrite <- map_app. apply (assoc_on_vals (pick d i)). Qed.
Lemma pick_other d i v : ~ In d (vdims v) -> pick d i v = v.
Proof. intro N. unfold pick. apply memb_out in N. rewrite N. reflexivity. Qed.
Lemma dims_pick d e i x : d <> e -> In e (all_dims (pick_ds d i x)) <-> In e (all_dims x).
Proof. intro N. rewrite <- !has_dim_in, has_dim_pick by exact N. reflexivity. Qed.
Lemma pick_first d a b i v : NoDup [d; a; b] -> vdims v = [d; a; b] -> forall t k, vat (pick d i v) [t; k] = vat v [i; t; k].
Proof.
  intros N V t k. pose proof (at_pick d i v (fun e => if String.eqb e a then t else k)) as H. unfold at_ in H.
  rewrite (pick_dims d i v), V in H. inversion N as [|? ? N1 N2]; subst. inversion N2 as [|? ? N3 N4]; subst.
  assert (D1 : d <> a) by (intros ->; apply N1; left; reflexivity). assert (D2 : d <> b) by (intros ->; apply N1; right; left; reflexivity).
  assert (D3 : a <> b) by (intros ->; apply N3; left; reflexivity).
  cbn [filter map] in H. rewrite String.eqb_refl in H.
  destruct (String.eqb_spec a d); [congruence|]. destruct (String.eqb_spec b d); [congruence|]. cbn [negb filter map] in H.
  rewrite String.eqb_refl in H. destruct (String.eqb_spec b a); [congruence|]. exact H.
Qed.

(** The subcolumn selected. *)
Lemma find_first (g : nat -> bool) s n a : s < a + n -> a <= s -> g s = true -> (forall i, i < s -> g i = false) -> find g (seq a n) = Some s.
Proof.
  revert a. induction n as [|n IH]; intros a A B G F; [lia|]. cbn. destruct (Nat.eq_dec a s) as [->|N]; [rewrite G; reflexivity|].
  rewrite F by lia. apply IH; [lia|lia|exact G|exact F].
Qed.
Lemma select_ok x z s : has_dim x "subcolumn" = true -> asked x z s -> select_subcolumn x z = Ok (pick_ds "subcolumn" s x).
Proof.
  intros HD (A & B). unfold select_subcolumn. destruct (assoc (coords x) "subcolumn") as [v|].
  - destruct B as (_ & B & C). rewrite (find_first _ s); [reflexivity|lia|lia| |].
    + rewrite B. cbn. unfold Reqb. destruct (Req_EM_T (IZR z) (IZR z)); [reflexivity|congruence].
    + intros i I. specialize (C i I). destruct (vat v [i]); cbn; try reflexivity. unfold Reqb. destruct (Req_EM_T r (IZR z)); [subst; congruence|reflexivity].
  - rewrite HD. unfold position. destruct B as [B|[B1 B2]].
    + subst z. destruct (0 <=? Z.of_nat s)%Z eqn:E1; [|apply Z.leb_gt in E1; lia].
      destruct (Z.of_nat s <? Z.of_nat (sz x "subcolumn"))%Z eqn:E2; [|apply Z.ltb_ge in E2; lia]. cbn [andb bind]. rewrite Nat2Z.id. reflexivity.
    + destruct (0 <=? z)%Z eqn:E1; [apply Z.leb_le in E1; lia|]. cbn [andb].
      destruct (z <? 0)%Z eqn:E2; [|apply Z.ltb_ge in E2; lia]. destruct (- Z.of_nat (sz x "subcolumn") <=? z)%Z eqn:E3; [|apply Z.leb_gt in E3; lia].
      cbn [andb bind]. rewrite <- B2, Nat2Z.id. reflexivity.
Qed.
Lemma mean_fin (h : nat -> R) l : l <> [] -> xdiv (xsum (map (fun t => XF (h t)) l)) (XF (INR (length l))) = XF (average (map h l)).
Proof.
  intro N. assert (S : xsum (map (fun t => XF (h t)) l) = XF (total (map h l))).
  { clear N. induction l as [|a l IH]; [reflexivity|]. cbn [map]. rewrite xsum_cons, IH. reflexivity. }
  rewrite S, xdiv_fin; [unfold average; rewrite map_length; reflexivity|].
  apply not_0_INR. destruct l; [congruence|discriminate].
Qed.
