(** Fall velocities of the P3 table, and missing inputs of the NSSL scheme. *)
From Coq Require Import Reals Lra Lia List.
From Verif Require Import Scat_Spec Xr_Facts.
Import ListNotations.
Local Open Scope R_scope.
Local Open Scope string_scope.

Lemma Rltb_true a b : Rltb a b = true <-> a < b.
Proof. unfold Rltb. destruct (Rlt_dec a b); split; intro H; auto; congruence. Qed.
Lemma nanmin_lowest c lo : In (XF lo) c -> (forall g, In g c -> g = XNaN \/ g = XP \/ exists r, g = XF r /\ lo <= r) -> nanmin c = XF lo.
Proof.
  intros I B. unfold nanmin, nanfold.
  set (f := fun a x : xr => if isnan x then a else if isnan a then x else if xltb x a then x else a).
  assert (S : forall x a, x = XNaN \/ x = XP \/ (exists r, x = XF r /\ lo <= r) -> a = XNaN \/ a = XP \/ (exists r, a = XF r /\ lo <= r) ->
    (f a x = XNaN \/ f a x = XP \/ exists r, f a x = XF r /\ lo <= r) /\ (a = XF lo -> f a x = XF lo) /\ (x = XF lo -> f a x = XF lo)).
  { intros x a X A. unfold f. destruct X as [-> |[-> |(r & -> & H)]]; cbn [isnan].
    - split; [exact A|]. split; [tauto|discriminate].
    - destruct A as [-> |[-> |(q & -> & Q)]]; cbn [isnan xltb].
      + split; [auto|]. split; discriminate.
      + split; [auto|]. split; discriminate.
      + split; [right; right; eauto|]. split; [tauto|discriminate].
    - destruct A as [-> |[-> |(q & -> & Q)]]; cbn [isnan xltb].
      + split; [right; right; eauto|]. split; [discriminate|tauto].
      + split; [right; right; eauto|]. split; [discriminate|tauto].
      + destruct (Rltb r q) eqn:E.
        * apply Rltb_true in E. split; [right; right; eauto|]. split; [|tauto]. intros [= ->]. lra.
        * split; [right; right; eauto|]. split; [tauto|]. intros [= ->]. f_equal.
          assert (~ lo < q) by (intro L; apply Rltb_true in L; congruence). lra. }
  assert (K : forall l a, (forall g, In g l -> g = XNaN \/ g = XP \/ exists r, g = XF r /\ lo <= r) ->
    a = XNaN \/ a = XP \/ (exists r, a = XF r /\ lo <= r) -> In (XF lo) l \/ a = XF lo -> fold_left f l a = XF lo).
  { induction l as [|x l IH]; intros a L A [J|J]; cbn [fold_left]; [destruct J|exact J| |].
    - destruct (S x a (L x (or_introl eq_refl)) A) as (S1 & S2 & S3). apply IH; [intros; apply L; right; assumption|exact S1|].
      destruct J as [J|J]; [right; auto|left; exact J].
    - destruct (S x a (L x (or_introl eq_refl)) A) as (S1 & S2 & S3). apply IH; [intros; apply L; right; assumption|exact S1|right; auto]. }
  apply K; auto.
Qed.
Theorem fill_any c lo : In (XF lo) c -> (forall g, In g c -> g = XNaN \/ g = XP \/ exists r, g = XF r /\ lo <= r) ->
  length (fill_vt c) = length c /\
  (forall i r, nth_error c i = Some (XF r) -> nth_error (fill_vt c) i = Some (XF r)) /\
  (forall i, nth_error c i = Some XNaN \/ nth_error c i = Some XP -> nth_error (fill_vt c) i = Some (XF lo)).
Proof.
  intros I B. pose proof (nanmin_lowest c lo I B) as E. unfold fill_vt. split; [apply map_length|]. split.
  - intros i r H. rewrite nth_error_map, H. reflexivity.
  - intros i [H|H]; rewrite nth_error_map, H; cbn [option_map is_finite]; rewrite E; reflexivity.
Qed.
Theorem velocity_missing h d rho : In (lower h) ["pl"; "gr"; "ha"; "sn"; "cl"] ->
  nssl_velocity h XNaN (XF rho) = XNaN /\ (In (lower h) ["gr"; "ha"] -> nssl_velocity h d XNaN = XNaN).
Proof.
  intro I. unfold nssl_velocity. cbn [In] in I. split.
  - destruct I as [<-|[<-|[<-|[<-|[<-|[]]]]]]; cbn [String.eqb Ascii.eqb Bool.eqb]; try reflexivity; unfold nssl_drop; cbn [xsqrt];
      cbn [xpow];
      try (destruct (Req_EM_T _ 0); [exfalso; lra|reflexivity]); match goal with |- xmul ?a XNaN = XNaN => destruct a; reflexivity end.
  - intro J. cbn [In] in J. destruct J as [<-|[<-|[]]]; cbn [String.eqb Ascii.eqb Bool.eqb]; unfold nssl_drop; cbn [xmul xdiv xsqrt]; reflexivity.
Qed.
