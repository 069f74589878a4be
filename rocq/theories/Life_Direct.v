(** Setting the number of subcolumns first, or giving it to the first call. *)
From Verif Require Import Gen_Facts Life_Model.
Local Open Scope nat_scope.

Lemma direct_convective m N hyd rad thr : 2 <= N -> unset m ->
  let r1 := set_convective hyd (Some N) rad thr m in
  let r2 := set_convective hyd None rad thr (snd (set_num_subcolumns N m)) in
  fst r1 = fst r2 /\ (fst r1 = Ok tt -> snd r1 = snd r2).
Proof.
  intros HN [H0 Hu]. cbv zeta. unfold set_num_subcolumns. rewrite (set_dim_unset N m Hu). cbn [snd].
  unfold set_convective. rewrite !bind_get. change (num_sub (with_dim N m)) with N. rewrite H0.
  destruct (Nat.eqb_spec N 0) as [|_]; [lia|]. rewrite !bind_ret.
  change (0 =? 0) with true. rewrite andb_false_r. change (nm (with_dim N m)) with (nm m).
  destruct N as [|[|N]]; [lia|lia|].
  destruct (assoc (frac_conv (nm m)) hyd) as [fn|] eqn:E.
  2:{ assert (EG : get_name (frac_conv (nm m)) hyd = raise KeyError) by (unfold get_name; rewrite E; reflexivity).
      rewrite EG. split; [reflexivity|]. unfold mbind at 1, raise. intro H; discriminate H. }
  assert (EG : get_name (frac_conv (nm m)) hyd = ret fn) by (unfold get_name; rewrite E; reflexivity).
  rewrite EG, !bind_ret.
  assert (G : forall n d, (exists g, get_grid n m = (Ok g, m) /\ get_grid n (with_dim d m) = (Ok g, with_dim d m)) \/
                          exists e, get_grid n m = (Raise e, m) /\ get_grid n (with_dim d m) = (Raise e, with_dim d m)).
  { intros n d. unfold get_grid, get_var, mbind. change (ds (with_dim d m)) with (ds m).
    destruct (assoc (ds m) n) as [[]|]; [left; eexists; split; reflexivity|right; eexists; split; reflexivity..]. }
  destruct (G fn (S (S N))) as [(g & E1 & E2)|(e & E1 & E2)].
  2:{ assert (B1 : forall B (k : _ -> M B), mbind (get_grid fn) k m = (Raise e, m)) by (intros; unfold mbind; rewrite E1; reflexivity).
      assert (B2 : forall B (k : _ -> M B), mbind (get_grid fn) k (with_dim (S (S N)) m) = (Raise e, with_dim (S (S N)) m)) by (intros; unfold mbind; rewrite E2; reflexivity).
      rewrite B1, B2. split; [reflexivity|]. intro H; discriminate H. }
  assert (B1 : forall B (k : _ -> M B), mbind (get_grid fn) k m = k g m) by (intros; unfold mbind; rewrite E1; reflexivity).
  assert (B2 : forall B (k : _ -> M B), mbind (get_grid fn) k (with_dim (S (S N)) m) = k g (with_dim (S (S N)) m)) by (intros; unfold mbind; rewrite E2; reflexivity).
  rewrite B1, B2.
  assert (B3 : forall B (k : _ -> M B), mbind (set_dim (S (S N))) k m = k tt (with_dim (S (S N)) m)) by (intros; unfold mbind; rewrite (set_dim_unset (S (S N)) m Hu); reflexivity).
  rewrite B3, bind_ret, !bind_get. split; reflexivity.
Qed.
