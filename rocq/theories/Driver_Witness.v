(** A concrete complete model object for the driver. *)
From Verif Require Import Driver_Model Spec_Common Gen_Spec QN_Spec Driver_Spec Witness QN_Witness.
Local Open Scope string_scope.
Local Open Scope list_scope.
Local Open Scope nat_scope.

(** Liquid wherever its fraction is positive. *)
Definition d_m : mdl :=
  {| ds := map (fun p => if String.eqb (fst p) "q_strat_cl" then (fst p, VGrid v_q) else p) w_ds;
     dim_sub := None; ntime := 2; process_conv := true; nm := w_names |}.
Definition d_hs := ["cl"; "ci"; "pl"; "pi"].
Definition lookup (m : mdl) (name : string) : list (list Q) :=
  match assoc (ds m) name with Some (VGrid g) => g | _ => [] end.
Definition d_F (c r : bool) (h : string) : list (list Q) :=
  lookup d_m ((if r then "r" else "") ++ (if c then "ccf_" else "cf_") ++ h)%string.
Definition d_Q (c : bool) (h : string) : list (list Q) := lookup d_m ((if c then "q_conv_" else "q_strat_") ++ h)%string.

Lemma d_complete : complete d_m 2 3 d_hs d_F d_Q (fun _ => w_q).
Proof.
  constructor.
  - split; [auto|]. split; [reflexivity|unset_now].
  - split; [reflexivity|]. repeat constructor; simpl; intuition discriminate.
  - simpl; auto.
  - exists "pl". simpl; repeat split; auto; discriminate.
  - intros _; simpl; split; auto 6.
  - intros c r h Hh. simpl in Hh. repeat (destruct Hh as [<-|Hh]); try contradiction; destruct c, r;
      (split; [eexists; split; vm_compute; reflexivity|]); (split; [shape|props]).
  - intros c h Hh. simpl in Hh. repeat (destruct Hh as [<-|Hh]); try contradiction; destruct c;
      (split; [eexists; split; vm_compute; reflexivity|]); shape.
  - intros h Hh. simpl in Hh. repeat (destruct Hh as [<-|Hh]); try contradiction;
      (split; [eexists; split; vm_compute; reflexivity|]); shape.
  - intros h c. assert (K : forall x, (exists r, x = ("st" ++ r)%string \/ x = ("co" ++ r)%string) -> not_input d_m x).
    { intros x Hx d k Hd E. simpl in Hd.
      repeat (destruct Hd as [<-|Hd]); try contradiction; simpl in E;
      repeat match type of E with (if ?b then _ else _) = _ => destruct b end; try discriminate; destruct Hx as (r & [->| ->]); discriminate. }
    destruct c; repeat split; apply K; eexists; (left; reflexivity) || (right; reflexivity).
Qed.

Definition d_fl : list (list (list bool)) :=
  w_flags (snd (driver_flags (Some 4) false Serial {| d_strat := w_dr; d_precip := w_dr; d_conv := w_dr; d_perm := v_perm; d_gam := fun _ _ => [] |} d_m)) "strat_frac_subcolumns_cl".
Definition d_rng : drng :=
  {| d_strat := w_dr; d_precip := w_dr; d_conv := w_dr; d_perm := v_perm;
     d_gam := fun t j => map Fin (repeat (1#300)%Q (occ (at2 [] d_fl t j))) |}.

Lemma flags_unique m x a b : flags m x a -> flags m x b -> a = b.
Proof. unfold flags. intros -> X. injection X. auto. Qed.

Lemma d_gammas gl : flags (snd (driver_flags (Some 4) false Serial d_rng d_m)) (frac_out false "cl") gl -> gammas_ok 2 3 gl (d_gam d_rng).
Proof.
  intro Hgl. assert (E : flags (snd (driver_flags (Some 4) false Serial d_rng d_m)) (frac_out false "cl") d_fl) by (vm_compute; reflexivity).
  rewrite (flags_unique _ _ _ _ Hgl E). clear Hgl E gl. unfold d_rng, d_gam. generalize d_fl. intro g.
  intros t j _ _. eexists. split; [reflexivity|]. split; [apply repeat_length|].
  intros x Hx. apply repeat_spec in Hx. subst x. discriminate.
Qed.

Lemma d_liquid t j : t < 2 -> j < 3 -> (0 < at2 0%Q (d_F false false "cl") t j)%Q -> (default_thr < at2 0%Q (d_Q false "cl") t j)%Q.
Proof.
  intros Ht Hj _. destruct t as [|[|]]; [| |lia]; (destruct j as [|[|[|]]]; [| | |lia]); vm_compute; reflexivity.
Qed.
