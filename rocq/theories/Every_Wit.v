(** The saved dataset can be written; concrete cases. *)
From Coq Require Import Reals Lra ZArith Lia.
From Verif Require Import Xr_Facts Disp_Stat Disp_Wit Xds_Proofs Xds_Stack Xds_Fields Load_Facts Curt_Facts Every_Model Every_Spec Every_Facts Every_Thm.
Local Open Scope string_scope.
Local Open Scope list_scope.

Lemma in_put {A} (l : list (string * A)) k v e : In e (put l k v) -> In e l \/ e = (k, v).
Proof.
  induction l as [|[a b] l IH]; cbn; [intros [<-|[]]; auto|]. destruct (String.eqb a k); cbn; intros [E|I]; auto. destruct (IH I); auto.
Qed.
Lemma add_var_dims x name dims a x' d : add_var x name dims a = Ok x' -> ~ In d dims -> (has_dim x' d = true -> has_dim x d = true) /\ sz x' d = sz x d.
Proof.
  unfold add_var. destruct (fits x dims (ash a)); [|discriminate]. intros E N. injection E as <-. split.
  - rewrite !has_dim_in, !in_dims. unfold all_vars. cbn [coords vars]. intros (k & v & I & D). apply in_app_or in I. destruct I as [I|I].
    + exists k, v. split; [apply in_or_app; left; exact I|exact D].
    + apply in_put in I. destruct I as [I|I]; [exists k, v; split; [apply in_or_app; right; exact I|exact D]|]. injection I as -> ->. contradiction.
  - cbn [sz]. generalize (ash a). clear -N. induction dims as [|e r IH]; intros [|n s]; try reflexivity. cbn [resize].
    destruct (String.eqb_spec d e) as [->|]; [exfalso; apply N; left; reflexivity|]. apply IH. intro I. apply N. right. exact I.
Qed.
Definition room (x : xds) (d : string) (n : nat) : Prop := In d (all_dims x) -> sz x d = n.
Lemma room_fits x d n : room x d n -> negb (has_dim x d) || Nat.eqb (sz x d) n = true.
Proof. intro R. destruct (has_dim x d) eqn:H; [|reflexivity]. apply has_dim_in in H. rewrite (R H), Nat.eqb_refl. reflexivity. Qed.
Lemma room_add x name dims a x' d n : add_var x name dims a = Ok x' -> ~ In d dims -> room x d n -> room x' d n.
Proof. intros E N R I. destruct (add_var_dims x name dims a x' d E N) as [H ->]. apply R, has_dim_in, H, has_dim_in, I. Qed.
Theorem save_succeeds x bins cf cz cs nt nh nz ns nc : ash cz = [nh; nz] -> ash cs = [nh; ns] -> ash cf = [nt; nh; nc] ->
  room x "time" nt -> room x "ncol" nc -> room x "cosp_ht" nh -> room x "cosp_ze" nz -> room x "cosp_sr" ns ->
  exists x', save_cfads x bins cf cz cs = Ok x'.
Proof.
  intros Z S F RT RC RH RZ RS. unfold save_cfads.
  destruct (add_var x "CFAD_Radar" ["cosp_ht"; "cosp_ze"] cz) as [a|] eqn:A; [|unfold add_var in A; rewrite Z in A; cbn [fits] in A; rewrite !room_fits in A by assumption; discriminate A].
  assert (HA : sz a "cosp_ht" = nh) by (unfold add_var in A; rewrite Z in A; destruct (fits _ _ _); [injection A as <-; reflexivity|discriminate]).
  cbn [bind]. assert (RSA : room a "cosp_sr" ns) by (apply (room_add _ _ _ _ _ _ _ A); [simpl; intuition discriminate|exact RS]).
  assert (RTA : room a "time" nt) by (apply (room_add _ _ _ _ _ _ _ A); [simpl; intuition discriminate|exact RT]).
  assert (RCA : room a "ncol" nc) by (apply (room_add _ _ _ _ _ _ _ A); [simpl; intuition discriminate|exact RC]).
  destruct (add_var a "CFAD_SR" ["cosp_ht"; "cosp_sr"] cs) as [b|] eqn:B.
  2:{ unfold add_var in B. rewrite S in B. cbn [fits] in B. rewrite (room_fits a "cosp_ht" nh), (room_fits a "cosp_sr" ns) in B; [discriminate B|exact RSA|intros _; exact HA]. }
  assert (HB : sz b "cosp_ht" = nh) by (unfold add_var in B; rewrite S in B; destruct (fits _ _ _); [injection B as <-; reflexivity|discriminate]).
  cbn [bind]. unfold add_var. rewrite F. cbn [fits]. rewrite (room_fits b "time" nt), (room_fits b "cosp_ht" nh), (room_fits b "ncol" nc).
  - eexists. reflexivity.
  - apply (room_add _ _ _ _ _ _ _ B); [simpl; intuition discriminate|exact RCA].
  - intros _. exact HB.
  - apply (room_add _ _ _ _ _ _ _ B); [simpl; intuition discriminate|exact RTA].
Qed.

(** Two times, levels; the lowest level holds a missing value. *)
Definition ev_f (s t j k : nat) : xr := match j with O => XF (- 10 ^ 50) | _ => XF (INR (s + 10 * t)) end.
Definition ev_field : var := {| vdims := ["subcolumn"; "time"; "lev"; "ncol"]; vat := fun ix => ev_f (nth 0 ix 0) (nth 1 ix 0) (nth 2 ix 0) (nth 3 ix 0) |}.
Definition ev_names : list string := ["sub_col_Ze_att_tot"; "sub_col_beta_att_tot"; "sub_col_Ze_tot"; "sub_col_beta_p_tot"] ++ q_fields.
Definition ev_ds (n : nat) : xds := {| sz := fun d => if String.eqb d "subcolumn" then n else if String.eqb d "ncol" then 1 else 2;
  coords := [("time", axis "time")];
  vars := ("z3", {| vdims := ["time"; "lev"; "ncol"]; vat := fun ix => XF (w_y (nth 0 ix 0) (nth 1 ix 0)) |}) :: map (fun name => (name, ev_field)) ev_names |}.
Definition ev_m (n : nat) : mobj := {| mds := ev_ds n; time_dim := "time"; height_dim := "lev"; lat_dim := "lat"; lon_dim := "lon"; stacked_time_dim := None |}.
Lemma ev_model n : 0 < n -> columns_model (ev_m n) "z3" (-1) n 2 2 0 INR w_y.
Proof.
  intro N. constructor.
  - repeat split; reflexivity.
  - split; [exact N|lia].
  - split; apply has_dim_in; reflexivity.
  - exists (axis "time"). split; [reflexivity|]. split; [reflexivity|]. split; [reflexivity|]. intros i j H. apply lt_INR. lia.
  - split; [cbn; lia|]. right. split; [lia|reflexivity].
  - eexists. split; [reflexivity|]. split; [reflexivity|]. reflexivity.
Qed.
Lemma ev_fields n name : In name ev_names -> field_of (ev_m n) name ev_f.
Proof. intro I. exists ev_field. split; [|split; reflexivity]. repeat (destruct I as [<-|I]; [reflexivity|]). destruct I. Qed.
Lemma ev_missing : missing 20 (ev_f 0 0 0 0) = true /\ missing 40 (ev_f 0 0 0 0) = true /\ not_positive (ev_f 0 0 0 0) = true.
Proof.
  cbn [ev_f missing not_positive]. assert (A : (10 ^ 20 < 10 ^ 50)%R) by (apply Rlt_pow; [lra|lia]). assert (B : (10 ^ 40 < 10 ^ 50)%R) by (apply Rlt_pow; [lra|lia]).
  assert (C : (0 < 10 ^ 50)%R) by (apply pow_lt; lra).
  repeat split; match goal with |- (if ?x then _ else _) = _ => destruct x; [reflexivity|lra] end.
Qed.
(** The display removes values of the model. *)
Theorem shown_then_gone : forall w, exists v, assoc (vars (fst (every_mixing (ev_m 1) "z3" (-1) w))) "strat_q_subcolumns_cl" = Some v /\
  vat v [0; 0; 0; 0] = XNaN /\ vat ev_field [0; 0; 0; 0] = XF (- 10 ^ 50) /\ assoc (vars (mds (ev_m 1))) "strat_q_subcolumns_cl" = Some ev_field.
Proof.
  intro w. destruct (mixing_writes (ev_m 1) "z3" (-1) 1 2 2 0 INR w_y (ev_model 1 ltac:(lia)) (fun _ => ev_f)
    (fun name I => ev_fields 1 name (in_or_app _ _ _ (or_intror I))) w eq_refl) with (name := "strat_q_subcolumns_cl") as (v & A & _ & V).
  - intros name I. repeat (destruct I as [<-|I]; [reflexivity|]). destruct I.
  - left. reflexivity.
  - exists v. split; [exact A|]. split; [|split; reflexivity]. rewrite V. destruct ev_missing as (_ & _ & ->). reflexivity.
Qed.
