(** Convective subcolumns: properties C01 and C02. *)
From Verif Require Import Gen_Model Spec_Common Gen_Spec Conv_Proofs Witness.
Local Open Scope nat_scope.

(** C01. *)
Theorem C01_convective_prefix :
  forall m hyd Ncol rad thr N T H f q,
  2 <= N -> columns_ok m Ncol N -> conv_fracs m hyd rad T H f q -> proportions f ->
  exists m' g, set_convective hyd Ncol rad thr m = (Ok tt, m') /\
    flags m' ("conv_frac_subcolumns_" ++ hyd) g /\ shape3 T H N g /\ dim_sub m' = Some N /\
    unchanged_except ["conv_frac_subcolumns_" ++ hyd]%string m m' /\
    forall t j, t < T -> j < H -> forall k,
      requested rad thr (at2 0%Q q t j) (at2 0%Q f t j) N k ->
      forall i, flagged (at2 [] g t j) i <-> (Z.of_nat i < k)%Z.
Proof. exact set_convective_ok. Qed.
Print Assumptions C01_convective_prefix.

Example C01_witness :
  columns_ok (w_m true) (Some 4) 4 /\ conv_fracs (w_m true) "ci" true 2 3 w_c2 w_q /\ proportions w_c2 /\
  flags (snd (set_convective "ci" (Some 4) true (1#1000) (w_m true))) "conv_frac_subcolumns_ci"
    [[[true; true; false; false]; [true; false; false; false]; [false; false; false; false]];
     [[false; false; false; false]; [false; false; false; false]; [false; false; false; false]]].
Proof.
  split; [left; split; [apply w_unset|reflexivity]|]. split.
  { split; [exact w_c2_shape|]. split; [reflexivity|]. split.
    - exists w_c2. split; [exists "ccf_ci"%string; split; reflexivity|discriminate].
    - intros _. split; [exists "rccf_ci"%string; split; reflexivity|].
      split; [exists "q_conv_ci"%string; split; reflexivity|exact w_q_shape]. }
  split; [exact w_c2_prop|]. vm_compute. reflexivity.
Qed.

(** The requested number always exists and is unique: the nearest integer. *)
Theorem C01_request_defined :
  forall rad thr q f N, (0 <= f <= 1)%Q ->
  exists k, requested rad thr q f N k /\ (0 <= k <= Z.of_nat N)%Z /\
            forall k', requested rad thr q f N k' -> k' = k.
Proof. exact requested_exists. Qed.
Print Assumptions C01_request_defined.

(** C02: after generating any list of types, of any two types and heights of
    a column the one with the smaller request is contained in the other. *)
Theorem C02_convective_maximal_overlap :
  forall m Ncol rad thr N T H hs (F Qv : string -> list (list Q)),
  2 <= N -> columns_ok m Ncol N -> NoDup hs ->
  (forall h, In h hs -> conv_fracs m h rad T H (F h) (Qv h) /\ proportions (F h) /\
                        not_input m ("conv_frac_subcolumns_" ++ h)) ->
  exists m', mapMM (fun h => set_convective h Ncol rad thr) hs m = (Ok (map (fun _ => tt) hs), m') /\
    forall h1 h2, In h1 hs -> In h2 hs -> exists g1 g2,
      flags m' ("conv_frac_subcolumns_" ++ h1) g1 /\ flags m' ("conv_frac_subcolumns_" ++ h2) g2 /\
      forall t j1 j2 k1 k2, t < T -> j1 < H -> j2 < H ->
        requested rad thr (at2 0%Q (Qv h1) t j1) (at2 0%Q (F h1) t j1) N k1 ->
        requested rad thr (at2 0%Q (Qv h2) t j2) (at2 0%Q (F h2) t j2) N k2 ->
        (k1 <= k2)%Z -> subset (at2 [] g1 t j1) (at2 [] g2 t j2).
Proof. exact convective_overlap. Qed.
Print Assumptions C02_convective_maximal_overlap.

Example C02_witness :
  let F h := if String.eqb h "cl" then w_c1 else w_c2 in
  columns_ok (w_m true) (Some 4) 4 /\ NoDup ["cl"; "ci"]%string /\
  (forall h, In h ["cl"; "ci"]%string -> conv_fracs (w_m true) h false 2 3 (F h) w_q /\ proportions (F h) /\
                        not_input (w_m true) ("conv_frac_subcolumns_" ++ h)).
Proof.
  split; [left; split; [apply w_unset|reflexivity]|]. split.
  { constructor; [intros [E|[]]; discriminate|]. constructor; [intros []|constructor]. }
  intros h [<-|[<-|[]]]; simpl.
  - split; [|split; [exact w_c1_prop|exact (w_not_input true "conv_frac_subcolumns_" "cl" (or_introl eq_refl))]].
    split; [exact w_c1_shape|]. split; [reflexivity|]. split; [|discriminate].
    exists w_c1; split; [exists "ccf_cl"%string; split; reflexivity|reflexivity].
  - split; [|split; [exact w_c2_prop|exact (w_not_input true "conv_frac_subcolumns_" "ci" (or_introl eq_refl))]].
    split; [exact w_c2_shape|]. split; [reflexivity|]. split; [|discriminate].
    exists w_c2; split; [exists "ccf_ci"%string; split; reflexivity|reflexivity].
Qed.
