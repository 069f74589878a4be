(** The variables each generation call is documented to write. *)
From Verif Require Import History_Model Gen_Spec QN_Spec.

Definition writes (c : call) : list string :=
  match c with
  | Conv h _ _ _ => [frac_out true h]
  | Strat _ _ _ _ _ => [frac_out false "cl"; frac_out false "ci"]
  | Precip c _ _ _ hs _ _ => map (frac_out c) hs
  | QN h c _ _ _ _ _ _ => q_out c h :: if c then [] else [n_out h]
  end.
