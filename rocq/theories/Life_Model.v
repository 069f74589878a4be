(** Histories of an object in which, between generation calls, the number of
    subcolumns is assigned directly or subcolumn fields are removed. *)
From Verif Require Export History_Model.
Local Open Scope nat_scope.
Local Open Scope string_scope.
Local Open Scope list_scope.

(** model.py 302-311: [model.num_subcolumns = a]. *)
Definition set_num_subcolumns (a : nat) : M unit := set_dim a.

(** [a in b] on strings. *)
Fixpoint has_text (b a : string) : bool :=
  String.prefix a b || match b with EmptyString => false | String _ b' => has_text b' a end.

(** model.py 313-323: [remove_subcol_fields]; the subcolumn coordinate stays. *)
Definition remove_fields (cloud_class : string) : M unit :=
  fun m => (Ok tt,
    {| ds := filter (fun p => negb (has_text (fst p) cloud_class &&
                                    existsb (has_text (fst p)) ["sub_col"; "subcol"; "phase_mask"])) (ds m);
       dim_sub := dim_sub m; ntime := ntime m; process_conv := process_conv m; nm := nm m |}).

Inductive event := Call (c : call) | SetN (n : nat) | Remove (cloud_class : string).

Definition run_event (e : event) : M unit :=
  match e with
  | Call c => run_call c
  | SetN n => set_num_subcolumns n
  | Remove c => remove_fields c
  end.

(** An event that raises leaves the object in the state it had reached. *)
Definition life (es : list event) (m : mdl) : mdl := fold_left (fun m e => snd (run_event e m)) es m.
