(** Model of the precipitation subcolumn allocator,
    emc2/simulator/subcolumn.py lines 686-750. *)
From Verif Require Export Np.
From Verif Require Import Strat_Model.
Local Open Scope Z_scope.

(** One precipitation class at one level: requested count
    [data_frac[i][tt, j]], count still to place [PF_per_val[i]], and
    [p_strat_profs[:, j, i]]. *)
Record pcls := { p_req : Z; p_rem : Z; p_fl : list bool }.

(** [for i in range(len(data_frac)): ...] over the classes of a level. *)
Fixpoint mapM {A B} (f : A -> res B) (l : list A) : res (list B) :=
  match l with
  | [] => Ok []
  | x :: l' => do y <- f x; do t <- mapM f l'; Ok (y :: t)
  end.

(** [np.any(x, axis=1)] over the classes, subcolumn by subcolumn. *)
Definition any_class (N : nat) (fls : list (list bool)) : list bool :=
  map (fun i => existsb (fun fl => nth i fl false) fls) (seq 0 N).

(** subcolumn.py 713-716 and 736-739: more locations than the class with the
    maximum fraction needs. *)
Definition place_more (locs rand : list nat) (p : pcls) : res pcls :=
  if p_req p >? 0 then                                             (* precip_exist *)
    do inds <- gather locs (pyslice (p_rem p) rand);
    do fl <- set_true (p_fl p) inds;
    Ok {| p_req := p_req p; p_rem := p_rem p; p_fl := fl |}
  else Ok p.

(** subcolumn.py 719-727 and 742-749: every location is used by the class
    with the maximum fraction. *)
Definition place_less (locs rand : list nat) (p : pcls) : res pcls :=
  let num := Z.of_nat (length locs) in
  if p_req p >? 0 then
    if num >? p_rem p then
      do inds <- gather locs (pyslice (p_rem p) rand);
      do fl <- set_true (p_fl p) inds;
      Ok {| p_req := p_req p; p_rem := 0; p_fl := fl |}
    else
      do fl <- set_true (p_fl p) locs;
      Ok {| p_req := p_req p; p_rem := p_rem p - num; p_fl := fl |}
  else Ok p.

(** subcolumn.py 711-728 (overlying locations) and 735-750 (free locations):
    the two code blocks are identical up to the list of locations.  [pf] is
    [PF_val[tt, j]]. *)
Definition precip_round (locs : list nat) (perm : nat -> list nat)
    (st : Z * list pcls) : res (Z * list pcls) :=
  let (pf, cls) := st in
  let num := Z.of_nat (length locs) in
  if num >? pf then
    let rand := pyslice pf (perm (length locs)) in
    do cls <- mapM (place_more locs rand) cls;
    Ok (0, cls)
  else
    let rand := perm (length locs) in
    do cls <- mapM (place_less locs rand) cls;
    Ok (pf - num, cls).

(** subcolumn.py 730-734: one iteration of [for ii in range(2)]. *)
Definition precip_free (N : nat) (cond : list bool) (perm : nat -> list nat)
    (st : Z * list pcls) : res (Z * list pcls) :=
  if fst st >? 0 then
    do free <- zipb andb (np_not (any_class N (map p_fl (snd st)))) cond;
    let locs := argwhere free in
    if Z.of_nat (length locs) >? 0 then precip_round locs perm st else Ok st
  else Ok st.

Fixpoint max_list (l : list Z) : Z :=
  match l with [] => 0 | [x] => x | x :: l' => Z.max x (max_list l') end.

(** subcolumn.py 691-750: body of the loop over levels.  [cs] are the
    requested counts of the classes, [cloudy] is strat_profs[:, tt, j],
    [above] is p_strat_profs[:, j+1, :]. *)
Definition precip_level (N : nat) (cs : list Z) (cloudy : list bool) (ovl : bool)
    (above : list (list bool)) (perm : perms) : res (list (list bool) * bool) :=
  if forallb (fun c => c =? Z.of_nat N) cs then                    (* 692-700 *)
    Ok (repeat (repeat true N) (length cs), true)
  else
    let st0 := (max_list cs,
                map (fun c => {| p_req := c; p_rem := c; p_fl := repeat false N |}) cs) in
    do st1 <- (if ovl then precip_round (argwhere (any_class N above)) (perm 0%nat) st0
               else Ok st0);
    do st2 <- precip_free N cloudy (perm 1%nat) st1;
    do st3 <- precip_free N (np_not cloudy) (perm 2%nat) st2;
    Ok (map p_fl (snd st3), false).

(** Inputs of one level. *)
Record plevel := { q_cs : list Z; q_cloudy : list bool; q_ovl : bool }.

(** subcolumn.py 686-752 for one column (levels from the lowest up, top level
    left all-False), with the number of fully overcast levels. *)
Fixpoint precip_column (N ncls : nat) (ls : list plevel) (perm : nat -> perms)
  : res (list (list (list bool)) * nat) :=
  match ls with
  | [] => Ok ([], 0%nat)
  | l :: tl =>
      match tl with
      | [] => Ok ([repeat (repeat false N) ncls], 0%nat)
      | _ :: _ =>
          do (p, n) <- precip_column N ncls tl perm;
          match p with
          | [] => Raise IndexError
          | above :: _ =>
              do (s, full) <- precip_level N (q_cs l) (q_cloudy l) (q_ovl l) above (perm (length tl));
              Ok (s :: p, if full then S n else n)
          end
      end
  end.
