(** Model of the stratiform subcolumn allocator,
    emc2/simulator/subcolumn.py lines 582-683. *)
From Verif Require Export Np.
Local Open Scope Z_scope.

(** Index 0/1 of the leading axis of [strat_profs]: 0 = cl, 1 = ci. *)
Inductive ph := CL | CI.
Definition ph_eqb (a b : ph) : bool :=
  match a, b with CL, CL | CI, CI => true | _, _ => false end.
Definition sel {A} (i : ph) (x : A * A) : A :=
  match i with CL => fst x | CI => snd x end.
Definition upd {A} (i : ph) (v : A) (x : A * A) : A * A :=
  match i with CL => (v, snd x) | CI => (fst x, v) end.

Definition lvl := (list bool * list bool)%type.      (* strat_profs[:, :, j] *)

(** Random permutations drawn at one level: [perm site n] is the value of
    [np.random.permutation(n)] at the given call site (each site runs at most
    once per level). *)
Definition perms := nat -> nat -> list nat.

(** subcolumn.py 582-585: [_randperm(n, size)]. *)
Definition randperm (perm : perms) (site : nat) (n : nat) (size : Z) : list nat :=
  pyslice size (perm site n).

(** subcolumn.py 588-591: [_setxor]. *)
Definition setxor (x y : list nat) : list nat := setdiff1d x y ++ setdiff1d y x.

(** [strat_profs[I, inds, j] = True]. *)
Definition mark (I : ph) (inds : list nat) (s : lvl) : res lvl :=
  do t <- set_true (sel I s) inds; Ok (upd I t s).

(** subcolumn.py 600-610: [I_min], [I_max] of one level ([np.argmin]/[np.argmax]
    return the first extremum; on a tie [I_max] is replaced by 1). *)
Definition I_min (c : Z * Z) : ph := if fst c <=? snd c then CL else CI.
Definition I_argmax (c : Z * Z) : ph := if snd c <=? fst c then CL else CI.
Definition I_max (c : Z * Z) : ph :=
  if ph_eqb (I_min c) (I_argmax c) then CI else I_argmax c.

(** subcolumn.py 611-672: placement below the cloud of the overlying level.
    [s] is strat_profs[:, :, j] so far, [above] is strat_profs[:, :, j+1],
    [conv] is conv_profs[:, tt, j], [c] is [cld_2_assign]. *)
Definition strat_overlap (Imin Imax : ph) (c : Z * Z) (conv : list bool)
    (above s : lvl) (perm : perms) : res (lvl * (Z * Z)) :=
  do over1 <- zipb andb (fst above) (np_not conv);
  do over2 <- zipb andb (snd above) (np_not conv);
  let locs1 := argwhere over1 in
  let locs2 := argwhere over2 in
  let num1 := Z.of_nat (length locs1) in
  let num2 := Z.of_nat (length locs2) in
  let over_diff := Z.abs (num2 - num1) in
  let Iover_min := if num1 <=? num2 then CL else CI in
  let Iover_max := if num2 <=? num1 then CL else CI in
  let locs := (locs1, locs2) in
  let num_min := sel Iover_min (num1, num2) in
  let num_max := sel Iover_max (num1, num2) in
  let uniq := setxor locs1 locs2 in
  if num_min >? sel Imax c then                                    (* 621 *)
    do s <-
      (if sel Imax c >? 0 then
         let rand := randperm perm 0 (Z.to_nat (Z.min num1 num2)) (sel Imax c) in
         do inds <- gather (sel Iover_min locs) (pyslice (sel Imin c) rand);
         do s <- mark Imin inds s;
         do inds <- gather (sel Iover_min locs) rand;
         mark Imax inds s
       else Ok s);
    Ok (s, (0, 0))
  else if num_min >? sel Imin c then                               (* 629 *)
    do s <-
      (if sel Imin c >? 0 then
         let rand := randperm perm 1 (Z.to_nat (Z.min num1 num2)) (sel Imin c) in
         do inds <- gather (sel Iover_min locs) rand;
         do s <- mark Imin inds s;
         mark Imax (sel Iover_min locs) s
       else Ok s);
    let c := upd Imin 0 c in
    let c := upd Imax (sel Imax c - num_min) c in                  (* 637 *)
    if over_diff >? sel Imax c then
      let rand := randperm perm 2 (Z.to_nat over_diff) (sel Imax c) in
      do inds <- gather uniq rand;
      do s <- mark Imax inds s;
      Ok (s, upd Imax 0 c)
    else
      do s <- mark Imax uniq s;
      Ok (s, upd Imax (sel Imax c - over_diff) c)
  else if num_max >? sel Imin c then                               (* 647 *)
    do s <- mark Imin (sel Iover_min locs) s;
    do s <- mark Imax (sel Iover_min locs) s;
    let c := (fst c - num_min, snd c - num_min) in                 (* 651 *)
    if over_diff >? sel Imax c then
      let rand := randperm perm 3 (Z.to_nat over_diff) (sel Imax c) in
      do inds <- gather uniq (pyslice (sel Imin c) rand);
      do s <- mark Imin inds s;
      do inds <- gather uniq rand;
      do s <- mark Imax inds s;
      Ok (s, (0, 0))
    else
      do s <-
        (if sel Imin c >? 0 then
           let rand := randperm perm 4 (Z.to_nat over_diff) (sel Imin c) in
           do inds <- gather uniq rand;
           mark Imin inds s
         else Ok s);
      let c := upd Imin 0 c in
      do s <- mark Imax uniq s;
      Ok (s, upd Imax (sel Imax c - over_diff) c)
  else                                                             (* 668 *)
    do s <- mark Imin (sel Iover_max locs) s;
    do s <- mark Imax (sel Iover_max locs) s;
    Ok (s, (fst c - num_max, snd c - num_max)).

(** subcolumn.py 674-681: remaining cloud goes to random free subcolumns
    without convection. *)
Definition strat_fill (Imin Imax : ph) (c : Z * Z) (conv : list bool)
    (s : lvl) (perm : perms) : res lvl :=
  if sel Imax c >? 0 then
    do free <- zipb andb (np_not (sel Imax s)) (np_not conv);
    let free_locs := argwhere free in
    let rand := randperm perm 5 (length free_locs) (sel Imax c) in
    do inds <- gather free_locs rand;
    do s <- mark Imax inds s;
    if sel Imin c >? 0 then
      do inds <- gather free_locs (pyslice (sel Imin c) rand);
      mark Imin inds s
    else Ok s
  else Ok s.

(** subcolumn.py 600-681: body of the loop over levels.  [c] holds
    data_frac1/2[tt, j], [ovl] is overlapping_cloud[tt, j].  The returned
    boolean tells whether full_overcast_cl_ci is incremented. *)
Definition strat_level (N : nat) (c : Z * Z) (conv : list bool) (ovl : bool)
    (above : lvl) (perm : perms) : res (lvl * bool) :=
  let blank := (repeat false N, repeat false N) in
  if sel (I_argmax c) c =? 0 then Ok (blank, false)                (* 603 *)
  else if sel (I_min c) c =? Z.of_nat N then                       (* 605 *)
    Ok ((repeat true N, repeat true N), true)
  else
    do (s, c') <- (if ovl then strat_overlap (I_min c) (I_max c) c conv above blank perm
                   else Ok (blank, c));
    do s <- strat_fill (I_min c) (I_max c) c' conv s perm;
    Ok (s, false).

(** Inputs of one level: requested counts, convective flags, overlap flag. *)
Record slevel := { s_c : Z * Z; s_conv : list bool; s_ovl : bool }.

(** subcolumn.py 594-683: [_allocate_strat_sub_col] for one column, levels
    listed from the lowest (index 0) up.  The Python loop
    [for j in range(H-2, -1, -1)] becomes structural recursion from the top,
    whose level stays all-False.  [perm j] are the draws of level [j] counted
    from the top of the list.  Returns the profile and the number of fully
    overcast levels. *)
Fixpoint strat_column (N : nat) (ls : list slevel) (perm : nat -> perms)
  : res (list lvl * nat) :=
  match ls with
  | [] => Ok ([], 0%nat)
  | l :: tl =>
      match tl with
      | [] => Ok ([(repeat false N, repeat false N)], 0%nat)
      | _ :: _ =>
          do (p, n) <- strat_column N tl perm;
          match p with
          | [] => Raise IndexError
          | above :: _ =>
              do (s, full) <- strat_level N (s_c l) (s_conv l) (s_ovl l) above
                                          (perm (length tl));
              Ok (s :: p, if full then S n else n)
          end
      end
  end.
