(** Model of the public subcolumn-generation functions,
    emc2/simulator/subcolumn.py lines 7-580 and 753-780.
    Attributes (long_name, units, ...), printing and timing are not modelled. *)
From Verif Require Export Ds Strat_Model Precip_Model Sched_Model.
Local Open Scope string_scope.
Local Open Scope list_scope.
Local Open Scope nat_scope.

(** ** Shared pieces *)

(** [np.round(frac * n).astype(int)] of one cell. *)
Definition count_of (n : nat) (f : Q) : Z := round_he (f * inject_Z (Z.of_nat n)).

(** [q > q_trunc_thresh]. *)
Definition above_thr (thr q : Q) : bool := Qlt_bool thr q.

(** [np.where(q > q_trunc_thresh, frac, 0)]. *)
Definition frac_where (thr q f : Q) : Q := if above_thr thr q then f else 0.

(** Rows of a stacked result: the function applied to each processed time
    index, in processing order; an index outside the data is an IndexError. *)
Definition run_columns {A} (order : list Z) (f : nat -> res A) : res (list A) :=
  mapM (fun tt => if (tt <? 0)%Z then Raise IndexError else f (Z.to_nat tt)) order.

(** [np.stack] raises ValueError on an empty sequence. *)
Definition np_stack {A} (l : list A) : res (list A) :=
  match l with [] => Raise ValueError | _ => Ok l end.

Definition nth_res {A} (l : list A) (i : nat) : res A :=
  match nth_error l i with Some x => Ok x | None => Raise IndexError end.

(** [np.logical_or] of two subcolumn arrays. *)
Definition flags_or (a b : list (list (list bool))) : res (list (list (list bool))) :=
  map2m (map2m (zipb orb)) a b.

(** [np.roll(row, -1)]. *)
Definition roll1 {A} (l : list A) : list A := match l with [] => [] | x :: t => t ++ [x] end.

(** ** Convective subcolumns (7-86) *)

(** subcolumn.py 73-78 for one cell: for each i in 1..n, the first i
    subcolumns are set where the count equals i. *)
Definition conv_cell (n : nat) (c : Z) : list bool :=
  fold_left (fun fl i => if Z.eqb c (Z.of_nat i) then repeat true i ++ skipn i fl else fl)
            (seq 1 n) (repeat false n).

(** subcolumn.py 7-86.  Two-dimensional input fields are assumed (lines 69-71
    handle a single time step given without time dimension).  With
    [N_columns == 1] line 56 builds a three-dimensional DataArray from
    two-dimensional data, a ValueError. *)
Definition set_convective (hyd : string) (N_columns : option nat) (rad : bool) (thr : Q) : M unit :=
  act m <- get;
  act N_columns <-
    (match N_columns with
     | None => if Nat.eqb (num_sub m) 0
               then match dim_sub m with Some n => ret (Some n) | None => raise KeyError end
               else ret None
     | Some _ => ret N_columns
     end);                                                            (* 37 *)
  if match N_columns with
     | Some n => negb (Nat.eqb (num_sub m) n) && negb (Nat.eqb (num_sub m) 0)
     | None => false
     end then raise ValueError                                        (* 40 *)
  else
    act fname <- get_name (frac_conv (nm m)) hyd;
    act frac <- get_grid fname;                                       (* 48 *)
    act _ <- (if Nat.eqb (num_sub m) 0
              then match N_columns with Some n => set_dim n | None => raise TypeError end
              else ret tt);                                           (* 50 *)
    act m' <- get;
    let n := num_sub m' in
    if match N_columns with Some 1%nat => true | _ => false end then      (* 53 *)
      act qname <- get_name (q_conv (nm m)) hyd;
      act _ <- get_grid qname;
      raise ValueError
    else
      act counts <-
        (if rad then
           act rname <- get_name (frac_conv_rad (nm m)) hyd;
           act rfrac <- get_grid rname;
           act qname <- get_name (q_conv (nm m)) hyd;
           act q <- get_grid qname;
           lift (grid2 (fun q f => if above_thr thr q then count_of n f else 0%Z) q rfrac)
         else ret (map (map (count_of n)) frac));
      assign ("conv_frac_subcolumns_" ++ hyd) n (length counts)
             (VFlag (map (map (conv_cell n)) counts)).

(** ** Stratiform subcolumns (89-230) *)

(** subcolumn.py 175-177 for one column. *)
Definition strat_cloudy (c : Z * Z) : bool := ((fst c >? 0) || (snd c >? 0))%Z.
Definition strat_ovl (cs : list (Z * Z)) : res (list bool) :=
  zipb andb (map strat_cloudy cs) (roll1 (map strat_cloudy cs)).

(** Inputs of [_allocate_strat_sub_col] for one column. *)
Fixpoint mk_slevels (cs : list (Z * Z)) (convs : list (list bool)) (ovl : list bool) : res (list slevel) :=
  match cs, convs, ovl with
  | [], _, _ => Ok []
  | c :: cs', cv :: convs', o :: ovl' =>
      do t <- mk_slevels cs' convs' ovl';
      Ok ({| s_c := c; s_conv := cv; s_ovl := o |} :: t)
  | _, _, _ => Raise IndexError
  end.

Definition strat_col (N : nat) (cs : list (Z * Z)) (convs : list (list bool)) (perm : nat -> perms)
  : res (list lvl) :=
  do ovl <- strat_ovl cs;
  do ls <- mk_slevels cs convs ovl;
  do (p, _) <- strat_column N ls perm;
  Ok p.

(** Draws of the random generator, by time index, level and call site. *)
Definition draws := nat -> nat -> perms.

(** subcolumn.py 89-230. *)
Definition set_stratiform (N_columns : option nat) (rad : bool) (sch : sched) (thr : Q) (dr : draws) : M unit :=
  act m <- get;
  act conv <-
    (if process_conv m then                                           (* 130 *)
       if negb (has_var "conv_frac_subcolumns_cl" m) then raise KeyError
       else if negb (has_var "conv_frac_subcolumns_ci" m) then raise KeyError
       else
         act c1 <- get_flag "conv_frac_subcolumns_cl";
         act c2 <- get_flag "conv_frac_subcolumns_ci";
         lift (flags_or c1 c2)
     else                                                             (* 143 *)
       act _ <- (if Nat.eqb (num_sub m) 0
                 then match N_columns with Some n => set_dim n | None => raise TypeError end
                 else ret tt);
       act fname <- get_name (frac_strat (nm m)) "cl";
       act f <- get_grid fname;
       match N_columns with
       | Some n => ret (map (map (fun _ => repeat false n)) f)
       | None => raise TypeError
       end);
  act rname <- get_name (frac_strat_rad (nm m)) "cl";
  act _ <- get_grid rname;                                            (* 147 *)
  if match N_columns with Some 1%nat => true | _ => false end then        (* 148 *)
    act qn <- get_name (q_strat (nm m)) "cl";
    act q <- get_grid qn;
    act _ <- assign "strat_frac_subcolumns_cl" 1 (length q) (VFlag (map (map (fun x => [above_thr thr x])) q));
    act qn <- get_name (q_strat (nm m)) "ci";
    act q <- get_grid qn;
    assign "strat_frac_subcolumns_ci" 1 (length q) (VFlag (map (map (fun x => [above_thr thr x])) q))
  else
    act m <- get;
    match dim_sub m with
    | None => raise KeyError
    | Some N =>                                                       (* 160 *)
        let frac_of h :=
          if rad then
            act fname <- get_name (frac_strat_rad (nm m)) h;
            act f <- get_grid fname;
            act qn <- get_name (q_strat (nm m)) h;
            act q <- get_grid qn;
            lift (grid2 (frac_where thr) q f)
          else
            act fname <- get_name (frac_strat (nm m)) h;
            get_grid fname in
        act f1 <- frac_of "cl";
        act f2 <- frac_of "ci";
        act cs <- lift (grid2 (fun a b => (count_of N a, count_of N b)) f1 f2);   (* 171-179 *)
        act order <- lift (tt_order sch (length cs));
        act cols <- lift (run_columns order (fun tt =>
                      do c <- nth_res cs tt; do cv <- nth_res conv tt; strat_col N c cv (dr tt)));
        act cols <- lift (np_stack cols);
        act _ <- assign "strat_frac_subcolumns_cl" N (length cols) (VFlag (map (map fst) cols));
        assign "strat_frac_subcolumns_ci" N (length cols) (VFlag (map (map snd) cols))
    end.

(** ** Precipitation subcolumns (233-416) *)

(** subcolumn.py 361-366 for one column; [css] lists the counts of all
    classes level by level. *)
Definition precip_here (cs : list Z) : bool := existsb (fun c => (c >? 0)%Z) cs.
Definition set_last_false (l : list bool) : list bool :=
  match l with [] => [] | _ => removelast l ++ [false] end.
Definition precip_ovl (css : list (list Z)) : res (list bool) :=
  zipb andb (map precip_here css) (set_last_false (roll1 (map precip_here css))).

Fixpoint mk_plevels (css : list (list Z)) (clouds : list (list bool)) (ovl : list bool) : res (list plevel) :=
  match css, clouds, ovl with
  | [], _, _ => Ok []
  | c :: cs', cv :: convs', o :: ovl' =>
      do t <- mk_plevels cs' convs' ovl';
      Ok ({| q_cs := c; q_cloudy := cv; q_ovl := o |} :: t)
  | _, _, _ => Raise IndexError
  end.

Definition precip_col (N ncls : nat) (css : list (list Z)) (clouds : list (list bool)) (perm : nat -> perms)
  : res (list (list (list bool))) :=
  do ovl <- precip_ovl css;
  do ls <- mk_plevels css clouds ovl;
  do (p, _) <- precip_column N ncls ls perm;
  Ok p.

(** [np.stack(data_frac)] seen cell by cell: class counts of every cell. *)
Fixpoint stack_classes (fs : list (list (list Z))) : res (list (list (list Z))) :=
  match fs with
  | [] => Raise IndexError                                            (* data_frac[0], 361 *)
  | [f] => Ok (map (map (fun c => [c])) f)
  | f :: fs' => do t <- stack_classes fs'; grid2 (fun c l => c :: l) f t
  end.

Fixpoint mapMM {A B} (f : A -> M B) (l : list A) : M (list B) :=
  match l with
  | [] => ret []
  | x :: l' => act y <- f x; act t <- mapMM f l'; ret (y :: t)
  end.

Definition kind (is_conv : bool) : string := if is_conv then "conv" else "strat".

(** subcolumn.py 290-317: [data_frac] of one class. *)
Definition precip_frac (nms : names) (is_conv rad : bool) (thr : Q) (h : string) : M (list (list Q)) :=
  let d_frac := if is_conv then frac_conv nms else frac_strat nms in
  let d_rad := if is_conv then frac_conv_rad nms else frac_strat_rad nms in
  let d_q := if is_conv then q_conv nms else q_strat nms in
  if rad then
    act fname <- get_name d_rad h;
    act f <- get_grid fname;
    act qn <- get_name d_q h;
    act q <- get_grid qn;
    lift (grid2 (frac_where thr) q f)
  else
    act fname <- get_name d_frac h;
    get_grid fname.

(** subcolumn.py 233-416. Lines 347-355 build their KeyError message with a
    format operator that itself raises TypeError; a missing ice field is
    already a KeyError at line 332. *)
Definition set_precip (is_conv : bool) (N_columns : option nat) (rad : bool) (sch : sched)
    (types : list string) (thr : Q) (dr : draws) : M unit :=
  act m <- get;
  act _ <- (match N_columns with
            | None => if Nat.eqb (num_sub m) 0 then raise RuntimeError else ret tt    (* 275 *)
            | Some _ => if Nat.eqb (num_sub m) 0 then ret tt else raise ValueError    (* 278 *)
            end);
  let N := match N_columns with None => num_sub m | Some n => n end in
  act _ <- (if Nat.eqb (num_sub m) 0 then set_dim N else ret tt);
  act fracs <- mapMM (precip_frac (nm m) is_conv rad thr) types;
  act ci <- get_flag (kind is_conv ++ "_frac_subcolumns_ci");         (* 332 *)
  if Nat.eqb N 1 then                                                  (* 334 *)
    act _ <- mapMM (fun h =>
      act qn <- get_name (if is_conv then q_conv (nm m) else q_strat (nm m)) h;
      act q <- get_grid qn;
      assign (kind is_conv ++ "_frac_subcolumns_" ++ h) 1 (length q)
             (VFlag (map (map (fun x => [above_thr thr x])) q))) types;
    ret tt
  else
    act m <- get;
    if negb (has_var (kind is_conv ++ "_frac_subcolumns_cl") m) then raise TypeError   (* 347 *)
    else
      act cl <- get_flag (kind is_conv ++ "_frac_subcolumns_cl");
      let n := num_sub m in
      act clouds <- lift (flags_or ci cl);                             (* 359 *)
      act css <- lift (stack_classes (map (map (map (count_of n))) fracs));
      act order <- lift (tt_order sch (length css));
      act cols <- lift (run_columns order (fun tt =>
                    do c <- nth_res css tt; do cv <- nth_res clouds tt;
                    precip_col N (length types) c cv (dr tt)));
      act cols <- lift (np_stack cols);
      act _ <- mapMM (fun ih =>
        assign (kind is_conv ++ "_frac_subcolumns_" ++ snd ih) N (length cols)
               (VFlag (map (map (fun l => nth (fst ih) l [])) cols)))
        (combine (seq 0 (length types)) types);
      ret tt.

(** ** Mixing ratio and number concentration (419-580, 753-780) *)

(** [l[idx] = vals] for integer-array indices (IndexError out of range). *)
Definition set_vals (l : list xq) (idx : list nat) (vals : list xq) : res (list xq) :=
  if forallb (fun i => Nat.ltb i (length l)) idx then
    Ok (fold_left (fun acc iv => firstn (fst iv) acc ++ snd iv :: skipn (S (fst iv)) acc)
                  (combine idx vals) l)
  else Raise IndexError.

Definition xsum (l : list xq) : xq := fold_right xadd (Fin 0) l.

(** subcolumn.py 768-771: smallest [k >= 1] such that
    [mean * tot - sum(gam[:-k]) > 0].  For [k >= tot] the slice is empty and
    the test no longer depends on [k], so a search that has not succeeded for
    k = 1..tot never ends. *)
Fixpoint find_valid (fuel k : nat) (total : xq) (gam : list xq) : res nat :=
  match fuel with
  | O => Raise Hang
  | S f =>
      if xgt (xsub total (xsum (firstn (length gam - k) gam))) (Fin 0) then Ok k
      else find_valid f (S k) total gam
  end.

Definition xnat (n : nat) : xq := Fin (inject_Z (Z.of_nat n)).

(** subcolumn.py 755-778: one level of [_distribute_cl_q_n].  [gam] are the
    values of [np.random.gamma] (tot of them), [perm] those of
    [np.random.permutation(tot)].  The parameters of the gamma law only
    influence the draws, which are arbitrary here. *)
Definition distribute_level (N : nat) (fl : list bool) (mean : xq)
    (perm : nat -> list nat) (gam : list xq) : res (list xq) :=
  let locs := argwhere fl in
  let tot := length locs in                                  (* sub_data_frac.sum(axis=0) *)
  let zero := repeat (Fin 0) N in
  if Nat.eqb tot 1 then set_vals zero locs (map (fun _ => mean) locs)
  else if Nat.ltb 1 tot then
    let randlocs := perm tot in
    do k <- find_valid tot 1 (xmul mean (xnat tot)) gam;
    let head := firstn (length gam - k) gam in
    do i1 <- gather locs (firstn (length randlocs - k) randlocs);
    do p <- set_vals zero i1 head;
    do i2 <- gather locs (skipn (length randlocs - k) randlocs);
    let rest := xdiv (xsub (xmul mean (xnat tot)) (xsum head)) (xnat k) in
    set_vals p i2 (map (fun _ => rest) i2)
  else Ok zero.

(** Draws of the gamma distribution, by time index and level. *)
Definition gdraws := nat -> nat -> list xq.

Definition distribute_col (N : nat) (fls : list (list bool)) (means : list xq)
    (perm : nat -> nat -> list nat) (gam : nat -> list xq) : res (list (list xq)) :=
  do t <- map2r pair fls means;
  mapM (fun jx => distribute_level N (fst (snd jx)) (snd (snd jx)) (perm (fst jx)) (gam (fst jx)))
       (combine (seq 0 (length t)) t).

(** [np.where(q > thr, q / frac, 0)] of one cell. *)
Definition q_incloud (thr q f : Q) : xq :=
  if above_thr thr q then xdiv (Fin q) (Fin f) else Fin 0.

(** One cell spread over its subcolumns: [np.where(flags, v, 0)], NaN -> 0. *)
Definition spread (fl : list bool) (v : xq) : list xq :=
  map (fun b : bool => nan0 (if b then v else Fin 0)) fl.

(** [np.where(sub, tile(v, (n,1,1)), 0)]: the flags must have [n] subcolumns. *)
Definition spread_n (n : nat) (fl : list bool) (v : xq) : res (list xq) :=
  if Nat.eqb (length fl) n then Ok (spread fl v) else Raise ValueError.

(** subcolumn.py 419-580. *)
Definition set_q_n (hyd : string) (is_conv qc_flag rad : bool) (sch : sched) (thr : Q)
    (perm : nat -> nat -> nat -> list nat) (gam : gdraws) : M unit :=
  act m <- get;
  let n := num_sub m in
  if Nat.eqb n 0 then raise RuntimeError                              (* 470 *)
  else
    let qc_flag := if rad || is_conv then false else qc_flag in       (* 476 *)
    act frac <- precip_frac (nm m) is_conv rad thr hyd;               (* 481-488, 499-506 *)
    act nprof <-
      (if is_conv then ret []
       else
         act nn <- get_name (n_field (nm m)) hyd;
         act nfield <- get_grid nn;
         lift (grid2 (fun a f => xdiv (Fin a) (Fin f)) nfield frac));  (* 490 *)
    act fl <- get_flag (kind is_conv ++ "_frac_subcolumns_" ++ hyd);
    act nsub <-
      (if is_conv then ret []
       else lift (map2m (map2m (spread_n n)) fl nprof));               (* 492-493, 568 *)
    act qn <- get_name (if is_conv then q_conv (nm m) else q_strat (nm m)) hyd;
    act q <- get_grid qn;
    if Nat.eqb n 1 then                                                (* 511 *)
      act qv <- lift (grid2 (fun q f => [q_incloud thr q f]) q frac);
      act _ <- assign (kind is_conv ++ "_q_subcolumns_" ++ hyd) 1 (length qv) (VSub qv);
      if is_conv then ret tt
      else assign (kind is_conv ++ "_n_subcolumns_" ++ hyd) 1 (length nprof)
                  (VSub (map (map (fun x => [x])) nprof))
    else
      act qv <-
        (if qc_flag then
           act mean <- lift (grid2 (fun q f => nan0 (q_incloud thr q f)) q frac);
           act order <- lift (qn_order sch (length frac));
           act cols <- lift (run_columns order (fun tt =>
                         do f <- nth_res fl tt; do mn <- nth_res mean tt;
                         distribute_col n f mn (perm tt) (gam tt)));
           act cols <- lift (np_stack cols);
           ret (map (map (map nan0)) cols)
         else
           act qc <- lift (grid2 (q_incloud thr) q frac);
           lift (map2m (map2m (spread_n n)) fl qc));
      act _ <- assign (kind is_conv ++ "_q_subcolumns_" ++ hyd) n (length qv) (VSub qv);
      if is_conv then ret tt
      else assign (kind is_conv ++ "_n_subcolumns_" ++ hyd) n (length nsub) (VSub nsub).
