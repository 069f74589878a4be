MUTANTS=[]
def mu(name,file,defn,old,new,edit,claim,**k):
    MUTANTS.append(dict(name=name,file=file,defn=defn,old=old,new=new,edit=edit,claim=claim,**k))
G="Gen_Model"; S="Strat_Model"; P="Precip_Model"; H="Sched_Model"
mu("conv_range",G,"conv_cell","(seq 1 n) (repeat false n)","(seq 1 (n - 1)) (repeat false n)","loop over i runs to n-1: a full convective cell stays empty","C01")
mu("conv_and",G,"set_convective","negb (Nat.eqb (num_sub m) n) && negb (Nat.eqb (num_sub m) 0)","negb (Nat.eqb (num_sub m) n) && Nat.eqb (num_sub m) 0","inverted test of an already set subcolumn number","C01, C03")
mu("conv_thr",G,"set_convective","if above_thr thr q then count_of n f else 0%Z","if above_thr q thr then count_of n f else 0%Z","swapped comparison with the threshold","C01")
mu("strat_case1",S,"strat_overlap","if num_min >? sel Imax c then ","if num_min >=? sel Imax c then ","first placement case entered also on equality (same placement either way?)","C05 if counts change")
mu("strat_zero",S,"strat_overlap","      else Ok s);\n    let c := upd Imin 0 c in\n    let c := upd Imax (sel Imax c - num_min) c in                  (* 637 *)","      else Ok s);\n    let c := upd Imin 0 c in                  (* 637 *)","dropped update of the remaining count after placing under the common cloud","C05/C49 count")
mu("strat_locs",S,"strat_overlap","    do s <- mark Imin (sel Iover_max locs) s;\n    do s <- mark Imax (sel Iover_max locs) s;","    do s <- mark Imin (sel Iover_min locs) s;\n    do s <- mark Imax (sel Iover_max locs) s;","last case places the smaller type under the smaller overlying cloud","C07, C49")
mu("strat_fill_conv",S,"strat_fill","do free <- zipb andb (np_not (sel Imax s)) (np_not conv);","do free <- zipb andb (np_not (sel Imax s)) (np_not (sel Imin s));","remaining cloud ignores convection","C06")
mu("strat_fill_min",S,"strat_fill","do inds <- gather free_locs (pyslice (sel Imin c) rand);\n      mark Imin","do inds <- gather free_locs (pyslice (sel Imax c) rand);\n      mark Imin","smaller type gets the count of the larger","C05, C49")
mu("strat_over_conv",S,"strat_overlap","do over2 <- zipb andb (snd above) (np_not conv);","do over2 <- zipb andb (snd above) (fst above);","overlying ice locations not masked by convection","C06, C07")
mu("strat_top",S,"strat_column","Ok ([(repeat false N, repeat false N)], 0%nat)","Ok ([(repeat true N, repeat false N)], 0%nat)","top level starts full","C08")
mu("strat_min",S,"I_min","if fst c <=? snd c then CL else CI","if fst c <=? snd c then CI else CL","argmin replaced by argmax","C04, C05")
mu("strat_snd",G,"set_stratiform","(VFlag (map (map snd) cols))","(VFlag (map (map fst) cols))","ice output gets the liquid flags","C04, C05")
mu("strat_rad",G,"set_stratiform","act fname <- get_name (frac_strat_rad (nm m)) h;","act fname <- get_name (frac_strat (nm m)) h;","radiation logic reads the microphysics fraction","C05, C49")
mu("strat_roll",G,"strat_ovl","zipb andb (map strat_cloudy cs) (roll1 (map strat_cloudy cs))","zipb andb (map strat_cloudy cs) (map strat_cloudy cs)","overlap test looks at the same level",  "C07 (overlap flag wrong where the level above is clear: no locations there, so placement is unchanged except remaining counts)")
mu("precip_max",P,"precip_level","(max_list cs,","(hd 0 cs,","largest request replaced by that of the first class","C09, C10")
mu("precip_cloudy",P,"precip_level","do st2 <- precip_free N cloudy (perm 1%nat) st1;\n    do st3 <- precip_free N (np_not cloudy) (perm 2%nat) st2;","do st2 <- precip_free N (np_not cloudy) (perm 1%nat) st1;\n    do st3 <- precip_free N cloudy (perm 2%nat) st2;","clear subcolumns filled before cloudy ones","C12")
mu("precip_any",P,"any_class","existsb (fun fl","forallb (fun fl","np.any replaced by np.all","C11")
mu("precip_rem",P,"place_less","p_rem := p_rem p - num; p_fl := fl","p_rem := p_rem p; p_fl := fl","remaining count of the class not reduced","C09")
mu("precip_less",P,"place_less","if num >? p_rem p then","if num <? p_rem p then","inverted comparison","C09")
mu("precip_pf",P,"precip_round","Ok (pf - num, cls)","Ok (pf, cls)","remaining maximum not reduced","C09/C10")
mu("precip_nooverlap",P,"precip_level","(if ovl then precip_round (argwhere (any_class N above)) (perm 0%nat) st0\n               else Ok st0)","(if ovl then Ok st0 else Ok st0)","overlying precipitation ignored","C11")
mu("precip_full",P,"precip_level","forallb (fun c => c =? Z.of_nat N) cs","existsb (fun c => c =? Z.of_nat N) cs","fully overcast as soon as one class is","C09")
mu("precip_out",G,"set_precip","nth (fst ih) l []","nth 0 l []","every class gets the flags of the first","C09")
mu("sched_ind",H,"chunk_loop","if j + chunk >=? t then t else j + chunk","if j + chunk >=? t then t - 1 else j + chunk","last chunk stops one column early","C13")
mu("sched_from0",H,"tt_order","chunk_loop t (Z.of_nat t) c 0","chunk_loop t (Z.of_nat t) c 1","chunked loop starts at column 1","C13")
mu("qn_loop",H,"qn_loop","if j + chunk >? t then t else j + chunk","if j + chunk >? t then j else j + chunk","last (partial) chunk empty","C50")
mu("qn_mean",G,"set_q_n","nan0 (q_incloud thr q f)","nan0 (Fin q)","variable distribution of the grid-mean instead of the in-cloud mean","C17")
mu("qn_uniform",G,"q_incloud","xdiv (Fin q) (Fin f)","Fin q","in-cloud mixing ratio not divided by the fraction","C15, C17")
mu("qn_number",G,"set_q_n","xdiv (Fin a) (Fin f)","xdiv (Fin f) (Fin a)","swapped quotient of the number concentration","C16")
mu("qn_flagclass",G,"set_q_n","act fl <- get_flag (kind is_conv ++ \"_frac_subcolumns_\" ++ hyd);","act fl <- get_flag (kind is_conv ++ \"_frac_subcolumns_cl\");","always liquid flags","C15, C16")
mu("qn_radflag",G,"set_q_n","if rad || is_conv then false else qc_flag","if rad then false else qc_flag","variability also for convection","C15")
mu("dist_rest",G,"distribute_level","(xsum head)) (xnat k)","(xsum head)) (xnat tot)","remainder divided by the number of all cloudy subcolumns","C17")
mu("dist_k",G,"distribute_level","do k <- find_valid tot 1","do k <- find_valid tot 0","search starts at 0: every draw kept, remainder divided by 0","C17")
mu("find_ge",G,"find_valid","if xgt (xsub total (xsum (firstn (length gam - k) gam))) (Fin 0) then Ok k","if xgt (Fin 0) (xsub total (xsum (firstn (length gam - k) gam))) then Ok k","inverted sign test","C17 (negative values), C18")
mu("qn_zero",G,"set_q_n","if Nat.eqb n 0 then raise RuntimeError ","if Nat.eqb n 0 then raise ValueError ","wrong exception without subcolumns","C20")
mu("precip_exc",G,"set_precip","if Nat.eqb (num_sub m) 0 then raise RuntimeError else ret tt","if Nat.eqb (num_sub m) 0 then ret tt else ret tt","missing subcolumn number not detected","C20")
mu("precip_twice",G,"set_precip","if Nat.eqb (num_sub m) 0 then ret tt else raise ValueError","ret tt","second N_columns accepted","C03")
mu("driver_skip","Driver_Model","precip_classes",'negb (String.eqb h "cl") && negb (String.eqb h "ci")','negb (String.eqb h "cl") && negb (String.eqb h "ci") && negb (String.eqb h "pi")',"driver skips one precipitation class","C54")
mu("driver_order","Driver_Model","driver_flags",'''  act _ <- set_stratiform N_columns rad sch default_thr (d_strat d);
  act _ <- set_precip false None rad sch (precip_classes m) default_thr (d_precip d);''','''  act _ <- set_precip false None rad sch (precip_classes m) default_thr (d_precip d);
  act _ <- set_stratiform N_columns rad sch default_thr (d_strat d);''',"precipitation generated before stratiform cloud","C54")
