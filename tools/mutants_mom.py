MUTANTS=[]
def mu(name,file,defn,old,new,edit,claim,**k):
    MUTANTS.append(dict(name=name,file=file,defn=defn,old=old,new=new,edit=edit,claim=claim,**k))
A="Atm_Model"; L="Lidar_Model"; R="Radar_Model"; C="Class_Model"; S="Sim_Model"; T="Stat_Model"; P="Psd_Model"; X="Xds_Model"
# molecular scattering
mu("atm_updir",A,"u_profile","XF 0 :: cumsum (zmul trap summed)","XF 0 :: cumsum (rev (zmul trap summed))","layers accumulated in the wrong order","C47 (optical depth)")
mu("atm_sfc",A,"u_profile","if sfc then (match b","if negb sfc then (match b","direction flag inverted","C47")
mu("atm_trap",A,"u_profile","xdiv d (XF 2)","xdiv d (XF 1)","trapezoid without the factor 1/2","C47 (optical depth)")
mu("atm_sign",A,"calc_theory_beta_m","xexp (xmul (XF (-2)) (u t k))","xexp (xmul (XF 2) (u t k))","sign of the exponent","C47")
mu("atm_oneway",A,"calc_theory_beta_m","xexp (xmul (XF (-2)) (u t k))","xexp (xmul (XF (-1)) (u t k))","one-way instead of two-way","C47 (optical depth)")
mu("atm_Ns",A,"calc_theory_beta_m","xdiv (N_s (p t k) (tc t k)) (XF (/ 10 ^ 6))","N_s (p t k) (tc t k)","number density left per cm3","C67")
mu("atm_king",A,"sigma180_cm2","(XF (6 - 7 * raw_n))","(XF (6 + 3 * raw_n))","wrong depolarisation factor in the backscatter","C67")
mu("atm_gamma0",A,"gamma_0","if xltb praw (XF 25) then XF (118/100)","if xltb praw (XF 25) then XF (-118/100)","negative line width at low pressure","C60 (gas transmittance)")
mu("atm_zemin",A,"ze_min_cell","(xmul (XF 20) (xlog10 z))","(xmul (XF 10) (xlog10 z))","one-way range law","C58/C26")
mu("atm_ref",A,"ze_min_cell","(xmul (XF 20) (xlog10 ref))","(xmul (XF 20) (xlog10 (xmul (XF 2) ref)))","reference range doubled","C58")
# lidar
mu("od_shift",L,"od_profile","(XF 0 :: removelast alpha)","alpha","extinction of the level itself instead of the one below","C21")
mu("od_rev",L,"od_profile","rev (cumsum (rev (zmul (diff_append (XF 0) z) (tl alpha ++ [XF 0]))))","cumsum (zmul (diff_append (XF 0) z) (tl alpha ++ [XF 0]))","from-top depth accumulated upwards","C21")
mu("lid_zero",L,"zero_totals","run _ <- assign (out \"alpha_p\" \"tot\" c) (V3 zeros3);\n  assign (out \"OD\" \"tot\" c) (V3 zeros3).","assign (out \"OD\" \"tot\" c) (V3 zeros3).","total extinction not reset","C34, C35")
mu("lid_add",L,"finish_class","run _ <- add_to (out \"alpha_p\" \"tot\" c) (fill0 a);","run _ <- add_to (out \"alpha_p\" \"tot\" c) (fill0 b);","backscatter added to the extinction total","C34")
mu("lid_nofill",L,"finish_class","run _ <- add_to (out \"beta_p\" \"tot\" c) (fill0 b);","run _ <- add_to (out \"beta_p\" \"tot\" c) b;","missing values not replaced before adding","C34")
mu("lid_ratio",L,"optics_empirical","xdiv (al i tt k) (XF lr)","xmul (al i tt k) (XF lr)","multiplied by the lidar ratio","C34/C35? (values not specified)")
mu("lid_att",L,"att_cell","xexp (xmul (XF (-2 * eta)) od)","xexp (xmul (XF (-1 * eta)) od)","one-way attenuation","C22")
mu("lid_tot_conv",L,"total_of","Ok (lift2 xadd (fill0 a) (fill0 b))","Ok (lift2 xadd (fill0 b) (fill0 b))","convective part dropped","C22, C23")
mu("lid_tot_nan",L,"total_of","Ok (lift2 xadd (fill0 a) (fill0 b))","Ok (lift2 xadd a (fill0 b))","missing convective part makes the total missing","C23")
mu("ldr_w",L,"ldr_sums","xmul (fillna 0 (b i t k)) (XF w)","xmul (fillna 0 (b i t k)) (XF 1)","unweighted sum","C24")
mu("ldr_pos",L,"pos_or_nan","if xltb (XF 0) x then x else XNaN","x","division by zero backscatter","C24")
mu("ldr_mask",L,"mask_profile","if xltb (XF ext) x then XF 2 else XF 0","if xltb x (XF ext) then XF 2 else XF 0","extinction test inverted","C25")
mu("ldr_mask_dir",L,"mask_profile","if sfc then diff_append","if negb sfc then diff_append","edge of the mask on the wrong side","C25")
mu("lid_check",L,"calc_lidar_moments","negb (String.eqb (lower (i_class ins)) \"lidar\")","String.eqb (lower (i_class ins)) \"radar\"","only radars rejected","C46/C20?")
# radar
mu("rad_zero",R,"zero_Ze","assign (out \"Ze\" \"tot\" c) (V3 zeros3).","lret tt.","total not reset","C34, C35")
mu("rad_add",R,"ze_loop","run _ <- add_to (out \"Ze\" \"tot\" c) (fill0 ze);","run _ <- assign (out \"Ze\" \"tot\" c) (V3 (fill0 ze));","last class overwrites the total","C34")
mu("rad_trans",R,"trans_db","xp10 (xdiv (xmul (XF (-2)) x) (XF 10))","xp10 (xdiv (xmul (XF (-1)) x) (XF 10))","one-way attenuation in dB","C27?")
mu("rad_trans_od",R,"trans_od","xexp (xmul (XF (-2)) x)","xexp (xmul (XF 2) x)","signal amplified","C60")
mu("rad_zkm",R,"accumulate_attenuation","fun t k => xdiv (z t k) (XF 1000)","fun t k => z t k","heights left in m","C27")
mu("rad_fillatt",R,"calc_radar_moments","(fillna 1 (he i t k))) (fillna 1 (ae t k)) in\n      run _","(fillna 0 (he i t k))) (fillna 1 (ae t k)) in\n      run _","missing transmittance taken as opaque","C26/C27")
mu("rad_dbzorder",R,"calc_radar_moments","assign (out \"Ze\" \"tot\" c) (V3 (map3 total_dbz zt)).\nEnd","assign (out \"Ze\" \"tot\" c) (V3 zt).\nEnd","total left in linear units","C26")
mu("rad_dbz",R,"db","xmul (XF 10) (xlog10 x)","xmul (XF 20) (xlog10 x)","20 log10 for a power quantity","C26")
mu("rad_lin",R,"lin","if isfin x then xp10 (xdiv x (XF 10)) else XF 0","if isfin x then xp10 (xdiv x (XF 10)) else XF 1","missing reflectivity counted as 0 dBZ","C26/C23")
mu("rad_conv",R,"calc_total_reflectivity","add_lin (lin (zs i t k)) (zc i t k)","lin (zs i t k)","convective part dropped from the total","C26")
mu("rad_mask",R,"calc_total_reflectivity","xleb (attd i t k) (zm t k)","xleb (zm t k) (attd i t k)","detectability mask inverted","C59?")
mu("rad_corr",R,"rhoa_corr","xpow (xdiv (XF r) (ra t k)) (XF (54 / 100))","xpow (xdiv (ra t k) (XF r)) (XF (54 / 100))","density correction inverted","none stated (Vd)")
# classification
mu("cls_ext",C,"classify_one","if xltb (XF ext) (o i t k) then XF 0 else m1 i t k","m1 i t k","extinguished cells kept","C28")
mu("cls_order",C,"phase_cell","fold_left (fun m th =>","fold_right (fun th m =>","first matching class wins instead of the last","C28",count=1)
mu("cls_le",C,"phase_cell","if xltb (XF 0) beta then xlog10 beta else XNaN","xlog10 beta","zero backscatter not excluded","C28")
mu("cls_nan",C,"zeros_nan","if conv0 && xeqb v (XF 0) then XNaN else v","if xeqb v (XF 0) then XNaN else v","zeros always converted","C28")
mu("snd_mixed",C,"sounding_cell","if cloud && (m1 =? 3)%nat then 2%nat else m1","m1","detected cloud not class 2","C30")
mu("snd_rng",C,"sounding_cell","if xltb z (XF lo) || xltb (XF hi) z then","if xltb z (XF lo) && xltb (XF hi) z then","height range never applied","C30")
mu("snd_min",C,"sounding_cell","if xleb zmin ze then 3%nat","if xltb zmin ze then 3%nat","detectable only above the minimum","C30")
mu("csp_warm",C,"cosp_cell","if xltb (XF (27315/100)) temp && (0 <? m1)%nat then 1%nat else m1","if xltb (XF (27315/100)) temp && (0 <? m1)%nat then 2%nat else m1","warm cloud called ice","C31")
mu("csp_cold",C,"cosp_cell","if xltb temp (XF (23315/100)) && (0 <? m2)%nat then 2%nat else m2","if xltb temp (XF (23315/100)) then 2%nat else m2","cold clear air called ice","C31")
mu("csp_refl",C,"reflective","if (fst p : bool) && (snd p =? 1)%nat then 0%nat else snd p","snd p","the first reflective layer itself undefined","C31")
mu("csp_dir",C,"reflective","if sfc then count_from 0 hi","if negb sfc then count_from 0 hi","counted from the wrong end","C31")
mu("csp_hsrl",C,"lidar_emulate_cosp_phase","if negb (String.eqb (i_str ins) \"HSRL\") then lraise ValueError else","","other lidars accepted","C57")
mu("ratio_den",C,"ratio","xdiv a (xadd a b)","xdiv a b","ratio to the other phase","C29")
mu("ratio_mask",C,"mass_group","if xltb (XF 0) (m i t k) then q i t k else XF 0","q i t k","mass outside the mask counted","C29")
mu("fpr_nan",C,"calculate_phase_ratio","if (d =? 0)%nat then XNaN else XF (INR d)","if (d =? 0)%nat then XF 1 else XF (INR d)","no hydrometeors gives 0 instead of NaN","C29")
mu("fpr_upto",C,"upto","seq 1 (Z.to_nat z)","seq 0 (Z.to_nat z)","default classes 0..max-1","C29/C32")
# driver
mu("sim_order",S,"simulate_radar","run _ <- calc_radar_Ze_min e ins (XF ref);\n  run _ <- calc_total_reflectivity e;","run _ <- calc_total_reflectivity e;\n  run _ <- calc_radar_Ze_min e ins (XF ref);","totals before the detection limit","C55")
mu("sim_ref",S,"sim_ref","else Ok 1000","else Ok 1","default reference range 1 m","C56")
mu("sim_conv",S,"simulate_lidar","run _ <- (if p_conv e then calc_lidar_moments Gam e ins (sim_lopts e a o true) true else lret tt);","","convective clouds skipped","C55")
mu("sim_band",S,"instrument_band","| Some f, None => Ok (f, light / f * 10 ^ 6)","| Some f, None => Ok (f, light / f)","wavelength in m","C58")
mu("sim_only",S,"simulate","if m_only o then lret tt","if negb (m_only o) then lret tt","generation-only flag inverted","C55")
# psd
mu("psd_lam",P,"lambda_cell","(XF (1 / 3))","(XF (1 / 2))","wrong root","C41")
mu("psd_c",P,"lambda_cell","xdiv (xmul (XF PI) rh) (XF 6)","xdiv (xmul (XF PI) rh) (XF 4)","sphere volume with 1/4","C41")
mu("psd_n0",P,"n0_cell","xpow lam (xadd mu (XF 1))","xpow lam mu","intercept exponent","C41")
mu("psd_q0",P,"lambda_cell","if xltb (XF 0) q then fit else XNaN","fit","no mask without condensate","C41")
mu("psd_mu",P,"mu_martin","if xltb m (XF lo) then XF lo else m","if xltb m (XF lo) then XF hi else m","lower bound replaced by the upper","C41_shape")
mu("psd_cl",P,"mu_cell","String.eqb h \"cl\" && negb conv","String.eqb h \"cl\"","also convective cloud liquid","C41_shape")
# statistics
mu("st_weight",T,"weight","else (if Rle_dec dtt 0 then t - b else - dbt)","else (if Rle_dec dtt 0 then t - b else t - b)","partial overlap at the top counted fully","C42")
mu("st_top",T,"old_grid","last zfull 0 + last zfull 0 - last zhalf 0","last zfull 0","top of the last layer","C42")
mu("st_break",T,"scan","if Rle_dec 0 (b - nt) then Ok ([], lev)","if Rlt_dec 0 (b - nt) then Ok ([], lev)","break only strictly above","none: a touching layer has weight 0")
mu("st_start",T,"scans","(if (snd x <? 3)%nat then 0 else snd x - 2)","(snd x)","next layer starts after the break","C42")
mu("st_flag",T,"flagged","if Rlt_dec z0 nt","if Rlt_dec nt z0","ground test inverted","C42, C64")
mu("st_mean",T,"wmean","r / wsum ws (fun _ => 1)","r","not normalised","C42")
mu("st_cf",T,"cf_cell","xltb (XF 5) x","xleb (XF 5) x","cloudy from 5 on","C43")
mu("st_cf0",T,"cf_cell","if (0 <? srok)%nat then","if (0 <? cldy)%nat then","missing when no cloud","C43")
mu("st_cfad",T,"cfad","(XF (INR nsubcolumn))","(XF (INR (length edges)))","wrong denominator","C44")
mu("st_cfad_edge",T,"cfad","within (nth j edges XNaN) (nth (S j) edges XNaN)","within (nth j edges XNaN) (nth (S (S j)) edges XNaN)","double-width bins","C44")
mu("st_time",T,"cfad_alltime","(XF (INR npoints))","(XF (INR rows))","divided by the wrong count","C44")
mu("st_undef",T,"num_undef","XNaN => R_UNDEF","XNaN => 0","missing as zero","C65")
mu("st_half",T,"midpoints","(a + (b - a) / 2) :: midpoints z'","a :: midpoints z'","half levels at the full levels","C63?")
# datasets
mu("ds_remove",X,"remove_subcol_fields","contains (fst p) cloud_class && existsb","contains (fst p) cloud_class || existsb","or for and","C38")
mu("ds_final",X,"finalize_subcol_fields","existsb (contains (fst p)) (\"sub_col\" :: more)","existsb (contains (fst p)) more","default marker dropped","C39")
mu("ds_crop",X,"crop_time_range","xleb t0 (vat tc [i]) && xltb (vat tc [i]) t1","xltb t0 (vat tc [i]) && xltb (vat tc [i]) t1","start excluded","C37")
mu("ds_crop_empty",X,"crop_time_range","| [] => Ok m\n","| [] => Raise ValueError\n","empty selection raises","C37")
mu("ds_ravel",X,"ravel","i * size_of sh' + ravel sh' ix'","i + ravel sh' ix'","index arithmetic","C36")
mu("ds_unstack",X,"unstack","[lat_dim m ++ \"_tmp\"; lon_dim m ++ \"_tmp\"; t0 ++ \"_tmp\"]%string","[lon_dim m ++ \"_tmp\"; lat_dim m ++ \"_tmp\"; t0 ++ \"_tmp\"]%string","lat and lon swapped when unstacking","C36")
mu("ds_save",X,"save_markers","\"mpr\"; \"fpr\"; time_dim; \"Times\"","\"mpr\"; time_dim; \"Times\"","frequency ratios not saved","C48")
mu("ds_clamp",X,"clamp_to","if xltb v (nanmin grid) then nanmin grid","if xltb v (nanmin grid) then nanmax grid","low values set to the maximum","C40")
mu("ds_merge",X,"merge_var","if isnan (vat v ix) then vat w ix else vat v ix","vat v ix","missing values not filled from the file","C37/C48 (load)")
