(** What the shipped instruments should provide. *)
From Coq Require Import Reals.
From Verif Require Export Inst_Model Class_Spec.
Local Open Scope string_scope.
Local Open Scope list_scope.
Local Open Scope R_scope.

(** Listing of the table directories of emc2/core. *)
Definition shipped_files : list string :=
  ["mie_tables/Mie1064nm_ci.dat";
   "mie_tables/Mie1064nm_liq.dat";
   "mie_tables/Mie1064nm_liq_c.dat";
   "mie_tables/Mie1064nm_pi.dat";
   "mie_tables/Mie1064nm_pi1.dat";
   "mie_tables/MieCEIL_ci.dat";
   "mie_tables/MieCEIL_liq.dat";
   "mie_tables/MieCEIL_liq_c.dat";
   "mie_tables/MieCEIL_pi.dat";
   "mie_tables/MieCEIL_pi1.dat";
   "mie_tables/MieCSAPR_ci.dat";
   "mie_tables/MieCSAPR_liq.dat";
   "mie_tables/MieCSAPR_liq_c.dat";
   "mie_tables/MieCSAPR_pi.dat";
   "mie_tables/MieCSAPR_pi1.dat";
   "mie_tables/MieHSRL_ci.dat";
   "mie_tables/MieHSRL_liq.dat";
   "mie_tables/MieHSRL_pi.dat";
   "mie_tables/MieHSRL_pi1.dat";
   "mie_tables/MieKAZR_ci.dat";
   "mie_tables/MieKAZR_liq.dat";
   "mie_tables/MieKAZR_liq_c.dat";
   "mie_tables/MieKAZR_pi.dat";
   "mie_tables/MieKAZR_pi1.dat";
   "mie_tables/MieNEXRAD_ci.dat";
   "mie_tables/MieNEXRAD_liq.dat";
   "mie_tables/MieNEXRAD_liq_c.dat";
   "mie_tables/MieNEXRAD_pi.dat";
   "mie_tables/MieNEXRAD_pi1.dat";
   "mie_tables/MieRL_ci.dat";
   "mie_tables/MieRL_liq.dat";
   "mie_tables/MieRL_pi.dat";
   "mie_tables/MieRL_pi1.dat";
   "mie_tables/MieWACR_ci.dat";
   "mie_tables/MieWACR_liq.dat";
   "mie_tables/MieWACR_liq_c.dat";
   "mie_tables/MieWACR_pi.dat";
   "mie_tables/MieWACR_pi1.dat";
   "mie_tables/MieXSACR_ci.dat";
   "mie_tables/MieXSACR_liq.dat";
   "mie_tables/MieXSACR_liq_c.dat";
   "mie_tables/MieXSACR_pi.dat";
   "mie_tables/MieXSACR_pi1.dat";
   "c6_tables/C6_1064nm_8col_agg_rough_270K.dat";
   "c6_tables/C6_CEIL_8col_agg_rough_270K.dat";
   "c6_tables/C6_CSAPR_8col_agg_rough_270K.dat";
   "c6_tables/C6_HSRL_8col_agg_rough_270K.dat";
   "c6_tables/C6_KAZR_8col_agg_rough_270K.dat";
   "c6_tables/C6_NEXRAD_8col_agg_rough_270K.dat";
   "c6_tables/C6_RL_8col_agg_rough_270K.dat";
   "c6_tables/C6_WACR_8col_agg_rough_270K.dat";
   "c6_tables/C6_XSACR_8col_agg_rough_270K.dat";
   "bulk_c6_tables/bulk_1064nm_C6PSD_c6_8col_ice_agg_rough_270K.dat";
   "bulk_c6_tables/bulk_1064nm_C6PSD_mie_ice.dat";
   "bulk_c6_tables/bulk_1064nm_C6PSD_mie_liq.dat";
   "bulk_c6_tables/bulk_1064nm_C6PSD_mie_liq_c.dat";
   "bulk_c6_tables/bulk_CEIL_C6PSD_c6_8col_ice_agg_rough_270K.dat";
   "bulk_c6_tables/bulk_CEIL_C6PSD_mie_ice.dat";
   "bulk_c6_tables/bulk_CEIL_C6PSD_mie_liq.dat";
   "bulk_c6_tables/bulk_CEIL_C6PSD_mie_liq_c.dat";
   "bulk_c6_tables/bulk_CSAPR_C6PSD_c6_8col_ice_agg_rough_270K.dat";
   "bulk_c6_tables/bulk_CSAPR_C6PSD_mie_ice.dat";
   "bulk_c6_tables/bulk_CSAPR_C6PSD_mie_liq.dat";
   "bulk_c6_tables/bulk_CSAPR_C6PSD_mie_liq_c.dat";
   "bulk_c6_tables/bulk_HSRL_C6PSD_c6_8col_ice_agg_rough_270K.dat";
   "bulk_c6_tables/bulk_HSRL_C6PSD_mie_ice.dat";
   "bulk_c6_tables/bulk_HSRL_C6PSD_mie_liq.dat";
   "bulk_c6_tables/bulk_KAZR_C6PSD_c6_8col_ice_agg_rough_270K.dat";
   "bulk_c6_tables/bulk_KAZR_C6PSD_mie_ice.dat";
   "bulk_c6_tables/bulk_KAZR_C6PSD_mie_liq.dat";
   "bulk_c6_tables/bulk_KAZR_C6PSD_mie_liq_c.dat";
   "bulk_c6_tables/bulk_NEXRAD_C6PSD_c6_8col_ice_agg_rough_270K.dat";
   "bulk_c6_tables/bulk_NEXRAD_C6PSD_mie_ice.dat";
   "bulk_c6_tables/bulk_NEXRAD_C6PSD_mie_liq.dat";
   "bulk_c6_tables/bulk_NEXRAD_C6PSD_mie_liq_c.dat";
   "bulk_c6_tables/bulk_RL_C6PSD_c6_8col_ice_agg_rough_270K.dat";
   "bulk_c6_tables/bulk_RL_C6PSD_mie_ice.dat";
   "bulk_c6_tables/bulk_RL_C6PSD_mie_liq.dat";
   "bulk_c6_tables/bulk_WACR_C6PSD_c6_8col_ice_agg_rough_270K.dat";
   "bulk_c6_tables/bulk_WACR_C6PSD_mie_ice.dat";
   "bulk_c6_tables/bulk_WACR_C6PSD_mie_liq.dat";
   "bulk_c6_tables/bulk_WACR_C6PSD_mie_liq_c.dat";
   "bulk_c6_tables/bulk_XSACR_C6PSD_c6_8col_ice_agg_rough_270K.dat";
   "bulk_c6_tables/bulk_XSACR_C6PSD_mie_ice.dat";
   "bulk_c6_tables/bulk_XSACR_C6PSD_mie_liq.dat";
   "bulk_c6_tables/bulk_XSACR_C6PSD_mie_liq_c.dat";
   "mDAD_tables/mDAD_1064nm_ice.dat";
   "mDAD_tables/mDAD_CEIL_ice.dat";
   "mDAD_tables/mDAD_CSAPR_ice.dat";
   "mDAD_tables/mDAD_HSRL_ice.dat";
   "mDAD_tables/mDAD_KAZR_ice.dat";
   "mDAD_tables/mDAD_NEXRAD_ice.dat";
   "mDAD_tables/mDAD_RL_ice.dat";
   "mDAD_tables/mDAD_WACR_ice.dat";
   "mDAD_tables/mDAD_XSACR_ice.dat";
   "bulk_mDAD_tables/bulk_1064nm_mDAD_mDAD_ice_263K.dat";
   "bulk_mDAD_tables/bulk_1064nm_mDAD_mie_ice.dat";
   "bulk_mDAD_tables/bulk_1064nm_mDAD_mie_liq.nc";
   "bulk_mDAD_tables/bulk_1064nm_mDAD_mie_liq_c.nc";
   "bulk_mDAD_tables/bulk_CEIL_mDAD_mDAD_ice_263K.dat";
   "bulk_mDAD_tables/bulk_CEIL_mDAD_mie_ice.dat";
   "bulk_mDAD_tables/bulk_CEIL_mDAD_mie_liq.nc";
   "bulk_mDAD_tables/bulk_CEIL_mDAD_mie_liq_c.nc";
   "bulk_mDAD_tables/bulk_CSAPR_mDAD_mDAD_ice_263K.dat";
   "bulk_mDAD_tables/bulk_CSAPR_mDAD_mie_ice.dat";
   "bulk_mDAD_tables/bulk_CSAPR_mDAD_mie_liq.nc";
   "bulk_mDAD_tables/bulk_CSAPR_mDAD_mie_liq_c.nc";
   "bulk_mDAD_tables/bulk_HSRL_mDAD_mDAD_ice_263K.dat";
   "bulk_mDAD_tables/bulk_HSRL_mDAD_mie_ice.dat";
   "bulk_mDAD_tables/bulk_HSRL_mDAD_mie_liq.nc";
   "bulk_mDAD_tables/bulk_KAZR_mDAD_mDAD_ice_263K.dat";
   "bulk_mDAD_tables/bulk_KAZR_mDAD_mie_ice.dat";
   "bulk_mDAD_tables/bulk_KAZR_mDAD_mie_liq.nc";
   "bulk_mDAD_tables/bulk_KAZR_mDAD_mie_liq_c.nc";
   "bulk_mDAD_tables/bulk_NEXRAD_mDAD_mDAD_ice_263K.dat";
   "bulk_mDAD_tables/bulk_NEXRAD_mDAD_mie_ice.dat";
   "bulk_mDAD_tables/bulk_NEXRAD_mDAD_mie_liq.nc";
   "bulk_mDAD_tables/bulk_NEXRAD_mDAD_mie_liq_c.nc";
   "bulk_mDAD_tables/bulk_RL_mDAD_mDAD_ice_263K.dat";
   "bulk_mDAD_tables/bulk_RL_mDAD_mie_ice.dat";
   "bulk_mDAD_tables/bulk_RL_mDAD_mie_liq.nc";
   "bulk_mDAD_tables/bulk_WACR_mDAD_mDAD_ice_263K.dat";
   "bulk_mDAD_tables/bulk_WACR_mDAD_mie_ice.dat";
   "bulk_mDAD_tables/bulk_WACR_mDAD_mie_liq.nc";
   "bulk_mDAD_tables/bulk_WACR_mDAD_mie_liq_c.nc";
   "bulk_mDAD_tables/bulk_XSACR_mDAD_mDAD_ice_263K.dat";
   "bulk_mDAD_tables/bulk_XSACR_mDAD_mie_ice.dat";
   "bulk_mDAD_tables/bulk_XSACR_mDAD_mie_liq.nc";
   "bulk_mDAD_tables/bulk_XSACR_mDAD_mie_liq_c.nc";
   "p3_tables/emc2_p3_ice_lut_abrv_full_1064nm.nc";
   "p3_tables/emc2_p3_ice_lut_abrv_full_CEIL.nc";
   "p3_tables/emc2_p3_ice_lut_abrv_full_CPR.nc";
   "p3_tables/emc2_p3_ice_lut_abrv_full_CSAPR.nc";
   "p3_tables/emc2_p3_ice_lut_abrv_full_HSRL.nc";
   "p3_tables/emc2_p3_ice_lut_abrv_full_KAZR.nc";
   "p3_tables/emc2_p3_ice_lut_abrv_full_NEXRAD.nc";
   "p3_tables/emc2_p3_ice_lut_abrv_full_RL.nc";
   "p3_tables/emc2_p3_ice_lut_abrv_full_WACR.nc";
   "p3_tables/emc2_p3_ice_lut_abrv_full_XSACR.nc"].

(** The leading arguments of a constructor: the site of a profiling radar, the
    temperature switch, the elevation angle of CSAPR. *)
Definition lead (d : device) (site : string) (cold : bool) : list pyarg :=
  match d with
  | KAZR | WACR => [PS site; PB cold]
  | CSAPR => [PB cold; PR 90]
  | _ => [PB cold]
  end.
(** Sites with known radar parameters. *)
Definition known_site (d : device) (site : string) : Prop :=
  match d with
  | KAZR => In (lower site) ["sgp"; "nsa"; "awr"; "ena"; "mos"]
  | WACR => In (lower site) ["sgp"; "awr"; "mos"; "micre"]
  | _ => True
  end.
Definition ultraviolet_visible (d : device) : Prop := In d [RL; HSRL; CALIOP].

(** Signal order of the phase classes: clear, ice, undefined 2, undefined 1, liquid. *)
Definition strength (v : nat) : nat :=
  match v with 2 => 1 | 4 => 2 | 3 => 3 | 1 => 4 | _ => 0 end.

(** The name under which the tables of a shipped instrument are filed. *)
Definition table_names : list (device * string) :=
  [(CSAPR, "CSAPR"); (XSACR, "XSACR"); (KAZR, "KAZR"); (WACR, "WACR"); (RL, "RL"); (HSRL, "HSRL"); (CEIL, "CEIL");
   (Ten64nm, "1064nm"); (NEXRAD, "NEXRAD"); (CALIOP, "HSRL")]%string.
