-Q theories Verif

theories/App_Merge.v
theories/App_Model.v
theories/App_More.v
theories/App_Names.v
theories/App_Spec.v
theories/App_Strip.v
theories/Atm_Facts.v
theories/Atm_Lidar.v
theories/Atm_Model.v
theories/Atm_Prof.v
theories/Atm_Spec.v
theories/Atm_Values.v
theories/Chunk_Hang.v
theories/Class_Cosp.v
theories/Class_Lidar.v
theories/Class_Miss.v
theories/Class_Model.v
theories/Class_Ratio.v
theories/Class_Spec.v
theories/Class_Witness.v
theories/Conv_Proofs.v
theories/Curt_Facts.v
theories/Curt_Final.v
theories/Curt_Model.v
theories/Curt_Regrid.v
theories/Curt_Spec.v
theories/Curt_Thm.v
theories/Curt_Time.v
theories/Disp_Crop.v
theories/Disp_Inst.v
theories/Disp_Level.v
theories/Disp_Model.v
theories/Disp_More.v
theories/Disp_Prof.v
theories/Disp_Spec.v
theories/Disp_Stat.v
theories/Disp_Sum.v
theories/Disp_Switch.v
theories/Disp_Wit.v
theories/Driver_Model.v
theories/Driver_Proofs.v
theories/Driver_Spec.v
theories/Driver_Witness.v
theories/Ds.v
theories/Every_Facts.v
theories/Every_Model.v
theories/Every_More.v
theories/Every_Spec.v
theories/Every_Thm.v
theories/Every_Wit.v
theories/Gen_Facts.v
theories/Gen_Model.v
theories/Gen_Spec.v
theories/History_Model.v
theories/History_Proofs.v
theories/History_Spec.v
theories/Inst_Facts.v
theories/Inst_Model.v
theories/Inst_Spec.v
theories/Label_Facts.v
theories/Label_Model.v
theories/Label_Spec.v
theories/Lidar_Api.v
theories/Lidar_Corol.v
theories/Lidar_Ldr.v
theories/Lidar_Loop.v
theories/Lidar_Model.v
theories/Lidar_Od.v
theories/Lidar_Perm.v
theories/Lidar_Spec.v
theories/Lidar_Witness.v
theories/Life_Direct.v
theories/Life_Len.v
theories/Life_Model.v
theories/Life_Proofs.v
theories/Life_Remove.v
theories/Life_Spec.v
theories/Load_Compose.v
theories/Load_Crop.v
theories/Load_Facts.v
theories/Load_Final.v
theories/Load_Loop.v
theories/Load_Model.v
theories/Load_Spec.v
theories/Load_Stack.v
theories/Load_Witness.v
theories/Micro_Again.v
theories/Micro_Any.v
theories/Micro_Call.v
theories/Micro_Cell.v
theories/Micro_Char.v
theories/Micro_Lidar.v
theories/Micro_Loop.v
theories/Micro_P3.v
theories/Micro_P3_Spec.v
theories/Micro_P3_Wit.v
theories/Micro_Psd.v
theories/Micro_Radar.v
theories/Micro_Rany.v
theories/Micro_Rany2.v
theories/Micro_Rcall.v
theories/Micro_Rcell.v
theories/Micro_Rloop.v
theories/Micro_Spec.v
theories/Micro_Trans.v
theories/Micro_Width.v
theories/Micro_Width2.v
theories/Micro_Width_Spec.v
theories/Micro_Width_Wit.v
theories/Micro_Witness.v
theories/Mom_Base.v
theories/Mom_Facts.v
theories/Mom_Spec.v
theories/Mom_Writes.v
theories/Np.v
theories/Np_Facts.v
theories/P3_Final.v
theories/P3_Grid.v
theories/P3_Model.v
theories/P3_Spec.v
theories/Precip_Api.v
theories/Precip_Corol.v
theories/Precip_Model.v
theories/Precip_Proofs.v
theories/Precip_Spec.v
theories/Props_App.v
theories/Props_Atm.v
theories/Props_Class.v
theories/Props_Conv.v
theories/Props_Curt.v
theories/Props_Dataset.v
theories/Props_Disp.v
theories/Props_Driver.v
theories/Props_Every.v
theories/Props_History.v
theories/Props_Label.v
theories/Props_Lidar.v
theories/Props_Life.v
theories/Props_Load.v
theories/Props_Micro.v
theories/Props_P3.v
theories/Props_P3v.v
theories/Props_Precip.v
theories/Props_Psd.v
theories/Props_QN.v
theories/Props_Radar.v
theories/Props_Read.v
theories/Props_Scat.v
theories/Props_Sig.v
theories/Props_Sim.v
theories/Props_Stat.v
theories/Props_Strat.v
theories/Props_Val.v
theories/Psd_Facts.v
theories/Psd_Int.v
theories/Psd_Model.v
theories/Psd_Spec.v
theories/Psd_Witness.v
theories/QN_Api.v
theories/QN_Corol.v
theories/QN_Proofs.v
theories/QN_Spec.v
theories/QN_Witness.v
theories/Radar_Api.v
theories/Radar_Att.v
theories/Radar_Corol.v
theories/Radar_Gas.v
theories/Radar_Liq.v
theories/Radar_Loop.v
theories/Radar_Min.v
theories/Radar_Model.v
theories/Radar_Nan.v
theories/Radar_Spec.v
theories/Radar_Total.v
theories/Radar_Vapour.v
theories/Radar_Witness.v
theories/Read_Box.v
theories/Read_Cut.v
theories/Read_Dharma.v
theories/Read_Dims.v
theories/Read_Final.v
theories/Read_Model.v
theories/Read_More.v
theories/Read_Spec.v
theories/Read_Wrf.v
theories/Scat_Air.v
theories/Scat_Drop.v
theories/Scat_Facts.v
theories/Scat_Fill.v
theories/Scat_Load.v
theories/Scat_Model.v
theories/Scat_Spec.v
theories/Scat_Vel.v
theories/Sched_Model.v
theories/Sig_Model.v
theories/Sig_Proofs.v
theories/Sig_Spec.v
theories/Sim_Again.v
theories/Sim_Commute.v
theories/Sim_Facts.v
theories/Sim_Final.v
theories/Sim_Frame.v
theories/Sim_Kinds.v
theories/Sim_Lidar.v
theories/Sim_Model.v
theories/Sim_Options.v
theories/Sim_Passed.v
theories/Sim_Run.v
theories/Sim_Spec.v
theories/Sim_Two.v
theories/Sim_Witness.v
theories/Single.v
theories/Spec_Common.v
theories/Stat_Count.v
theories/Stat_Facts.v
theories/Stat_Model.v
theories/Stat_More.v
theories/Stat_Spec.v
theories/Stat_Witness.v
theories/Strat_Api.v
theories/Strat_Corol.v
theories/Strat_Level.v
theories/Strat_Model.v
theories/Strat_Proofs.v
theories/Strat_Refuted.v
theories/Strat_Spec.v
theories/Val_Bulk.v
theories/Val_Lidar.v
theories/Val_P3.v
theories/Val_P3_Spec.v
theories/Val_P3_Wit.v
theories/Val_Radar.v
theories/Val_Spec.v
theories/Val_Trans.v
theories/Val_Trans_Wit.v
theories/Val_Witness.v
theories/Witness.v
theories/Xds_Fields.v
theories/Xds_Labels.v
theories/Xds_Merge.v
theories/Xds_Model.v
theories/Xds_Ops.v
theories/Xds_Proofs.v
theories/Xds_Round.v
theories/Xds_Spec.v
theories/Xds_Stack.v
theories/Xds_Witness.v
theories/Xq.v
theories/Xr.v
theories/Xr_Facts.v
