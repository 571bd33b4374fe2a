-Q theories Verif

theories/Base.v
theories/BaseLemmas.v
theories/Fec_Model.v
theories/Fec_Spec.v
theories/Fec_Proofs.v
theories/FecCodes_Proofs.v
theories/FecPrg_Proofs.v
theories/Fec_Props.v
theories/Monte_Model.v
theories/Monte_Spec.v
theories/Monte_Proofs.v
theories/MonteActor_Proofs.v
theories/MonteSetup_Proofs.v
theories/Monte_Props.v
theories/MonteResult_Model.v
theories/MonteResult_Spec.v
theories/MonteResult_Proofs.v
theories/MonteConc_Model.v
theories/MonteConc_Proofs.v
theories/MonteResult_Props.v
theories/Core_Model.v
theories/Core_Spec.v
theories/Core_Proofs.v
theories/Core_Props.v
theories/Rf_Model.v
theories/Rf_Spec.v
theories/Rf_Proofs.v
theories/RfProp_Proofs.v
theories/Rf_Props.v
theories/Attach_Model.v
theories/Attach_Proofs.v
theories/Attach_Props.v
theories/Signal_Model.v
theories/Signal_Spec.v
theories/Signal_Proofs.v
theories/SignalOps_Proofs.v
theories/Signal_Props.v
theories/Grid_Model.v
theories/Grid_Spec.v
theories/Grid_Proofs.v
theories/GridSamples_Proofs.v
theories/Grid_Props.v
theories/Cplx.v
theories/Cplx_Proofs.v
theories/Ofdm_Model.v
theories/Ofdm_Proofs.v
theories/Ofdm_Props.v
theories/Precode_Model.v
theories/Precode_Spec.v
theories/Precode_Proofs.v
theories/Precode_Props.v
theories/Frames_Model.v
theories/Frames_Proofs.v
theories/Frames_Props.v
theories/Eval_Model.v
theories/Eval_Spec.v
theories/Eval_Proofs.v
theories/Eval_Props.v
theories/Evm_Model.v
theories/Evm_Props.v
theories/Adc_Model.v
theories/Adc_Spec.v
theories/Adc_Proofs.v
theories/Adc_Props.v
theories/Log_Model.v
theories/Log_Props.v
theories/Radar_Model.v
theories/Radar_Spec.v
theories/Radar_Proofs.v
theories/Radar_Props.v
theories/Qam_Model.v
theories/QamPam_Proofs.v
theories/Qam_Spec.v
theories/Qam_Proofs.v
theories/QamMap_Proofs.v
theories/QamLink_Proofs.v
theories/Qam_Props.v
theories/Ser_Model.v
theories/Ser_Spec.v
theories/Ser_Proofs.v
theories/SerRead_Proofs.v
theories/SerHist_Proofs.v
theories/Ser_Props.v
theories/Rec_Model.v
theories/Rec_Spec.v
theories/Rec_Proofs.v
theories/Rec_Props.v
theories/Kin_Model.v
theories/Kin_Spec.v
theories/Kin_Proofs.v
theories/Kin_Props.v
theories/Rot_Model.v
theories/Rot_Spec.v
theories/Rot_Proofs.v
theories/Rot_Props.v
theories/Ant_Model.v
theories/Ant_Spec.v
theories/Ant_Proofs.v
theories/Ant_Props.v
theories/Beam_Model.v
theories/Beam_Spec.v
theories/Beam_Proofs.v
theories/Beam_Props.v
theories/Chan_Model.v
theories/Chan_Spec.v
theories/Chan_Proofs.v
theories/Chan_Props.v
theories/Net_Model.v
theories/Net_Spec.v
theories/Net_Proofs.v
theories/Net_Props.v
theories/Iso_Model.v
theories/Iso_Spec.v
theories/Iso_Proofs.v
theories/Iso_Props.v
theories/Dev_Model.v
theories/Dev_Spec.v
theories/Dev_Proofs.v
theories/Dev_Props.v
theories/Amp_Model.v
theories/Amp_Spec.v
theories/Amp_Proofs.v
theories/Amp_Props.v
theories/Blk_Model.v
theories/Blk_Spec.v
theories/Blk_Proofs.v
theories/Blk_Props.v
theories/Sc_Model.v
theories/Sc_Spec.v
theories/Sc_Proofs.v
theories/Sc_Props.v
theories/Cfsk_Model.v
theories/Cfsk_Spec.v
theories/Cfsk_Proofs.v
theories/Cfsk_Props.v
theories/Sync_Model.v
theories/Sync_Spec.v
theories/Sync_Proofs.v
theories/Sync_Props.v
theories/Mf_Model.v
theories/Mf_Spec.v
theories/Mf_Proofs.v
theories/Mf_Props.v
theories/Fmcw_Model.v
theories/Fmcw_Spec.v
theories/Fmcw_Proofs.v
theories/Fmcw_Props.v
theories/Ofr_Model.v
theories/Ofr_Spec.v
theories/Ofr_Proofs.v
theories/Ofr_Props.v
theories/Rch_Model.v
theories/Rch_Spec.v
theories/Rch_Proofs.v
theories/Rch_Props.v
theories/Tgt_Model.v
theories/Tgt_Spec.v
theories/Tgt_Proofs.v
theories/Tgt_Props.v
theories/Cons_Model.v
theories/Cons_Spec.v
theories/Cons_Proofs.v
theories/Cons_Props.v
theories/Roc_Model.v
theories/Roc_Spec.v
theories/Roc_Proofs.v
theories/Roc_Props.v
theories/Smp_Model.v
theories/Smp_Spec.v
theories/Smp_Proofs.v
theories/Smp_Props.v
theories/Cfg_Model.v
theories/Cfg_Spec.v
theories/Cfg_Proofs.v
theories/Cfg_Props.v
theories/Cal_Model.v
theories/Cal_Spec.v
theories/Cal_Proofs.v
theories/Cal_Props.v
theories/Corr_Model.v
theories/Corr_Spec.v
theories/Corr_Proofs.v
theories/Corr_Props.v
theories/Leak_Model.v
theories/Leak_Spec.v
theories/Leak_Proofs.v
theories/Leak_Props.v
theories/Fad_Model.v
theories/Fad_Spec.v
theories/Fad_Proofs.v
theories/Fad_Props.v
theories/Nz_Model.v
theories/Nz_Spec.v
theories/Nz_Proofs.v
theories/Nz_Props.v
theories/Pwr_Model.v
theories/Pwr_Spec.v
theories/Pwr_Proofs.v
theories/Pwr_Props.v
theories/Scn_Model.v
theories/Scn_Spec.v
theories/Scn_Proofs.v
theories/Scn_Props.v
theories/Cdl_Model.v
theories/Cdl_Spec.v
theories/Cdl_Proofs.v
theories/Cdl_Props.v
theories/Ray_Model.v
theories/Ray_Spec.v
theories/Ray_Proofs.v
theories/Ray_Props.v
theories/Pl_Model.v
theories/Pl_Spec.v
theories/Pl_Proofs.v
theories/Pl_Props.v
theories/Ang_Model.v
theories/Ang_Spec.v
theories/Ang_Proofs.v
theories/Ang_Props.v
theories/Oest_Model.v
theories/Oest_Spec.v
theories/Oest_Proofs.v
theories/Oest_Props.v
theories/Phy_Model.v
theories/Phy_Spec.v
theories/Phy_Proofs.v
theories/Phy_Props.v
theories/Lobe_Model.v
theories/Lobe_Spec.v
theories/Lobe_Proofs.v
theories/Lobe_Props.v
theories/Hwl_Model.v
theories/Hwl_Spec.v
theories/Hwl_Proofs.v
theories/Hwl_Props.v
theories/Nr_Model.v
theories/Nr_Spec.v
theories/Nr_Proofs.v
theories/Nr_Props.v
theories/Lse_Model.v
theories/Lse_Spec.v
theories/Lse_Proofs.v
theories/Lse_Props.v
theories/Sim_Model.v
theories/Sim_Spec.v
theories/Sim_Proofs.v
theories/Sim_Props.v
theories/Exe_Model.v
theories/Exe_Spec.v
theories/Exe_Proofs.v
theories/Exe_Props.v
theories/Ext_Model.v
theories/Ext_Spec.v
theories/Ext_Proofs.v
theories/Ext_Props.v
theories/Gen_Model.v
theories/Gen_Spec.v
theories/Gen_Proofs.v
theories/Gen_Props.v
theories/Dly_Model.v
theories/Dly_Spec.v
theories/Dly_Proofs.v
theories/Dly_Props.v
theories/Res_Model.v
theories/Res_Spec.v
theories/Res_Proofs.v
theories/Res_Props.v
theories/Scx_Model.v
theories/Scx_Spec.v
theories/Scx_Proofs.v
theories/Scx_Props.v
theories/Aud_Model.v
theories/Aud_Spec.v
theories/Aud_Proofs.v
theories/Aud_Props.v
theories/Ice_Model.v
theories/Ice_Spec.v
theories/Ice_Proofs.v
theories/Ice_Props.v
theories/Opr_Model.v
theories/Opr_Spec.v
theories/Opr_Proofs.v
theories/Opr_Props.v
theories/Ti_Model.v
theories/Ti_Spec.v
theories/Ti_Proofs.v
theories/Ti_Props.v
theories/Trc_Model.v
theories/Trc_Spec.v
theories/Trc_Proofs.v
theories/Trc_Props.v
theories/Tls_Model.v
theories/Tls_Spec.v
theories/Tls_Proofs.v
theories/Tls_Props.v
theories/Iqs_Model.v
theories/Iqs_Spec.v
theories/Iqs_Proofs.v
theories/Iqs_Props.v
theories/Psc_Model.v
theories/Psc_Spec.v
theories/Psc_Proofs.v
theories/Psc_Props.v
theories/Foc_Model.v
theories/Foc_Spec.v
theories/Foc_Proofs.v
theories/Foc_Props.v
theories/Hpf_Model.v
theories/Hpf_Spec.v
theories/Hpf_Proofs.v
theories/Hpf_Props.v
theories/Eqz_Model.v
theories/Eqz_Spec.v
theories/Eqz_Proofs.v
theories/Eqz_Props.v
