-Q theories Verif
theories/Outcome.v
theories/Words.v
theories/Arith.v
theories/SimpleTMR_Model.v
theories/SimpleTMR_Spec.v
theories/SimpleTMR_Proofs.v
theories/FloatTMR_Proofs.v
theories/SimpleTMR_Props.v
theories/Floats.v
theories/FloatsR.v
theories/Voting_Model.v
theories/Voting_Spec.v
theories/Voting_Proofs.v
theories/Detect_Proofs.v
theories/Confidence_Proofs.v
theories/Weighted_Proofs.v
theories/Voting_Props.v
theories/Crc_Model.v
theories/Crc_Spec.v
theories/Crc_Proofs.v
theories/CrcOrder_Proofs.v
theories/Crc_Props.v
theories/CrcTMR_Model.v
theories/CrcTMR_Spec.v
theories/CrcTMR_Proofs.v
theories/CrcTMRFloat_Proofs.v
theories/CrcTMR_Props.v
theories/Health_Model.v
theories/HealthFloat.v
theories/Health_Spec.v
theories/Health_Proofs.v
theories/HealthW_Proofs.v
theories/Health_Props.v
theories/Stuck_Model.v
theories/Stuck_Spec.v
theories/Stuck_Proofs.v
theories/StuckHist_Proofs.v
theories/Approx_Model.v
theories/Approx_Spec.v
theories/Approx_Proofs.v
theories/Stuck_Props.v
theories/Temporal_Model.v
theories/Temporal_Spec.v
theories/Temporal_Proofs.v
theories/Hybrid_Proofs.v
theories/Temporal_Props.v
theories/Containers_Model.v
theories/Containers_Spec.v
theories/Containers_Proofs.v
theories/Containers_Props.v
theories/Protected_Model.v
theories/Protected_Spec.v
theories/Protected_Proofs.v
theories/Protected_Props.v
theories/FloatsS.v
theories/Tracker_Model.v
theories/Tracker_Spec.v
theories/Tracker_Proofs.v
theories/Tracker2_Proofs.v
theories/Tracker3_Proofs.v
theories/Tracker_Props.v
theories/Scrub_Model.v
theories/Scrub_Spec.v
theories/Scrub_Proofs.v
theories/Scrub_Props.v
theories/Bits_Model.v
theories/Bits_Spec.v
theories/Bits_Proofs.v
theories/Bits2_Proofs.v
theories/BitsFloat_Proofs.v
theories/Bits_Props.v
theories/GF_Model.v
theories/GF_Spec.v
theories/GF_Proofs.v
theories/GFPoly_Proofs.v
theories/RS_Proofs.v
theories/RS2_Proofs.v
theories/RS3_Proofs.v
theories/GF_Props.v
theories/MBP_Model.v
theories/MBP_Spec.v
theories/MBP_Proofs.v
theories/MBP2_Proofs.v
theories/MBP3_Proofs.v
theories/MBP4_Proofs.v
theories/MBP5_Proofs.v
theories/MBP6_Proofs.v
theories/MBP_Props.v
theories/RMA_Model.v
theories/RMA_Spec.v
theories/RMA_Proofs.v
theories/RMA2_Proofs.v
theories/RMA3_Proofs.v
theories/RMA4_Proofs.v
theories/RMA_Props.v
theories/Power_Model.v
theories/Power_Spec.v
theories/Power_Proofs.v
theories/Power2_Proofs.v
theories/Power3_Proofs.v
theories/Power4_Proofs.v
theories/Power5_Proofs.v
theories/Power6_Proofs.v
theories/Power_Props.v
theories/Edac_Model.v
theories/Edac_Spec.v
theories/Edac_Proofs.v
theories/Edac2_Proofs.v
theories/Edac3_Proofs.v
theories/Edac4_Proofs.v
theories/Edac_Props.v
theories/Inject_Model.v
theories/Inject_Spec.v
theories/Inject_Proofs.v
theories/Inject2_Proofs.v
theories/Inject3_Proofs.v
theories/Inject4_Proofs.v
theories/Inject_Props.v
theories/Adapt_Model.v
theories/Adapt_Spec.v
theories/Adapt_Proofs.v
theories/Adapt2_Proofs.v
theories/Adapt_Props.v
theories/PNN_Model.v
theories/PNN_Spec.v
theories/PNN_Proofs.v
theories/PNN2_Proofs.v
theories/PNN3_Proofs.v
theories/PNN4_Proofs.v
theories/PNN5_Proofs.v
theories/PNN6_Proofs.v
theories/PNN7_Proofs.v
theories/PNN_Props.v
theories/Div_Model.v
theories/Div_Spec.v
theories/Div_Proofs.v
theories/Div2_Proofs.v
theories/Div3_Proofs.v
theories/Div4_Proofs.v
theories/Div_Props.v
theories/Pred_Model.v
theories/Pred_Spec.v
theories/Pred_Proofs.v
theories/Pred2_Proofs.v
theories/Pred_Props.v
theories/Conv_Model.v
theories/Conv_Spec.v
theories/Conv_Proofs.v
theories/Conv_Props.v
theories/Strat_Model.v
theories/Strat_Spec.v
theories/Strat_Proofs.v
theories/Strat2_Proofs.v
theories/Strat3_Proofs.v
theories/Strat4_Proofs.v
theories/Strat5_Proofs.v
theories/Strat6_Proofs.v
theories/Strat7_Proofs.v
theories/Strat_Props.v
theories/Mission_Model.v
theories/Mission_Spec.v
theories/Mission_Proofs.v
theories/Mission2_Proofs.v
theories/Mission3_Proofs.v
theories/Mission4_Proofs.v
theories/Mission5_Proofs.v
theories/Mission_Props.v
theories/Train_Model.v
theories/Train_Spec.v
theories/Train_Proofs.v
theories/Train2_Proofs.v
theories/Train3_Proofs.v
theories/Train4_Proofs.v
theories/Train5_Proofs.v
theories/Train6_Proofs.v
theories/Train_Props.v
theories/Residual_Model.v
theories/Residual_Spec.v
theories/Residual_Proofs.v
theories/Residual2_Proofs.v
theories/Residual3_Proofs.v
theories/Residual_Props.v
theories/Umm_Model.v
theories/Umm_Spec.v
theories/Umm_Proofs.v
theories/Umm2_Proofs.v
theories/Umm3_Proofs.v
theories/Umm4_Proofs.v
theories/Umm5_Proofs.v
theories/Umm6_Proofs.v
theories/Umm7_Proofs.v
theories/Umm_Props.v
theories/Tester_Model.v
theories/Tester_Spec.v
theories/Tester_Proofs.v
theories/Tester2_Proofs.v
theories/Tester3_Proofs.v
theories/Tester4_Proofs.v
theories/Tester5_Proofs.v
theories/Tester_Props.v
theories/Search_Model.v
theories/Search_Spec.v
theories/Search_Proofs.v
theories/Search2_Proofs.v
theories/Search3_Proofs.v
theories/Search4_Proofs.v
theories/Search5_Proofs.v
theories/Search_Props.v
theories/Vae_Model.v
theories/Vae_Spec.v
theories/Vae_Proofs.v
theories/Vae2_Proofs.v
theories/Vae3_Proofs.v
theories/Vae4_Proofs.v
theories/Vae5_Proofs.v
theories/Vae6_Proofs.v
theories/Vae7_Proofs.v
theories/Vae8_Proofs.v
theories/Vae9_Proofs.v
theories/VaeA_Proofs.v
theories/Vae_Props.v
theories/Hw_Model.v
theories/Hw_Spec.v
theories/Hw_Proofs.v
theories/Hw2_Proofs.v
theories/Hw3_Proofs.v
theories/Hw_Props.v
theories/Qft_Model.v
theories/Qft_Spec.v
theories/Qft_Proofs.v
theories/Qft2_Proofs.v
theories/Qft3_Proofs.v
theories/Qft_Props.v
theories/Qft4_Proofs.v
theories/Qft5_Proofs.v
theories/Qft6_Proofs.v
theories/Qft7_Proofs.v
theories/Qft8_Proofs.v
theories/Qft9_Proofs.v
theories/Qer_Spec.v
theories/Qer_Proofs.v
theories/Qer2_Proofs.v
theories/Qer3_Proofs.v
theories/Qer4_Proofs.v
theories/Qer5_Proofs.v
theories/Qer6_Proofs.v
theories/Qer7_Proofs.v
theories/Qer8_Proofs.v
theories/Qer_Props.v
theories/Env_Model.v
theories/Env_Spec.v
theories/Env_Proofs.v
theories/Env2_Proofs.v
theories/Env_Props.v
theories/EnvB_Spec.v
theories/Env3_Proofs.v
theories/Env4_Proofs.v
theories/Env5_Proofs.v
theories/Env6_Proofs.v
theories/Env7_Proofs.v
theories/Env8_Proofs.v
theories/Env9_Proofs.v
theories/EnvA_Proofs.v
theories/EnvB_Props.v
theories/Phys_Model.v
theories/Phys_Spec.v
theories/Phys_Proofs.v
theories/Phys2_Proofs.v
theories/Phys_Props.v
theories/Qfx_Props.v
theories/Qin_Model.v
theories/Qin_Proofs.v
theories/Qin2_Proofs.v
theories/Qin3_Proofs.v
theories/Qin_Props.v
theories/Phys3_Props.v
theories/Epr_Model.v
theories/Epr_Props.v
theories/Act_Model.v
theories/Act_Props.v
theories/Mdl_Model.v
theories/Mdl_Props.v
theories/Log_Model.v
theories/Log_Props.v
theories/Vsim_Model.v
theories/Vsim_Props.v
theories/Prate_Model.v
theories/Prate_Props.v
