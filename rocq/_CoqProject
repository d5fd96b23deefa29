-Q theories Verif
theories/Num.v
theories/Chi_Model.v
theories/Chi_Spec.v
theories/Chi_Proofs.v
theories/Chi_Props.v
theories/AceEdit_Model.v
theories/AceEdit_Spec.v
theories/AceEdit_Proofs.v
theories/AceEdit2_Proofs.v
theories/AceRead_Proofs.v
theories/AceEdit_Examples.v
theories/AceEdit_Props.v
theories/AceOpen_Model.v
theories/AceOpen_Proofs.v
theories/AceOpen_Props.v
theories/AceHeap_Model.v
theories/AceHeap_Spec.v
theories/AceHeap_Proofs.v
theories/AceHeap_Props.v
theories/Text.v
theories/AceText_Model.v
theories/AceText_Spec.v
theories/AceText_Proofs.v
theories/AceText_Props.v
theories/MapGroups_Model.v
theories/MapGroups_Spec.v
theories/MapGroups_Proofs.v
theories/MapGroups_Props.v
theories/XNum.v
theories/Sampler_Model.v
theories/Sampler_Spec.v
theories/Sampler_Proofs.v
theories/Sampler_Props.v
theories/Dec.v
theories/Mpi_Model.v
theories/Mpi_Spec.v
theories/Mpi_Proofs.v
theories/Mpi_Props.v
theories/Mat.v
theories/CovCorr_Model.v
theories/CovCorr_Spec.v
theories/CovCorr_Proofs.v
theories/CovCorr_Props.v
theories/Gmw_Model.v
theories/Gmw_Spec.v
theories/Gmw_Proofs.v
theories/Gmw2_Proofs.v
theories/Gmw3_Proofs.v
theories/Gmw_Props.v
theories/SampleCorr_Model.v
theories/SampleCorr_Spec.v
theories/SampleCorr_Proofs.v
theories/SampleCorr_Props.v
theories/LogNormal_Model.v
theories/LogNormal_Spec.v
theories/LogNormal_Proofs.v
theories/LogNormal_Props.v
theories/EigFix_Model.v
theories/EigFix_Spec.v
theories/EigFix_Proofs.v
theories/EigFix_Props.v
theories/PyNum.v
theories/Endf_Model.v
theories/Endf_Spec.v
theories/Endf2_Spec.v
theories/Endf_Proofs.v
theories/Endf2_Proofs.v
theories/Endf_Props.v
theories/Intg_Model.v
theories/Intg_Spec.v
theories/Intg_Proofs.v
theories/Intg_Props.v
theories/Tab1d_Model.v
theories/Tab1d_Spec.v
theories/Tab1d_Proofs.v
theories/Tab1dSum_Proofs.v
theories/Tab1dInt_Proofs.v
theories/Tab1d_Props.v
theories/Boxer_Model.v
theories/Boxer_Spec.v
theories/Boxer_Proofs.v
theories/Boxer_Props.v
theories/Box_Model.v
theories/Box_Spec.v
theories/Box_Proofs.v
theories/Box_Props.v
theories/Store_Model.v
theories/Store_Spec.v
theories/Store_Proofs.v
theories/Store_Props.v
theories/Njoy_Model.v
theories/Njoy_Spec.v
theories/Njoy_Proofs.v
theories/Njoy_Props.v
theories/Nest_Model.v
theories/Nest_Spec.v
theories/Nest_Proofs.v
theories/Nest_Props.v
theories/Mixin_Model.v
theories/Mixin_Spec.v
theories/Mixin_Proofs.v
theories/Mixin_Props.v
theories/Name_Model.v
theories/Name_Spec.v
theories/Name_Proofs.v
theories/Name_Props.v
theories/Thin_Model.v
theories/Thin_Spec.v
theories/Thin_Proofs.v
theories/Thin_Props.v
theories/Linz_Model.v
theories/Linz_Spec.v
theories/Linz_Proofs.v
theories/Linz_Props.v
theories/Sums_Model.v
theories/Sums_Spec.v
theories/Sums_Proofs.v
theories/Sums_Props.v
theories/Cont_Model.v
theories/Cont_Spec.v
theories/Cont_Proofs.v
theories/Cont_Props.v
theories/Lib_Model.v
theories/Lib_Spec.v
theories/Lib_Proofs.v
theories/Lib_Text_Proofs.v
theories/Lib_Props.v
theories/Samp_Model.v
theories/Samp_Spec.v
theories/Samp_Proofs.v
theories/Samp_Props.v
theories/Ang_Model.v
theories/Ang_Spec.v
theories/Ang_Proofs.v
theories/Ang_Props.v
theories/Wr_Model.v
theories/Wr_Spec.v
theories/Wr_Proofs.v
theories/Wr_Props.v
theories/Run_Model.v
theories/Run_Spec.v
theories/Run_Proofs.v
theories/Run_Props.v
theories/Gen_Model.v
theories/Gen_Spec.v
theories/Gen_Proofs.v
theories/Gen_Props.v
theories/Deck_Model.v
theories/Deck_Spec.v
theories/Deck_Proofs.v
theories/Deck_RunProofs.v
theories/Deck_NjoyProofs.v
theories/Deck_FormProofs.v
theories/Deck_Props.v
theories/Therm_Model.v
theories/Therm_Spec.v
theories/Therm_Proofs.v
theories/Therm_Props.v
theories/Neut_Model.v
theories/Neut_Spec.v
theories/Neut_Proofs.v
theories/NeutSum_Proofs.v
theories/NeutAll_Proofs.v
theories/NeutFinal_Proofs.v
theories/NeutRun_Proofs.v
theories/Neut_Props.v
theories/Nubar_Spec.v
theories/Nubar_Proofs.v
theories/Nubar_Props.v
theories/Photon_Spec.v
theories/Photon_Proofs.v
theories/Photon_Props.v
theories/Urr_Spec.v
theories/Urr_Proofs.v
theories/Urr_Props.v
theories/Plot_Model.v
theories/Plot_Spec.v
theories/Plot_Proofs.v
theories/Plot_Props.v
theories/Law_Model.v
theories/Law_Spec.v
theories/Law_Proofs.v
theories/Law_Props.v
theories/Hdf_Model.v
theories/Hdf_Spec.v
theories/Hdf_Proofs.v
theories/Hdf_Props.v
theories/Nuc_Model.v
theories/Nuc_Spec.v
theories/Nuc_Proofs.v
theories/NucAce_Proofs.v
theories/Nuc_Props.v
theories/Cli_Model.v
theories/Cli_Spec.v
theories/Cli_Proofs.v
theories/Cli_Props.v
theories/Path_Model.v
theories/Path_Spec.v
theories/Path_Proofs.v
theories/Path_Props.v
theories/Lhs_Model.v
theories/Lhs_Spec.v
theories/Lhs_Proofs.v
theories/Lhs_Props.v
theories/Rcov_Model.v
theories/Rcov_Spec.v
theories/Rcov_Proofs.v
theories/Rcov2_Proofs.v
theories/Rcov3_Proofs.v
theories/Rcov_Props.v
theories/Dcy_Model.v
theories/Dcy_Spec.v
theories/Dcy_Proofs.v
theories/Dcy_Props.v
theories/Sab_Model.v
theories/Sab_Spec.v
theories/Sab_Proofs.v
theories/Sab_Props.v
theories/Fer_Model.v
theories/Fer_Spec.v
theories/Fer_Proofs.v
theories/Tab1dMix_Proofs.v
theories/FerReal_Proofs.v
theories/FerSum_Proofs.v
theories/FerDer_Proofs.v
theories/Fer_Props.v
theories/Mass_Model.v
theories/Mass_Spec.v
theories/Mass_Proofs.v
theories/Mass_Props.v
theories/Temp_Model.v
theories/Temp_Spec.v
theories/Temp_Proofs.v
theories/Temp_Props.v
theories/Cold_Model.v
theories/Cold_Spec.v
theories/Cold_Proofs.v
theories/Cold_Props.v
theories/Cat_Model.v
theories/Cat_Spec.v
theories/Cat_Proofs.v
theories/Cat_Props.v
theories/Comp_Model.v
theories/Comp_Spec.v
theories/Comp_Proofs.v
theories/Comp_Props.v
theories/Pendf_Model.v
theories/Pendf_Spec.v
theories/Pendf_Proofs.v
theories/Pendf_Props.v
theories/Atom_Model.v
theories/Atom_Spec.v
theories/Atom_Proofs.v
theories/Atom_Props.v
theories/Phe_Model.v
theories/Phe_Spec.v
theories/Phe_Proofs.v
theories/Phe_Props.v
theories/Get_Model.v
theories/Get_Spec.v
theories/Get_Props.v
