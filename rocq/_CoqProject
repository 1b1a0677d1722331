-Q theories Verif
theories/SMap.v
theories/SMap_Proofs.v
theories/Dbl.v
theories/Config_Model.v
theories/Config_Spec.v
theories/Config_Proofs.v
theories/Config2_Proofs.v
theories/Config3_Proofs.v
theories/Config_Props.v
theories/Lexer_Model.v
theories/Lexer_Spec.v
theories/Lexer_Proofs.v
theories/Lexer_Props.v
theories/Number_Spec.v
theories/Number_Proofs.v
theories/Number_Props.v
theories/Glps_Model.v
theories/Glps_Spec.v
theories/Glps_Proofs.v
theories/Glps2_Proofs.v
theories/Glps3_Proofs.v
theories/Glps4_Proofs.v
theories/Glps5_Proofs.v
theories/Glps6_Proofs.v
theories/Glps_Props.v
theories/Machine_Model.v
theories/Machine_Spec.v
theories/Machine_Proofs.v
theories/Machine2_Proofs.v
theories/Machine3_Proofs.v
theories/Machine4_Proofs.v
theories/Machine_Props.v
theories/Mat.v
theories/Mat_Proofs.v
theories/Linear_Model.v
theories/Linear_Spec.v
theories/Linear_Proofs.v
theories/Linear2_Proofs.v
theories/Linear3_Proofs.v
theories/Linear_Props.v
theories/Linear2_Props.v
theories/Minv.v
theories/Minv_Proofs.v
theories/Moment_Model.v
theories/Moment_Spec.v
theories/Moment_Proofs.v
theories/Moment2_Proofs.v
theories/Moment3_Proofs.v
theories/Moment4_Proofs.v
theories/Moment5_Proofs.v
theories/Moment6_Proofs.v
theories/Moment_Props.v
theories/Moment2_Props.v
theories/Moment3_Props.v
theories/Motion_Spec.v
theories/Motion_Proofs.v
theories/Motion2_Proofs.v
theories/Motion3_Proofs.v
theories/Motion4_Proofs.v
theories/Motion5_Proofs.v
theories/Motion_Props.v
theories/Util_Model.v
theories/Util_Spec.v
theories/Util_Proofs.v
theories/Util2_Proofs.v
theories/Util3_Proofs.v
theories/Util_Props.v
theories/Array_Model.v
theories/Array_Spec.v
theories/Array_Proofs.v
theories/Array2_Proofs.v
theories/Array3_Proofs.v
theories/Array_Props.v
theories/Round_Spec.v
theories/Round_Proofs.v
theories/Round2_Proofs.v
theories/Round3_Proofs.v
theories/Round4_Proofs.v
theories/Round5_Proofs.v
theories/Round6_Proofs.v
theories/Round_Props.v
theories/Strip_Spec.v
theories/Strip_Proofs.v
theories/Strip_Props.v
theories/Frame_Spec.v
theories/Frame_Proofs.v
theories/Frame_Props.v
theories/Clone_Model.v
theories/Clone_Spec.v
theories/Clone_Proofs.v
theories/Clone_Props.v
theories/Cavity_Model.v
theories/Cavity_Spec.v
theories/Cavity_Proofs.v
theories/Cavity2_Proofs.v
theories/Cavity3_Proofs.v
theories/Cavity4_Proofs.v
theories/Cavity5_Proofs.v
theories/Cavity_Props.v
theories/Cavity2_Spec.v
theories/Cavity6_Proofs.v
theories/Cavity7_Proofs.v
theories/Cavity8_Proofs.v
theories/Cavity9_Proofs.v
theories/Cavity10_Proofs.v
theories/Cavity2_Props.v
theories/Cavity3_Spec.v
theories/Cavity11_Proofs.v
theories/Cavity12_Proofs.v
theories/Cavity3_Props.v
theories/Cavity4_Spec.v
theories/Cavity13_Proofs.v
theories/Cavity14_Proofs.v
theories/Cavity4_Props.v
theories/Growth_Spec.v
theories/Growth_Proofs.v
theories/Growth2_Proofs.v
theories/Growth3_Proofs.v
theories/Growth_Props.v
theories/Print_Model.v
theories/Print_Spec.v
theories/Print_Proofs.v
theories/Print2_Proofs.v
theories/Print3_Proofs.v
theories/Print4_Proofs.v
theories/Print5_Proofs.v
theories/Print6_Proofs.v
theories/Print7_Proofs.v
theories/Print_Props.v
theories/Py_Model.v
theories/Py_Spec.v
theories/Py_Proofs.v
theories/Py2_Proofs.v
theories/Py3_Proofs.v
theories/Py4_Proofs.v
theories/Py5_Proofs.v
theories/Py6_Proofs.v
theories/Py7_Proofs.v
theories/Py_Props.v
theories/Thin_Model.v
theories/Thin_Spec.v
theories/Thin_Proofs.v
theories/Thin2_Proofs.v
theories/Thin3_Proofs.v
theories/Thin_Props.v
theories/Cli_Model.v
theories/Cli_Spec.v
theories/Cli_Proofs.v
theories/Cli2_Proofs.v
theories/Cli3_Proofs.v
theories/Cli_Props.v
theories/Area_Spec.v
theories/Area_Proofs.v
theories/Area2_Proofs.v
theories/Flag_Proofs.v
theories/Cut_Proofs.v
theories/Line_Spec.v
theories/Line_Proofs.v
theories/Line2_Proofs.v
theories/Line_Props.v
theories/Deflect_Spec.v
theories/Deflect_Proofs.v
theories/Deflect2_Proofs.v
theories/Deflect3_Proofs.v
theories/Deflect4_Proofs.v
theories/Deflect_Props.v
theories/Hdf_Model.v
theories/Hdf_Spec.v
theories/Hdf_Proofs.v
theories/Hdf2_Proofs.v
theories/Hdf3_Proofs.v
theories/Hdf_Props.v
theories/Cavity5_Spec.v
theories/Cavity15_Proofs.v
theories/Cavity16_Proofs.v
theories/Cavity17_Proofs.v
theories/Cavity18_Proofs.v
theories/Cavity5_Props.v
theories/Ioc_Model.v
theories/Ioc_Spec.v
theories/Ioc_Proofs.v
theories/Ioc2_Proofs.v
theories/Ioc3_Proofs.v
theories/Ioc4_Proofs.v
theories/Ioc5_Proofs.v
theories/Ioc6_Proofs.v
theories/Ioc7_Proofs.v
theories/Ioc8_Proofs.v
theories/Ioc9_Proofs.v
theories/Ioc10_Proofs.v
theories/Ioc11_Proofs.v
theories/Ioc_Props.v
theories/Ioc2_Props.v
theories/Ioc3_Props.v
theories/Ioc4_Props.v
theories/Gen_Model.v
theories/Gen_Spec.v
theories/Gen_Proofs.v
theories/Gen2_Proofs.v
theories/Gen3_Proofs.v
theories/Gen4_Proofs.v
theories/Gen5_Proofs.v
theories/Gen_Props.v
theories/Log_Model.v
theories/Log_Spec.v
theories/Log_Proofs.v
theories/Log_Props.v
theories/Odict_Model.v
theories/Odict_Spec.v
theories/Odict_Proofs.v
theories/Odict_Props.v
theories/Cut_Spec.v
theories/Cut2_Proofs.v
theories/Cut3_Proofs.v
theories/Cut_Props.v
theories/Retry_Spec.v
theories/Retry_Proofs.v
theories/Retry_Props.v
theories/Bits_Model.v
theories/Bits_Spec.v
theories/Bits_Proofs.v
theories/Bits_Props.v
theories/Cavity19_Proofs.v
theories/Cavity6_Props.v
theories/Ulp_Spec.v
theories/Ulp_Proofs.v
theories/Ulp_Props.v
theories/Stack_Model.v
theories/Stack_Spec.v
theories/Stack_Proofs.v
theories/Stack_Props.v
theories/Where_Model.v
theories/Where_Spec.v
theories/Where_Proofs.v
theories/Where2_Proofs.v
theories/Where_Props.v
theories/Own_Model.v
theories/Own_Spec.v
theories/Own_Proofs.v
theories/Own2_Proofs.v
theories/Own3_Proofs.v
theories/Own4_Proofs.v
theories/Own5_Proofs.v
theories/Own6_Proofs.v
theories/Own_Props.v
theories/Show_Model.v
theories/Show_Spec.v
theories/Show_Proofs.v
theories/Show2_Proofs.v
theories/Show3_Proofs.v
theories/Show4_Proofs.v
theories/Show5_Proofs.v
theories/Show_Props.v
theories/Show6_Proofs.v
theories/Show2_Props.v
theories/Reg_Model.v
theories/Reg_Spec.v
theories/Reg_Proofs.v
theories/Reg2_Proofs.v
theories/Reg3_Proofs.v
theories/Reg_Props.v
theories/Ioc2_Spec.v
theories/Ioc12_Proofs.v
theories/Tut_Model.v
theories/Tut_Spec.v
theories/Tut_Proofs.v
theories/Tut_Props.v
theories/Thr_Model.v
theories/Thr_Spec.v
theories/Thr_Proofs.v
theories/Thr2_Proofs.v
theories/Thr_Props.v
theories/Keyed_Model.v
theories/Keyed_Spec.v
theories/Keyed_Proofs.v
theories/Keyed2_Proofs.v
theories/Keyed_Props.v
theories/Slice_Spec.v
theories/Slice_Proofs.v
theories/Slice2_Proofs.v
theories/Slice_Props.v
theories/Part_Spec.v
theories/Part_Proofs.v
theories/Part_Props.v
