-Q theories Verif
theories/Base.v
theories/Cpx.v
theories/L_acoustic.v
theories/L_acoustic2.v
theories/L_acoustic3.v
theories/L_asr.v
theories/L_asr2.v
theories/L_asr3.v
theories/L_asr4.v
theories/L_asr5.v
theories/L_asr6.v
theories/L_bandmain.v
theories/L_bandmain2.v
theories/L_bandmain3.v
theories/L_bands.v
theories/L_bands2.v
theories/L_bands3.v
theories/L_bands4.v
theories/L_bins.v
theories/L_bins2.v
theories/L_brconv.v
theories/L_brconv2.v
theories/L_brconv3.v
theories/L_brconv4.v
theories/L_brille.v
theories/L_brille2.v
theories/L_broad.v
theories/L_broad2.v
theories/L_broad3.v
theories/L_calc.v
theories/L_calc10.v
theories/L_calc2.v
theories/L_calc3.v
theories/L_calc4.v
theories/L_calc5.v
theories/L_calc6.v
theories/L_calc7.v
theories/L_calc8.v
theories/L_calc9.v
theories/L_castepbin.v
theories/L_castepbin2.v
theories/L_castepbin3.v
theories/L_cborn.v
theories/L_cdip.v
theories/L_cdip2.v
theories/L_cell.v
theories/L_cext.v
theories/L_cgrad.v
theories/L_chain.v
theories/L_clidos.v
theories/L_clidos2.v
theories/L_clidos3.v
theories/L_cmain.v
theories/L_cmem.v
theories/L_coll.v
theories/L_coll2.v
theories/L_coll3.v
theories/L_coll4.v
theories/L_conv.v
theories/L_conv2.v
theories/L_dipole.v
theories/L_dos.v
theories/L_dos2.v
theories/L_dos3.v
theories/L_doscalc.v
theories/L_doscalc2.v
theories/L_dosmain.v
theories/L_double.v
theories/L_double2.v
theories/L_double3.v
theories/L_double4.v
theories/L_dynmat.v
theories/L_dynmat2.v
theories/L_fixed.v
theories/L_fixed2.v
theories/L_fixed3.v
theories/L_fixed4.v
theories/L_fixed5.v
theories/L_fixed6.v
theories/L_fixed7.v
theories/L_fortran.v
theories/L_frame.v
theories/L_frame2.v
theories/L_frame3.v
theories/L_frame4.v
theories/L_frame5.v
theories/L_grad.v
theories/L_grid.v
theories/L_insert.v
theories/L_intmain.v
theories/L_intmain2.v
theories/L_intmain3.v
theories/L_intmain4.v
theories/L_intmain5.v
theories/L_intmain6.v
theories/L_intmap.v
theories/L_intmap2.v
theories/L_intmap3.v
theories/L_intmap4.v
theories/L_intmap5.v
theories/L_intmap6.v
theories/L_json.v
theories/L_json2.v
theories/L_json3.v
theories/L_kin.v
theories/L_layout.v
theories/L_layout2.v
theories/L_load.v
theories/L_load2.v
theories/L_mainline.v
theories/L_manual.v
theories/L_nac.v
theories/L_near.v
theories/L_omp.v
theories/L_opt.v
theories/L_order.v
theories/L_origin.v
theories/L_parser.v
theories/L_parser2.v
theories/L_parser3.v
theories/L_path.v
theories/L_path2.v
theories/L_phase.v
theories/L_phdos.v
theories/L_phdos2.v
theories/L_phmodes.v
theories/L_phmodes2.v
theories/L_phonon.v
theories/L_phonon2.v
theories/L_phonopy.v
theories/L_phonopy2.v
theories/L_phonopy3.v
theories/L_plot.v
theories/L_plot2.v
theories/L_powasr.v
theories/L_powcalc.v
theories/L_powcalc2.v
theories/L_powder.v
theories/L_powder2.v
theories/L_powmain.v
theories/L_powmain2.v
theories/L_qpts.v
theories/L_ref.v
theories/L_ref2.v
theories/L_reorder.v
theories/L_reorder2.v
theories/L_sample.v
theories/L_sample2.v
theories/L_sample3.v
theories/L_sample4.v
theories/L_scidx.v
theories/L_sf.v
theories/L_sf2.v
theories/L_show.v
theories/L_spectral.v
theories/L_sphere.v
theories/L_sqw.v
theories/L_struct.v
theories/L_style.v
theories/L_text.v
theories/L_tight.v
theories/L_tight2.v
theories/L_tight3.v
theories/L_total.v
theories/L_total2.v
theories/L_total3.v
theories/L_unique.v
theories/L_unique2.v
theories/L_unique3.v
theories/L_unique4.v
theories/L_units.v
theories/L_units2.v
theories/L_util.v
theories/L_valid.v
theories/L_valid2.v
theories/L_valid3.v
theories/L_weight.v
theories/L_weight2.v
theories/L_wide.v
theories/L_zone.v
theories/M_asr.v
theories/M_bandmain.v
theories/M_bands.v
theories/M_bins.v
theories/M_brconv.v
theories/M_brille.v
theories/M_broad.v
theories/M_calc.v
theories/M_castepbin.v
theories/M_cell.v
theories/M_cext.v
theories/M_clidos.v
theories/M_coll.v
theories/M_dipole.v
theories/M_dos.v
theories/M_doscalc.v
theories/M_dosmain.v
theories/M_double.v
theories/M_dynmat.v
theories/M_fixed.v
theories/M_fortran.v
theories/M_grid.v
theories/M_intmain.v
theories/M_intmap.v
theories/M_json.v
theories/M_kin.v
theories/M_layout.v
theories/M_load.v
theories/M_omp.v
theories/M_opt.v
theories/M_parser.v
theories/M_path.v
theories/M_phase.v
theories/M_phdos.v
theories/M_phmodes.v
theories/M_phonon.v
theories/M_phonopy.v
theories/M_plot.v
theories/M_powcalc.v
theories/M_powder.v
theories/M_powmain.v
theories/M_qpts.v
theories/M_ref.v
theories/M_refdata.v
theories/M_reorder.v
theories/M_sample.v
theories/M_sf.v
theories/M_show.v
theories/M_sphere.v
theories/M_struct.v
theories/M_style.v
theories/M_text.v
theories/M_total.v
theories/M_units.v
theories/M_valid.v
theories/M_weight.v
theories/P_acoustic.v
theories/P_asr.v
theories/P_bandmain.v
theories/P_bands.v
theories/P_bins.v
theories/P_brconv.v
theories/P_brille.v
theories/P_broad.v
theories/P_calc.v
theories/P_castepbin.v
theories/P_cell.v
theories/P_cext.v
theories/P_clidos.v
theories/P_clidos2.v
theories/P_coll.v
theories/P_dipole.v
theories/P_dos.v
theories/P_doscalc.v
theories/P_dosmain.v
theories/P_double.v
theories/P_dynmat.v
theories/P_fixed.v
theories/P_fortran.v
theories/P_frame.v
theories/P_grid.v
theories/P_intmain.v
theories/P_intmap.v
theories/P_json.v
theories/P_kin.v
theories/P_layout.v
theories/P_load.v
theories/P_opt.v
theories/P_parser.v
theories/P_path.v
theories/P_phase.v
theories/P_phdos.v
theories/P_phmodes.v
theories/P_phonon.v
theories/P_phonopy.v
theories/P_plot.v
theories/P_powcalc.v
theories/P_powder.v
theories/P_powmain.v
theories/P_qpts.v
theories/P_ref.v
theories/P_reorder.v
theories/P_sample.v
theories/P_sf.v
theories/P_show.v
theories/P_sphere.v
theories/P_struct.v
theories/P_style.v
theories/P_text.v
theories/P_total.v
theories/P_unique.v
theories/P_units.v
theories/P_valid.v
theories/P_weight.v
theories/S_acoustic.v
theories/S_asr.v
theories/S_bandmain.v
theories/S_bands.v
theories/S_bins.v
theories/S_brconv.v
theories/S_brille.v
theories/S_broad.v
theories/S_calc.v
theories/S_castepbin.v
theories/S_cext.v
theories/S_clidos.v
theories/S_coll.v
theories/S_dipole.v
theories/S_dos.v
theories/S_doscalc.v
theories/S_dosmain.v
theories/S_double.v
theories/S_dynmat.v
theories/S_fixed.v
theories/S_fortran.v
theories/S_frame.v
theories/S_intmain.v
theories/S_intmap.v
theories/S_json.v
theories/S_kin.v
theories/S_layout.v
theories/S_load.v
theories/S_manual.v
theories/S_opt.v
theories/S_origin.v
theories/S_parser.v
theories/S_path.v
theories/S_phase.v
theories/S_phdos.v
theories/S_phmodes.v
theories/S_phonon.v
theories/S_phonopy.v
theories/S_plot.v
theories/S_powcalc.v
theories/S_powder.v
theories/S_powmain.v
theories/S_qpts.v
theories/S_ref.v
theories/S_reorder.v
theories/S_sample.v
theories/S_sf.v
theories/S_show.v
theories/S_sphere.v
theories/S_struct.v
theories/S_style.v
theories/S_total.v
theories/S_unique.v
theories/S_units.v
theories/S_valid.v
theories/Vec3.v
