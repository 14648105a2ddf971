# Functions of /repo/PySeismoSoil and the model files that cite them

Generated by tools/design.py. "-": not modelled (figures, printed texts, see DESIGN.md section 4).

| File | Function | Lines | Model |
|---|---|---|---|
| class_Vs_profile.py | Vs_Profile.__init__ | 94-198 | M_hhclass M_vs_profile |
| class_Vs_profile.py | Vs_Profile.__repr__ | 199-218 | M_textfile |
| class_Vs_profile.py | Vs_Profile.plot | 219-273 | M_figures |
| class_Vs_profile.py | Vs_Profile.get_ampl_function | 274-311 | M_vsspec |
| class_Vs_profile.py | Vs_Profile.get_transfer_function | 312-350 | M_vsspec |
| class_Vs_profile.py | Vs_Profile.get_f0_RO | 351-361 | M_vsspec |
| class_Vs_profile.py | Vs_Profile.get_f0_BH | 362-372 | M_vs_profile M_vsspec |
| class_Vs_profile.py | Vs_Profile.get_depth_array | 373-383 | M_vs_profile |
| class_Vs_profile.py | Vs_Profile.truncate | 384-444 | M_vs_profile |
| class_Vs_profile.py | Vs_Profile.query_Vs_at_depth | 445-523 | M_vs_profile |
| class_Vs_profile.py | Vs_Profile.query_Vs_given_thk | 524-588 | M_float M_vs_profile |
| class_Vs_profile.py | Vs_Profile._plot_queried_Vs | 589-612 | M_figures M_vs_profile |
| class_Vs_profile.py | Vs_Profile.get_basin_depth | 613-630 | M_vsspec |
| class_Vs_profile.py | Vs_Profile.get_z1 | 631-641 | M_vsspec |
| class_Vs_profile.py | Vs_Profile.get_slowness | 642-656 | M_vs_profile M_vsspec |
| class_Vs_profile.py | Vs_Profile.output_as_km_unit | 657-670 | M_vs_profile |
| class_Vs_profile.py | Vs_Profile.summary | 671-675 | M_figures |
| class_Vs_profile.py | Vs_Profile.to_txt | 676-715 | M_text M_vs_profile |
| class_batch_simulation.py | Batch_Simulation.__init__ | 57-101 | M_batch |
| class_batch_simulation.py | Batch_Simulation.run | 102-197 | M_batch M_pool |
| class_batch_simulation.py | Batch_Simulation._run_single_sim | 198-241 | M_batch |
| class_curves.py | Curve.__init__ | 78-115 | M_curvemat M_curves |
| class_curves.py | Curve.__repr__ | 116-118 | - |
| class_curves.py | Curve.plot | 119-186 | M_figures |
| class_curves.py | GGmax_Curve.__init__ | 243-272 | M_curvemat M_curves |
| class_curves.py | Damping_Curve.__init__ | 332-369 | M_curvemat M_curves M_fits |
| class_curves.py | Damping_Curve.get_HH_x_param | 370-451 | M_fits |
| class_curves.py | Damping_Curve.get_H4_x_param | 452-534 | M_fits |
| class_curves.py | Stress_Curve.__init__ | 584-621 | M_curves |
| class_curves.py | Multiple_Curves.__init__ | 666-686 | M_container M_curvemat |
| class_curves.py | Multiple_Curves.__repr__ | 687-689 | M_container |
| class_curves.py | Multiple_Curves.__contains__ | 690-692 | M_container |
| class_curves.py | Multiple_Curves.__len__ | 693-695 | M_container |
| class_curves.py | Multiple_Curves.__setitem__ | 696-703 | M_container |
| class_curves.py | Multiple_Curves.__getitem__ | 704-712 | M_container |
| class_curves.py | Multiple_Curves.__delitem__ | 713-716 | M_container |
| class_curves.py | Multiple_Curves.append | 717-726 | M_container M_figures |
| class_curves.py | Multiple_Curves.plot | 727-797 | M_container M_figures |
| class_curves.py | Multiple_Damping_Curves.__init__ | 840-864 | M_curvemat |
| class_curves.py | Multiple_Damping_Curves.plot | 865-923 | M_figures |
| class_curves.py | Multiple_Damping_Curves.get_curve_matrix | 924-986 | M_curvemat M_curves M_finterp |
| class_curves.py | Multiple_Damping_Curves.get_all_HH_x_params | 987-1104 | M_dampcal M_fits |
| class_curves.py | Multiple_Damping_Curves.get_all_H4_x_params | 1105-1222 | M_dampcal M_fits |
| class_curves.py | Multiple_Damping_Curves._produce_output_file_name | 1223-1266 | M_fits |
| class_curves.py | Multiple_GGmax_Curves.__init__ | 1309-1333 | M_curvemat |
| class_curves.py | Multiple_GGmax_Curves.plot | 1334-1392 | M_figures |
| class_curves.py | Multiple_GGmax_Curves.get_curve_matrix | 1393-1456 | M_curvemat M_curves M_finterp |
| class_curves.py | Multiple_GGmax_Damping_Curves.__init__ | 1509-1579 | M_curvemat M_curves |
| class_curves.py | Multiple_GGmax_Damping_Curves.get_MGC_MDC_objects | 1580-1604 | M_curvemat M_curves |
| class_curves.py | Multiple_GGmax_Damping_Curves.get_curve_matrix | 1605-1625 | M_curvemat M_curves |
| class_curves.py | Multiple_GGmax_Damping_Curves.plot | 1626-1631 | M_figures |
| class_damping_calibration.py | Damping_Calibration.__init__ | 24-29 | - |
| class_damping_calibration.py | Damping_Calibration.get_damping_curves | 30-103 | M_dampcal |
| class_damping_calibration.py | Damping_Calibration.get_HH_x_param | 104-128 | M_dampcal |
| class_damping_calibration.py | Damping_Calibration.get_H4_x_param | 129-155 | M_dampcal |
| class_frequency_spectrum.py | Frequency_Spectrum.__init__ | 101-149 | M_freqspec |
| class_frequency_spectrum.py | Frequency_Spectrum.__repr__ | 150-158 | M_textfile |
| class_frequency_spectrum.py | Frequency_Spectrum.plot | 159-223 | M_figures |
| class_frequency_spectrum.py | Frequency_Spectrum.get_smoothed | 224-280 | M_freqspec |
| class_frequency_spectrum.py | Frequency_Spectrum.get_f0 | 281-292 | M_freqspec |
| class_frequency_spectrum.py | Frequency_Spectrum.get_unwrapped_phase | 293-319 | M_freqspec |
| class_gof_scores.py | GOF_Scores.__init__ | 44-61 | M_gof |
| class_gof_scores.py | GOF_Scores.__str__ | 62-92 | M_gof |
| class_gof_scores.py | GOF_Scores.get_meas | 93-96 | M_gof |
| class_gof_scores.py | GOF_Scores.get_simu | 97-100 | M_gof |
| class_gof_scores.py | GOF_Scores.get_scores | 101-104 | M_gof |
| class_gof_scores.py | GOF_Scores.calc_scores | 105-276 | M_gof |
| class_gof_scores.py | Batch_GOF_Scores.__init__ | 280-291 | M_gof |
| class_gof_scores.py | Batch_GOF_Scores.run | 292-335 | M_gof |
| class_gof_scores.py | Batch_GOF_Scores._run_single_score | 336-361 | M_gof |
| class_ground_motion.py | Ground_Motion.__init__ | 129-213 | M_float M_ftime M_motion M_textfile |
| class_ground_motion.py | Ground_Motion.__repr__ | 214-229 | M_textfile |
| class_ground_motion.py | Ground_Motion.summary | 230-234 | M_figures |
| class_ground_motion.py | Ground_Motion.get_Fourier_spectrum | 235-268 | M_gmsignal |
| class_ground_motion.py | Ground_Motion.get_response_spectra | 269-326 | M_gmsignal |
| class_ground_motion.py | Ground_Motion.plot | 327-389 | M_figures |
| class_ground_motion.py | Ground_Motion._unit_convert | 390-427 | M_motion |
| class_ground_motion.py | Ground_Motion.__calc_RMS | 428-437 | M_motion |
| class_ground_motion.py | Ground_Motion.__arias_time_bounds | 438-476 | M_motion |
| class_ground_motion.py | Ground_Motion.__calc_Arias | 477-531 | M_float M_motion |
| class_ground_motion.py | Ground_Motion.scale_motion | 532-563 | M_float M_motion |
| class_ground_motion.py | Ground_Motion.truncate | 564-691 | M_float M_motion M_sigfig |
| class_ground_motion.py | Ground_Motion.amplify_by_tf | 692-780 | M_propagate |
| class_ground_motion.py | Ground_Motion.amplify | 781-825 | M_propagate |
| class_ground_motion.py | Ground_Motion.compare | 826-896 | M_gmsignal |
| class_ground_motion.py | Ground_Motion.deconvolve | 897-942 | M_filtfig M_propagate |
| class_ground_motion.py | Ground_Motion.baseline_correct | 943-967 | M_filtfig M_gmsignal |
| class_ground_motion.py | Ground_Motion.lowpass | 968-1004 | M_filtfig M_gmsignal |
| class_ground_motion.py | Ground_Motion.highpass | 1005-1041 | M_filtfig M_gmsignal |
| class_ground_motion.py | Ground_Motion.bandpass | 1042-1078 | M_filtfig M_gmsignal |
| class_ground_motion.py | Ground_Motion.bandstop | 1079-1116 | M_filtfig M_gmsignal |
| class_ground_motion.py | Ground_Motion.save_accel | 1117-1152 | M_motion M_text M_textfile |
| class_hh_calibration.py | HH_Calibration.__init__ | 61-96 | M_hhclass |
| class_hh_calibration.py | HH_Calibration.fit | 97-160 | M_hhclass |
| class_parameters.py | Parameter.__init__ | 66-91 | M_params |
| class_parameters.py | Parameter.__repr__ | 92-94 | M_params |
| class_parameters.py | Parameter.__setitem__ | 95-100 | M_params |
| class_parameters.py | Parameter.__delitem__ | 101-105 | M_params |
| class_parameters.py | Parameter.serialize | 106-122 | M_params |
| class_parameters.py | Parameter.get_stress | 123-146 | M_lawcurves M_params |
| class_parameters.py | Parameter.get_GGmax | 147-172 | M_lawcurves M_params |
| class_parameters.py | Parameter.get_damping | 173-199 | M_lawcurves M_params |
| class_parameters.py | Parameter.plot_curves | 200-254 | M_lawcurves M_params |
| class_parameters.py | HH_Param.__init__ | 277-294 | M_lawcurves M_params |
| class_parameters.py | HH_Param.serialize | 295-302 | M_params |
| class_parameters.py | MKZ_Param.__init__ | 325-332 | M_lawcurves M_params |
| class_parameters.py | MKZ_Param.serialize | 333-340 | M_params |
| class_parameters.py | Param_Multi_Layer.__init__ | 382-401 | M_container M_params |
| class_parameters.py | Param_Multi_Layer.__contains__ | 402-404 | M_container M_params |
| class_parameters.py | Param_Multi_Layer.__len__ | 405-407 | M_container M_params |
| class_parameters.py | Param_Multi_Layer.__setitem__ | 408-410 | M_container M_params |
| class_parameters.py | Param_Multi_Layer.__getitem__ | 411-419 | M_container M_params |
| class_parameters.py | Param_Multi_Layer.__delitem__ | 420-423 | M_container M_params |
| class_parameters.py | Param_Multi_Layer.construct_curves | 424-486 | M_lawcurves M_params |
| class_parameters.py | Param_Multi_Layer.serialize_to_2D_array | 487-503 | M_params |
| class_parameters.py | Param_Multi_Layer.save_txt | 504-534 | M_params M_text |
| class_parameters.py | HH_Param_Multi_Layer.__init__ | 588-627 | M_params |
| class_parameters.py | MKZ_Param_Multi_Layer.__init__ | 681-719 | M_params |
| class_simulation.py | Simulation.__init__ | 84-141 | M_batch M_results |
| class_simulation.py | Linear_Simulation.run | 174-293 | M_batch M_results |
| class_simulation.py | Equiv_Linear_Simulation.__init__ | 320-340 | M_results |
| class_simulation.py | Equiv_Linear_Simulation.run | 341-436 | M_batch M_results |
| class_simulation.py | Nonlinear_Simulation.__init__ | 484-507 | M_files M_results |
| class_simulation.py | Nonlinear_Simulation.run | 508-796 | M_batch M_files M_results |
| class_simulation_results.py | Simulation_Results.__init__ | 112-219 | M_results |
| class_simulation_results.py | Simulation_Results.plot | 220-388 | M_figres M_files |
| class_simulation_results.py | Simulation_Results.to_txt | 389-485 | M_files M_text |
| class_site_effect_adjustment.py | Site_Effect_Adjustment.__init__ | 66-109 | M_propagate |
| class_site_effect_adjustment.py | Site_Effect_Adjustment.run | 110-201 | M_propagate |
| class_site_factors.py | Site_Factors.__init__ | 100-144 | M_sitefactors |
| class_site_factors.py | Site_Factors.get_amplification | 145-199 | M_propagate M_sitefactors M_sitefig |
| class_site_factors.py | Site_Factors.get_phase_shift | 200-238 | M_propagate M_sitefactors M_sitefig |
| class_site_factors.py | Site_Factors.get_both_amplf_and_phase | 239-271 | M_sitefactors M_sitefig |
| class_site_factors.py | Site_Factors._get_results | 272-351 | M_sitefactors M_sitefig |
| class_site_factors.py | Site_Factors._query | 352-433 | M_sitefactors |
| class_site_factors.py | Site_Factors._locate_grids | 434-452 | M_sitefactors |
| class_site_factors.py | Site_Factors._find_neighbors | 453-475 | M_sitefactors |
| class_site_factors.py | Site_Factors._search_sorted | 476-506 | M_sitefactors |
| class_site_factors.py | Site_Factors._interpolate | 507-572 | M_sitefactors M_sitefig |
| class_site_factors.py | Site_Factors._plot_interp | 573-683 | M_sitefactors M_sitefig |
| class_site_factors.py | Site_Factors._range_check | 684-736 | M_sitefactors |
| class_svm.py | SVM.__init__ | 85-280 | M_svm |
| class_svm.py | SVM.__repr__ | 281-283 | M_textfile |
| class_svm.py | SVM.plot | 284-333 | M_figures |
| class_svm.py | SVM.get_discretized_profile | 334-437 | M_svm |
| class_svm.py | SVM._plot_additional_profile | 438-466 | M_figures |
| class_svm.py | SVM.get_randomized_profile | 467-571 | M_svm |
| class_svm.py | SVM._helper_get_rand_profile | 572-792 | M_svm M_svmeq |
| class_svm.py | SVM._thk_depth_func | 793-812 | M_svmeq |
| class_svm.py | SVM._find_index_closest | 813-851 | M_svm |
| helper_generic.py | detect_OS | 13-24 | - |
| helper_generic.py | get_current_time | 25-46 | M_textfile |
| helper_generic.py | find_closest_index | 47-89 | M_generic |
| helper_generic.py | _process_fig_ax_objects | 90-151 | M_figures |
| helper_generic.py | read_two_column_stuff | 152-226 | M_freqspec M_ftime M_generic M_motion M_textfile |
| helper_generic.py | assert_1D_numpy_array | 227-247 | M_generic |
| helper_generic.py | assert_array_length | 248-277 | M_generic |
| helper_generic.py | extend_scalar | 278-311 | M_generic |
| helper_generic.py | check_length_or_extend_to_array | 312-345 | M_generic |
| helper_generic.py | assert_2D_numpy_array | 346-366 | M_generic M_results |
| helper_generic.py | check_two_column_format | 367-421 | M_generic |
| helper_generic.py | check_Vs_profile_format | 422-493 | M_generic |
| helper_generic.py | is_int | 494-521 | M_generic |
| helper_generic.py | check_numbers_valid | 522-550 | M_generic |
| helper_generic.py | interpolate | 551-606 | M_finterp M_interp |
| helper_generic.py | mean_absolute_error | 607-628 | M_generic |
| helper_generic.py | extract_from_curve_format | 629-707 | M_generic |
| helper_generic.py | extract_from_param_format | 708-752 | M_generic |
| helper_generic.py | merge_curve_matrices | 753-831 | M_generic |
| helper_gof_scores.py | S_ | 12-61 | M_gof |
| helper_gof_scores.py | d_1234 | 62-252 | M_gof |
| helper_gof_scores.py | calc_AriasIntensity | 253-299 | M_gof |
| helper_gof_scores.py | d_567 | 300-489 | M_gof |
| helper_gof_scores.py | baseline_wavelet | 490-539 | M_wavelet |
| helper_gof_scores.py | calc_rms | 540-558 | M_wavelet |
| helper_gof_scores.py | getAbsPeak | 559-588 | M_wavelet |
| helper_gof_scores.py | d_89 | 589-783 | M_gof |
| helper_gof_scores.py | d_10 | 784-904 | M_gof |
| helper_gof_scores.py | upArrow_op | 905-917 | M_wavelet |
| helper_gof_scores.py | period_list | 918-935 | M_wavelet |
| helper_gof_scores.py | circular_convolve_mra | 936-942 | M_wavelet |
| helper_gof_scores.py | circular_convolve_d | 943-956 | M_wavelet |
| helper_gof_scores.py | modwt | 957-979 | M_wavelet |
| helper_gof_scores.py | modwtmra | 980-1016 | M_wavelet |
| helper_hh_calibration.py | hh_param_from_profile | 50-166 | M_hhcal M_hhclass M_hhfig |
| helper_hh_calibration.py | hh_param_from_curves | 167-310 | M_hhcal M_hhclass M_hhfig |
| helper_hh_calibration.py | produce_HH_G_param | 311-660 | M_hhcal M_hhfig |
| helper_hh_calibration.py | _calc_shear_strength | 661-719 | M_hhcal |
| helper_hh_calibration.py | _calc_Gmax | 720-739 | M_hhcal |
| helper_hh_calibration.py | _calc_OCR | 740-773 | M_hhcal |
| helper_hh_calibration.py | _calc_vertical_stress | 774-813 | M_hhcal |
| helper_hh_calibration.py | _calc_rho | 814-856 | M_hhcal |
| helper_hh_calibration.py | _calc_PI | 857-883 | M_hhcal |
| helper_hh_calibration.py | _calc_K0 | 884-910 | M_hhcal |
| helper_hh_calibration.py | produce_Darendeli_curves | 911-1028 | M_hhcal |
| helper_hh_calibration.py | _calc_mean_confining_stress | 1029-1050 | M_hhcal |
| helper_hh_calibration.py | _optimization_kernel | 1051-1160 | M_hhcal |
| helper_hh_calibration.py | __find_x_t_and_d | 1161-1210 | M_hhcal |
| helper_hh_calibration.py | __calc_area | 1211-1269 | M_hhcal |
| helper_hh_model.py | tau_FKZ | 10-58 | M_soil |
| helper_hh_model.py | transition_function | 59-106 | M_soil |
| helper_hh_model.py | tau_HH | 107-161 | M_lawcurves M_soil |
| helper_hh_model.py | fit_HH_x_single_layer | 162-288 | M_curves M_finterp M_fits |
| helper_hh_model.py | _damping_misfit | 289-345 | M_fits |
| helper_hh_model.py | serialize_params_to_array | 346-381 | M_params |
| helper_hh_model.py | deserialize_array_to_params | 382-415 | M_params |
| helper_mkz_model.py | tau_MKZ | 10-59 | M_lawcurves M_soil |
| helper_mkz_model.py | fit_H4_x_single_layer | 60-177 | M_curves M_finterp M_fits |
| helper_mkz_model.py | damping_misfit | 178-219 | M_fits |
| helper_mkz_model.py | serialize_params_to_array | 220-257 | M_params |
| helper_mkz_model.py | deserialize_array_to_params | 258-305 | M_params |
| helper_mkz_model.py | fit_MKZ | 306-365 | M_fits |
| helper_mkz_model.py | func | 366-445 | M_fits M_hhfig |
| helper_signal_processing.py | lowpass | 14-54 | M_gmsignal |
| helper_signal_processing.py | highpass | 55-95 | M_gmsignal |
| helper_signal_processing.py | bandpass | 96-136 | M_gmsignal |
| helper_signal_processing.py | bandstop | 137-177 | M_gmsignal |
| helper_signal_processing.py | _filter_kernel | 178-334 | M_filtfig M_signal |
| helper_signal_processing.py | baseline | 335-492 | M_filtfig M_signal |
| helper_signal_processing.py | _remove_linear_trend | 493-502 | M_signal |
| helper_signal_processing.py | fourier_transform | 503-583 | M_dft M_signal |
| helper_signal_processing.py | taper_Tukey | 584-625 | M_signal |
| helper_signal_processing.py | calc_transfer_function | 626-717 | M_signal |
| helper_signal_processing.py | log_smooth | 718-830 | M_finterp M_signal |
| helper_signal_processing.py | lin_smooth | 831-913 | M_signal |
| helper_signal_processing.py | sine_smooth | 914-990 | M_sine |
| helper_simulations.py | check_layer_count | 18-65 | M_eqlin |
| helper_simulations.py | linear | 66-223 | M_simlin |
| helper_simulations.py | equiv_linear | 224-474 | M_eqlin M_finterp M_results M_simlin |
| helper_simulations.py | _prepare_inputs | 475-583 | M_eqlin M_simlin |
| helper_simulations.py | _lin_resp_every_layer | 584-763 | M_simlin |
| helper_simulations.py | _calc_stress | 764-809 | M_simlin |
| helper_simulations.py | _post_processing | 810-931 | M_simlin |
| helper_site_response.py | calc_z1_from_Vs30 | 18-30 | M_profile M_propagate |
| helper_site_response.py | stratify | 31-124 | M_profile |
| helper_site_response.py | query_Vs_at_depth | 125-199 | M_fquery M_profile |
| helper_site_response.py | query_Vs_given_thk | 200-263 | M_fquery M_profile |
| helper_site_response.py | plot_motion | 264-374 | M_figures |
| helper_site_response.py | num_int | 375-407 | M_float M_motion |
| helper_site_response.py | num_diff | 408-434 | M_motion |
| helper_site_response.py | find_f0 | 435-484 | M_motion |
| helper_site_response.py | response_spectra | 485-710 | M_ftime M_pool M_sigfig M_spectra |
| helper_site_response.py | _time_stepping | 711-742 | M_spectra |
| helper_site_response.py | get_xi_rho | 743-836 | M_profile |
| helper_site_response.py | calc_VsZ | 837-906 | M_fquery M_profile |
| helper_site_response.py | calc_Vs30 | 907-945 | M_fquery M_profile |
| helper_site_response.py | plot_Vs_profile | 946-1041 | M_figures |
| helper_site_response.py | calc_basin_depth | 1042-1078 | M_profile |
| helper_site_response.py | calc_z1 | 1079-1095 | M_profile |
| helper_site_response.py | _gen_profile_plot_array | 1096-1136 | M_profile |
| helper_site_response.py | thk2dep | 1137-1174 | M_float M_profile |
| helper_site_response.py | dep2thk | 1175-1220 | M_float M_profile |
| helper_site_response.py | linear_tf | 1221-1462 | M_linear |
| helper_site_response.py | amplify_motion | 1463-1662 | M_amplify M_dft M_finterp |
| helper_site_response.py | linear_site_resp | 1663-1759 | M_amplify |
| helper_site_response.py | _plot_site_amp | 1760-1924 | M_figres |
| helper_site_response.py | compare_two_accel | 1925-2008 | M_finterp M_gmsignal |
| helper_site_response.py | _align_two_time_arrays | 2009-2030 | M_ftime M_gmsignal |
| helper_site_response.py | _get_freq_interval | 2031-2086 | M_amplify |
| helper_site_response.py | robust_unwrap | 2087-2169 | M_amplify |
| helper_site_response.py | calc_damping_from_param | 2170-2209 | M_figres M_lawcurves M_soil |
| helper_site_response.py | calc_damping_from_stress_strain | 2210-2252 | M_lawcurves M_soil |
| helper_site_response.py | calc_GGmax_from_stress_strain | 2253-2298 | M_lawcurves M_soil |
| helper_site_response.py | _plot_damping_curve_fit | 2299-2365 | M_figres |
| helper_site_response.py | fit_all_damping_curves | 2366-2557 | M_curves M_figres M_fits |
| helper_site_response.py | _fit_single_layer_loop | 2558-2598 | M_fits |
| helper_site_response.py | ga_optimization | 2599-2812 | M_fits |
