-Q theories Verif
theories/Base.v
theories/M_amplify.v
theories/M_batch.v
theories/M_container.v
theories/M_curvemat.v
theories/M_curves.v
theories/M_dampcal.v
theories/M_dft.v
theories/M_eqlin.v
theories/M_figres.v
theories/M_figures.v
theories/M_files.v
theories/M_filtfig.v
theories/M_finterp.v
theories/M_fits.v
theories/M_float.v
theories/M_fquery.v
theories/M_freqspec.v
theories/M_ftime.v
theories/M_generic.v
theories/M_gmsignal.v
theories/M_gof.v
theories/M_hhcal.v
theories/M_hhclass.v
theories/M_hhfig.v
theories/M_interp.v
theories/M_lawcurves.v
theories/M_linear.v
theories/M_motion.v
theories/M_params.v
theories/M_pool.v
theories/M_profile.v
theories/M_propagate.v
theories/M_results.v
theories/M_sigfig.v
theories/M_signal.v
theories/M_simlin.v
theories/M_sine.v
theories/M_sitefactors.v
theories/M_sitefig.v
theories/M_sitefiles.v
theories/M_soil.v
theories/M_spectra.v
theories/M_svm.v
theories/M_svmeq.v
theories/M_text.v
theories/M_textfile.v
theories/M_vs_profile.v
theories/M_vsspec.v
theories/M_wavelet.v
theories/P_amplify.v
theories/P_batch.v
theories/P_curvemat.v
theories/P_curves.v
theories/P_dft.v
theories/P_eqlin.v
theories/P_figures.v
theories/P_files.v
theories/P_float.v
theories/P_generic.v
theories/P_gof.v
theories/P_hhcal.v
theories/P_interp.v
theories/P_linear.v
theories/P_motion.v
theories/P_params.v
theories/P_profile.v
theories/P_simlin.v
theories/P_soil.v
theories/P_spectra.v
theories/P_svm.v
theories/P_svm2.v
theories/P_text.v
theories/P_unwrap.v
theories/P_vs_profile.v
theories/P_wavelet.v
theories/Prop_amplify.v
theories/Prop_baseline.v
theories/Prop_batch.v
theories/Prop_compare.v
theories/Prop_construct.v
theories/Prop_container.v
theories/Prop_curvemat.v
theories/Prop_curves.v
theories/Prop_dampcal.v
theories/Prop_details.v
theories/Prop_dfiles.v
theories/Prop_dfits.v
theories/Prop_eqlim.v
theories/Prop_eqlin.v
theories/Prop_fcount.v
theories/Prop_fdepth.v
theories/Prop_figres.v
theories/Prop_figures.v
theories/Prop_files.v
theories/Prop_filter.v
theories/Prop_filtfig.v
theories/Prop_finterp.v
theories/Prop_fmotion.v
theories/Prop_fourier.v
theories/Prop_fquery.v
theories/Prop_freqspec.v
theories/Prop_ftime.v
theories/Prop_fvsz.v
theories/Prop_generic.v
theories/Prop_gmsignal.v
theories/Prop_gof.v
theories/Prop_gof2.v
theories/Prop_hhcal.v
theories/Prop_hhcal2.v
theories/Prop_hhclass.v
theories/Prop_hhfig.v
theories/Prop_lawcurves.v
theories/Prop_linear.v
theories/Prop_mkzfit.v
theories/Prop_motion.v
theories/Prop_motion_ops.v
theories/Prop_params.v
theories/Prop_profile.v
theories/Prop_propagate.v
theories/Prop_results.v
theories/Prop_runs.v
theories/Prop_sigfig.v
theories/Prop_simkin.v
theories/Prop_simlin.v
theories/Prop_sine.v
theories/Prop_sitefactors.v
theories/Prop_sitefig.v
theories/Prop_siteresp.v
theories/Prop_smooth.v
theories/Prop_soil.v
theories/Prop_spectra.v
theories/Prop_svm.v
theories/Prop_svmeq.v
theories/Prop_svmrand.v
theories/Prop_text.v
theories/Prop_textfile.v
theories/Prop_texts.v
theories/Prop_trend.v
theories/Prop_unwrap.v
theories/Prop_vs_profile.v
theories/Prop_vs_query.v
theories/Prop_vsspec.v
theories/Prop_wavelet.v
theories/Assumptions1.v
theories/Assumptions2.v
theories/Assumptions3.v
theories/Assumptions4.v
