-Q theories Verif
theories/Num.v
theories/NpBase.v
theories/Lib.v
theories/XR.v
theories/F64.v
theories/F64ex.v
theories/M_descriptive.v
theories/M_series.v
theories/M_replacement.v
theories/M_signal.v
theories/M_detection.v
theories/M_optimize.v
theories/M_normal.v
theories/M_kernel.v
theories/M_butter.v
theories/M_heap.v
theories/M_trikde.v
theories/Spec4.v
theories/P_trikde.v
theories/Spec5.v
theories/M_pipeline.v
theories/P_intrec.v
theories/P_float.v
theories/P_float2.v
theories/Spec6.v
theories/P_pipeline.v
theories/P_pipeline2.v
theories/P_float3.v
theories/Props_trikde.v
theories/Props_pipeline.v
theories/Props_intrec.v
theories/Spec.v
theories/Spec2.v
theories/Spec3.v
theories/LibR.v
theories/P_descriptive.v
theories/P_order.v
theories/P_moment.v
theories/P_series.v
theories/P_kalman.v
theories/P_ssa.v
theories/P_ssa2.v
theories/P_replacement.v
theories/P_interp.v
theories/P_cubic.v
theories/P_polyrep.v
theories/P_signal.v
theories/P_detect.v
theories/P_phase.v
theories/P_corr.v
theories/P_kern.v
theories/Spec14.v
theories/P_sph.v
theories/P_nan.v
theories/P_brent.v
theories/P_fmin.v
theories/P_optprops.v
theories/P_gauss.v
theories/P_normal.v
theories/P_normtest.v
theories/P_hist.v
theories/P_kernel.v
theories/P_band.v
theories/P_dct.v
theories/P_cx.v
theories/P_butter.v
theories/P_buttap.v
theories/P_design.v
theories/P_bwfun.v
theories/P_bwprops.v
theories/P_poly.v
theories/P_cxr.v
theories/P_sop.v
theories/P_sop2.v
theories/P_sop3.v
theories/P_bwfinal.v
theories/P_heap.v
theories/Props_descriptive.v
theories/Props_series.v
theories/Props_replacement.v
theories/Props_detection.v
theories/Props_optimize.v
theories/Props_normal.v
theories/Props_kernel.v
theories/Props_signal.v
theories/Props_butter.v
theories/Props_heap.v
theories/P_fsum.v
theories/P_fstat.v
theories/Props_float.v
theories/Spec7.v
theories/P_fkalman.v
theories/P_fseries.v
theories/P_fseries2.v
theories/P_fnormal.v
theories/Props_float2.v
theories/M_spectrum.v
theories/Spec8.v
theories/P_spectrum.v
theories/P_spectrum2.v
theories/P_spectrum3.v
theories/Props_spectrum.v
theories/M_kalman.v
theories/Spec9.v
theories/M_arrays.v
theories/P_arrays.v
theories/P_intmean.v
theories/P_kalmannd.v
theories/P_arrays2.v
theories/Props_arrays.v
theories/M_ptf.v
theories/Spec10.v
theories/P_ptf.v
theories/Props_ptf.v
theories/P_symm.v
theories/Props_symm.v
theories/Spec11.v
theories/P_repeat.v
theories/Props_repeat.v
theories/Spec12.v
theories/P_unpaired.v
theories/Props_unpaired.v
theories/Spec13.v
theories/P_brent2.v
theories/P_fbrent.v
theories/P_brent3.v
theories/Props_brent2.v
theories/Spec15.v
theories/M_pdf.v
theories/P_pdf.v
theories/P_pdf2.v
theories/P_logpdf.v
theories/Props_pdf.v
theories/Spec16.v
theories/P_units.v
theories/Props_units.v
theories/Spec17.v
theories/P_units2.v
theories/Props_units2.v
theories/Spec18.v
theories/P_causal.v
theories/P_ineq.v
theories/P_equi.v
theories/P_fluid2.v
theories/Props_smooth.v
theories/Spec19.v
theories/P_fpdf.v
theories/Props_fpdf.v
theories/Spec20.v
theories/P_kalman2.v
theories/Props_kalman2.v
theories/Spec21.v
theories/P_sphang.v
theories/Props_sphang.v
theories/P_korder.v
theories/Props_korder.v
theories/Spec22.v
theories/P_kurtz.v
theories/P_ssarep.v
theories/Props_tight.v
theories/Spec23.v
theories/P_bwsel.v
theories/Props_bwsel.v
theories/Spec24.v
theories/P_fminaff.v
theories/Props_fmin2.v
theories/P_intpoly.v
theories/P_ffmin.v
theories/P_ffmin2.v
theories/Props_ffmin.v
theories/Spec25.v
theories/P_negidx.v
theories/Props_negidx.v
theories/P_flin.v
theories/Props_flin.v
theories/Spec26.v
theories/P_worst.v
theories/Props_worst.v
theories/Spec27.v
theories/P_greedy.v
theories/Props_greedy.v
theories/Spec28.v
theories/P_smooth.v
theories/Props_weights.v
theories/P_phmean.v
theories/Props_phmean.v
theories/Spec29.v
theories/P_evolve.v
theories/P_target.v
theories/Props_target.v
theories/P_corrlen.v
theories/Props_corrlen.v
theories/Spec30.v
theories/P_range.v
theories/Props_range.v
theories/P_noise.v
theories/Props_noise.v
theories/Spec31.v
theories/P_fluidlen.v
theories/Props_fluidlen.v
theories/Spec32.v
theories/P_indep.v
theories/Props_indep.v
theories/Spec33.v
theories/P_ixorder.v
theories/Props_ixorder.v
theories/P_specsym.v
theories/Props_specsym.v
theories/Spec34.v
theories/P_block.v
theories/Props_block.v
theories/P_shrink.v
theories/Props_shrink.v
theories/Spec35.v
theories/M_curves.v
theories/P_curves.v
theories/Props_curves.v
theories/Spec36.v
theories/P_noisemean.v
theories/Props_noisemean.v
theories/Spec37.v
theories/P_restore.v
theories/P_medrestore.v
theories/Props_restore.v
theories/P_roundtrip.v
theories/Props_roundtrip.v
theories/Repo_tests.v
