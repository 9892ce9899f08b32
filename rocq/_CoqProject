-Q theories Verif
theories/CSum.v
theories/DFT.v
theories/Dirichlet.v
theories/Kernel.v
theories/M_aff.v
theories/M_alt.v
theories/M_amb.v
theories/M_base.v
theories/M_bins.v
theories/M_bwd.v
theories/M_cohen.v
theories/M_docs.v
theories/M_dom.v
theories/M_dopx.v
theories/M_ext.v
theories/M_fmp.v
theories/M_fp.v
theories/M_gabor.v
theories/M_gallery.v
theories/M_gallery2.v
theories/M_gen1.v
theories/M_gen2.v
theories/M_gen3.v
theories/M_grid.v
theories/M_heap.v
theories/M_kw.v
theories/M_mor.v
theories/M_mor1.v
theories/M_morn.v
theories/M_mplt.v
theories/M_nd.v
theories/M_over.v
theories/M_plot.v
theories/M_plot2.v
theories/M_post.v
theories/M_putils.v
theories/M_reas.v
theories/M_spw.v
theories/M_state.v
theories/M_stft.v
theories/M_thr.v
theories/M_utils.v
theories/M_warn.v
theories/M_wb.v
theories/P_base.v
theories/P_mh.v
theories/P_pwvd.v
theories/P_spec.v
theories/P_spwv.v
theories/P_stft.v
theories/P_wvd.v
theories/Props_aff.v
theories/Props_aff2.v
theories/Props_aff3.v
theories/Props_aff4.v
theories/Props_again.v
theories/Props_again2.v
theories/Props_alt.v
theories/Props_amb.v
theories/Props_ambat.v
theories/Props_amrid.v
theories/Props_angle.v
theories/Props_anl.v
theories/Props_bins.v
theories/Props_bound.v
theories/Props_bwd.v
theories/Props_cells.v
theories/Props_chirp.v
theories/Props_chirp2.v
theories/Props_class.v
theories/Props_conc.v
theories/Props_cov.v
theories/Props_docs.v
theories/Props_docs2.v
theories/Props_dom.v
theories/Props_dopx.v
theories/Props_draw.v
theories/Props_dual.v
theories/Props_edge.v
theories/Props_ex1.v
theories/Props_ext.v
theories/Props_fmp.v
theories/Props_fp.v
theories/Props_fp2.v
theories/Props_fp4.v
theories/Props_gabor.v
theories/Props_gallery.v
theories/Props_gallery2.v
theories/Props_gallery3.v
theories/Props_gallery4.v
theories/Props_gen1.v
theories/Props_gen2.v
theories/Props_grid.v
theories/Props_heap.v
theories/Props_heap2.v
theories/Props_heis.v
theories/Props_hil.v
theories/Props_hline.v
theories/Props_hrows.v
theories/Props_ifm.v
theories/Props_ifm2.v
theories/Props_key.v
theories/Props_kw.v
theories/Props_long.v
theories/Props_long2.v
theories/Props_long3.v
theories/Props_mh.v
theories/Props_mhtone.v
theories/Props_mhuniq.v
theories/Props_midw.v
theories/Props_misc.v
theories/Props_misc2.v
theories/Props_mom.v
theories/Props_mor.v
theories/Props_mor1.v
theories/Props_more.v
theories/Props_morn.v
theories/Props_mplt.v
theories/Props_nbuniq.v
theories/Props_nd.v
theories/Props_nmom.v
theories/Props_noise.v
theories/Props_opts.v
theories/Props_over.v
theories/Props_over2.v
theories/Props_par.v
theories/Props_pipe.v
theories/Props_plot.v
theories/Props_plot2.v
theories/Props_plot3.v
theories/Props_plot4.v
theories/Props_plot5.v
theories/Props_pmcov.v
theories/Props_pmmod.v
theories/Props_pmtone.v
theories/Props_pmuniq.v
theories/Props_post.v
theories/Props_post2.v
theories/Props_post3.v
theories/Props_postx.v
theories/Props_pow.v
theories/Props_putils.v
theories/Props_pwag.v
theories/Props_pwuniq.v
theories/Props_pwvd.v
theories/Props_rchirp.v
theories/Props_reas.v
theories/Props_reas2.v
theories/Props_rect.v
theories/Props_red.v
theories/Props_renyi.v
theories/Props_rev.v
theories/Props_rpimp.v
theories/Props_rpwv.v
theories/Props_rtone.v
theories/Props_sep.v
theories/Props_spcov.v
theories/Props_spec.v
theories/Props_spimp.v
theories/Props_sprev.v
theories/Props_sptone.v
theories/Props_spw.v
theories/Props_spwv.v
theories/Props_state.v
theories/Props_stft.v
theories/Props_sym.v
theories/Props_tests.v
theories/Props_tests2.v
theories/Props_tests3.v
theories/Props_tests4.v
theories/Props_thr.v
theories/Props_tone.v
theories/Props_tonesc.v
theories/Props_ts.v
theories/Props_twoc.v
theories/Props_utils.v
theories/Props_voices.v
theories/Props_warn.v
theories/Props_wb.v
theories/Props_wb2.v
theories/Props_wvd.v
theories/Py.v
theories/Scalars.v
theories/Spec.v
theories/T_aff.v
theories/T_aff2.v
theories/T_aff3.v
theories/T_aff4.v
theories/T_again.v
theories/T_again2.v
theories/T_alt.v
theories/T_amb.v
theories/T_ambat.v
theories/T_amrid.v
theories/T_angle.v
theories/T_anl.v
theories/T_bins.v
theories/T_bound.v
theories/T_bwd.v
theories/T_cells.v
theories/T_chirp.v
theories/T_chirp2.v
theories/T_class.v
theories/T_conc.v
theories/T_cov.v
theories/T_docs.v
theories/T_docs2.v
theories/T_dom.v
theories/T_dopx.v
theories/T_draw.v
theories/T_dual.v
theories/T_edge.v
theories/T_ex1.v
theories/T_ext.v
theories/T_fmp.v
theories/T_fp.v
theories/T_fp2.v
theories/T_fp4.v
theories/T_gabor.v
theories/T_gallery.v
theories/T_gallery2.v
theories/T_gallery3.v
theories/T_gallery4.v
theories/T_gen1.v
theories/T_gen2.v
theories/T_grid.v
theories/T_heap.v
theories/T_heap2.v
theories/T_heis.v
theories/T_hil.v
theories/T_hline.v
theories/T_hrows.v
theories/T_ifm.v
theories/T_ifm2.v
theories/T_key.v
theories/T_kw.v
theories/T_long.v
theories/T_long2.v
theories/T_long3.v
theories/T_mh.v
theories/T_mhtone.v
theories/T_mhuniq.v
theories/T_midw.v
theories/T_misc.v
theories/T_misc2.v
theories/T_mom.v
theories/T_mor.v
theories/T_mor1.v
theories/T_more.v
theories/T_morn.v
theories/T_mplt.v
theories/T_nbuniq.v
theories/T_nd.v
theories/T_nmom.v
theories/T_noise.v
theories/T_opts.v
theories/T_over.v
theories/T_over2.v
theories/T_par.v
theories/T_pipe.v
theories/T_plot.v
theories/T_plot2.v
theories/T_plot3.v
theories/T_plot4.v
theories/T_plot5.v
theories/T_pmcov.v
theories/T_pmmod.v
theories/T_pmtone.v
theories/T_pmuniq.v
theories/T_post.v
theories/T_post2.v
theories/T_post3.v
theories/T_postx.v
theories/T_pow.v
theories/T_putils.v
theories/T_pwag.v
theories/T_pwuniq.v
theories/T_pwvd.v
theories/T_rchirp.v
theories/T_reas.v
theories/T_reas2.v
theories/T_rect.v
theories/T_red.v
theories/T_renyi.v
theories/T_rev.v
theories/T_rpimp.v
theories/T_rpwv.v
theories/T_rtone.v
theories/T_sep.v
theories/T_spcov.v
theories/T_spec.v
theories/T_spimp.v
theories/T_sprev.v
theories/T_sptone.v
theories/T_spw.v
theories/T_spwv.v
theories/T_state.v
theories/T_stft.v
theories/T_sym.v
theories/T_tests.v
theories/T_tests2.v
theories/T_tests3.v
theories/T_tests4.v
theories/T_thr.v
theories/T_tone.v
theories/T_tonesc.v
theories/T_ts.v
theories/T_twoc.v
theories/T_utils.v
theories/T_voices.v
theories/T_warn.v
theories/T_wb.v
theories/T_wb2.v
theories/T_wvd.v
