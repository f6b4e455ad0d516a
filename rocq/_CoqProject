-Q theories Verif
theories/QcTac.v
theories/QSum.v
theories/Num.v
theories/NdArr.v
theories/Numpy.v
theories/M_common.v
theories/NdAxes.v
theories/M_boot.v
theories/Spec.v
theories/RTier.v
theories/M_determ.v
theories/P_boot.v
theories/P_boot2.v
theories/P_err.v
theories/Props_avg.v
theories/M_ens.v
theories/NdMove.v
theories/P_rank.v
theories/Props_rank.v
theories/P_prob.v
theories/P_range.v
theories/Props_prob.v
theories/M_special.v
theories/P_work.v
theories/Spec_prob.v
theories/P_brier.v
theories/P_corr.v
theories/P_special.v
theories/Props_special.v
theories/M_state.v
theories/Spec_state.v
theories/P_state.v
theories/P_codec.v
theories/P_state2.v
theories/Props_state.v
theories/M_rel.v
theories/Spec_rel.v
theories/P_rel.v
theories/Props_rel.v
theories/Spec_ss.v
theories/M_ss.v
theories/P_ss.v
theories/Props_ss.v
theories/M_iou.v
theories/Props_iou.v
theories/Props_thr.v
theories/Props_conf.v
theories/M_dist.v
theories/P_dist.v
theories/Props_dist.v
theories/M_dm.v
theories/P_dm.v
theories/Props_dm.v
theories/M_integ.v
theories/P_integ.v
theories/P_integ2.v
theories/Props_integ.v
theories/P_integ3.v
theories/Props_integ2.v
theories/Props_ens.v
theories/M_crpsens.v
theories/Props_crpsens.v
theories/M_io.v
theories/Spec_io.v
theories/Props_io.v
theories/M_float.v
theories/Props_float.v
theories/R_gauss.v
theories/M_crps.v
theories/Spec_crps.v
theories/P_crps.v
theories/Props_crps.v
theories/P_crpsgamma.v
theories/Props_crpsgamma.v
theories/Props_mean.v
theories/M_truncgamma.v
theories/Spec_truncgamma.v
theories/P_truncgamma.v
theories/Props_truncgamma.v
theories/Props_distval.v
theories/M_kde.v
theories/P_kde.v
theories/Props_kde.v
theories/M_roc.v
theories/P_roc.v
theories/Spec_roc.v
theories/Props_roc.v
theories/M_ps.v
theories/P_ps.v
theories/Props_ps.v
theories/P_bracket.v
theories/P_relboot.v
theories/Spec_relboot.v
theories/Props_relboot.v
theories/M_nc.v
theories/Spec_nc.v
theories/P_nc.v
theories/Props_nc.v
theories/Props_integ3.v
theories/P_integ4.v
theories/Props_integ4.v
theories/Props_ranknum.v
theories/Spec_settings.v
theories/P_settings.v
theories/Props_settings.v
theories/Spec_result.v
theories/P_result.v
theories/Props_result.v
theories/Spec_accept.v
theories/P_accept.v
theories/Props_accept.v
theories/Store.v
theories/M_whole.v
theories/Spec_whole.v
theories/P_whole.v
theories/Props_whole.v
theories/M_mfnc.v
theories/Spec_mfnc.v
theories/P_mfnc.v
theories/Props_mfnc.v
theories/Spec_foot.v
theories/P_foot.v
theories/Props_foot.v
theories/Spec_density.v
theories/Props_density.v
theories/P_density.v
theories/M_repr.v
theories/Spec_repr.v
theories/P_repr.v
theories/Props_repr.v
theories/M_whole2.v
theories/P_whole2.v
theories/Props_whole2.v
theories/M_crpstf.v
theories/Props_crpstf.v
theories/M_whole3.v
theories/Spec_whole3.v
theories/P_whole3.v
theories/Props_whole3.v
theories/M_round.v
theories/P_round.v
theories/Props_fsum.v
theories/Props_bins.v
theories/Spec_whole2.v
theories/P_layout.v
theories/Props_ferr.v
theories/M_many.v
theories/Spec_many.v
theories/P_many.v
theories/Props_many.v
theories/P_laws.v
theories/Props_laws.v
theories/P_laws2.v
theories/Props_laws2.v
theories/Props_nested.v
theories/Props_nested2.v
theories/P_laws3.v
theories/Props_laws3.v
theories/Props_order.v
theories/Props_terms.v
theories/Props_plaws.v
theories/M_whole4.v
theories/P_whole4.v
theories/Props_whole4.v
theories/M_whole5.v
theories/Spec_whole5.v
theories/P_whole5.v
theories/Props_whole5.v
theories/P_wboot.v
theories/Props_wboot.v
theories/Spec_wboot2.v
theories/P_wboot2.v
theories/Props_wboot2.v
theories/P_laws4.v
theories/Props_laws4.v
theories/M_whole6.v
theories/Spec_wboot3.v
theories/P_wboot3.v
theories/Props_wboot3.v
theories/Props_mirror.v
theories/Props_pieces.v
theories/Props_missing.v
theories/P_affine.v
theories/Props_unitboot.v
theories/Props_local.v
theories/M_kern.v
theories/Spec_kern.v
theories/P_kern.v
theories/Props_kern.v
theories/Props_method.v
theories/Props_src.v
