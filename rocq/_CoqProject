-Q theories Verif
theories/Prelude.v
theories/PreludeFacts.v
theories/RealBase.v
theories/M_field_remap.v
theories/Spec_field.v
theories/P_field_remap.v
theories/P_field_assign.v
theories/P_field_lsa.v
theories/X_field_remap.v
theories/T_field_remap.v
theories/Fl.v
theories/M_spatial.v
theories/M_spatial_float.v
theories/Spec_spatial.v
theories/Spec_field_mislabel.v
theories/P_plane.v
theories/X_spatial_zone.v
theories/T_spatial_zone.v
theories/M_lcs.v
theories/Spec_lcs.v
theories/X_spatial_utm.v
theories/X_lcs.v
theories/T_spatial_utm.v
theories/X_spatial_flat.v
theories/T_spatial_flat.v
theories/X_spatial_plane.v
theories/T_spatial_plane.v
theories/X_spatial_time.v
theories/T_spatial_time.v
theories/RealStat.v
theories/M_cmv.v
theories/M_cmv_float.v
theories/Spec_cmv.v
theories/P_cmv.v
theories/X_cmv_pairs.v
theories/T_cmv_pairs.v
theories/X_cmv_options.v
theories/T_cmv_options.v
theories/X_cmv_qc.v
theories/T_cmv_qc.v
theories/X_cmv_cascade.v
theories/T_cmv_cascade.v
theories/X_cmv_motion.v
theories/T_cmv_motion.v
theories/X_cmv_fit.v
theories/T_cmv_fit.v
theories/X_cmv_float.v
theories/T_cmv_float.v
theories/X_cmv_subset.v
theories/T_cmv_subset.v
theories/M_field_pos.v
theories/Spec_field_pos.v
theories/Spec_field_loop.v
theories/X_field_pos.v
theories/X_field_mislabel.v
theories/M_field_loop.v
theories/P_field_loop.v
theories/X_field_loop.v
theories/M_field_pool.v
theories/Spec_field_pool.v
theories/P_field_pool.v
theories/X_field_pool.v
theories/T_field_pool.v
theories/T_field_pos.v
theories/M_stats.v
theories/Spec_stats.v
theories/X_stats_err.v
theories/T_stats_err.v
theories/X_stats_ser.v
theories/T_stats_ser.v
theories/P_stats.v
theories/P_resample.v
theories/X_stats_vs.v
theories/T_stats_vs.v
theories/X_stats_vi.v
theories/T_stats_vi.v
theories/P_quantile.v
theories/X_stats_quantile.v
theories/T_stats_quantile.v
theories/X_stats_csi.v
theories/T_stats_csi.v
theories/M_copula.v
theories/Spec_copula.v
theories/P_list.v
theories/X_copula_params.v
theories/T_copula_params.v
theories/X_copula_inverse.v
theories/T_copula_inverse.v
theories/X_copula_down.v
theories/T_copula_down.v
theories/M_cloudfield.v
theories/Spec_cloudfield.v
theories/X_cloud_random.v
theories/T_cloud_random.v
theories/X_cloud_weights.v
theories/T_cloud_weights.v
theories/X_cloud_mask.v
theories/T_cloud_mask.v
theories/X_cloud_edges.v
theories/T_cloud_edges.v
theories/X_cloud_scale.v
theories/T_cloud_scale.v
theories/X_cloud_ts.v
theories/T_cloud_ts.v
theories/Spec_dataio.v
theories/Spec_clean.v
theories/M_iotools.v
theories/M_hope.v
theories/M_clean.v
theories/M_nrcan.v
theories/X_dataio_files.v
theories/T_dataio_files.v
theories/X_dataio_wget.v
theories/T_dataio_wget.v
theories/X_dataio_clean.v
theories/X_clean.v
theories/T_dataio_clean.v
theories/X_dataio_h5.v
theories/T_dataio_h5.v
theories/X_dataio_nrcan.v
theories/T_dataio_nrcan.v
theories/Dft.v
theories/M_signal_corr.v
theories/Spec_signal.v
theories/P_signal.v
theories/P_corr.v
theories/P_delay.v
theories/X_signal_corr.v
theories/T_signal_corr.v
theories/X_signal_delay.v
theories/T_signal_delay.v
theories/P_dft.v
theories/P_fft.v
theories/X_signal_fft.v
theories/T_signal_fft.v
theories/X_signal_shape.v
theories/T_signal_shape.v
theories/Phase.v
theories/M_signal_tf.v
theories/Spec_welch.v
theories/Spec_gap.v
theories/P_welch.v
theories/P_parseval.v
theories/X_signal_psd.v
theories/T_signal_psd.v
theories/P_tf.v
theories/X_signal_tf.v
theories/T_signal_tf.v
theories/P_phase.v
theories/X_signal_interp.v
theories/T_signal_interp.v
theories/Spec_tfdelay.v
theories/P_tfdelay.v
theories/X_signal_tfdelay.v
theories/T_signal_tfdelay.v
theories/P_tfx.v
theories/X_signal_tfx.v
theories/T_signal_tfx.v
theories/M_signal_plant.v
theories/Spec_plant.v
theories/P_plant.v
theories/P_cam.v
theories/X_signal_plant.v
theories/T_signal_plant.v
theories/X_signal_cam.v
theories/T_signal_cam.v
theories/P_filter.v
theories/X_signal_filter.v
theories/T_signal_filter.v
theories/X_signal_marcos.v
theories/T_signal_marcos.v
theories/X_signal_camsite.v
theories/X_ex_cloud.v
theories/X_ex_signal.v
theories/T_signal_camsite.v
theories/Spec_copula_speeds.v
theories/X_copula_speeds.v
theories/T_copula_speeds.v
theories/M_paths.v
theories/Spec_paths.v
theories/X_dataio_paths.v
theories/T_dataio_paths.v
theories/M_vis.v
theories/X_vis_hist.v
theories/T_vis_hist.v
theories/M_field_delays.v
theories/X_field_delays.v
theories/T_field_delays.v
theories/X_cmv_rows.v
theories/T_cmv_rows.v
theories/Spec_cmv_stats.v
theories/X_cmv_stats.v
theories/T_cmv_stats.v
theories/M_cmv_dict.v
theories/M_link.v
theories/P_gap.v
theories/X_cmv_total.v
theories/T_cmv_total.v
theories/X_link_delay.v
theories/X_cmv_dict.v
theories/T_cmv_dict.v
theories/T_link_delay.v
theories/X_link_good.v
theories/T_link_good.v
theories/X_link_tf.v
theories/T_link_tf.v
theories/X_link_recover.v
theories/T_link_recover.v
theories/X_link_demo.v
theories/T_link_demo.v
theories/M_hope_cli.v
theories/X_dataio_parse.v
theories/T_dataio_parse.v
theories/X_dataio_cli.v
theories/T_dataio_cli.v
theories/X_signal_wave.v
theories/T_signal_wave.v
theories/M_predict.v
theories/X_predict.v
theories/X_link_gap.v
theories/T_predict.v
theories/T_link_gap.v
theories/Spec_window.v
theories/M_window.v
theories/P_window.v
theories/X_window.v
theories/T_window.v
theories/X_sine.v
theories/T_sine.v
theories/M_tf_rows.v
theories/X_tf_rows.v
theories/T_tf_rows.v
theories/X_pulse.v
theories/T_pulse.v
theories/T_lcs.v
theories/M_auto_cmv.v
theories/Spec_auto_cmv.v
theories/X_auto_cmv.v
theories/X_field_windows.v
theories/T_field_mislabel.v
theories/T_field_loop.v
theories/T_auto_cmv.v
theories/T_field_windows.v
theories/T_clean.v
theories/T_ex_signal.v
theories/T_ex_cloud.v
theories/M_stats_float.v
theories/X_stats_float.v
theories/T_stats_float.v
theories/X_welch_gap.v
theories/T_welch_gap.v
theories/M_cloud_demo.v
theories/Spec_cloud_demo.v
theories/X_cloud_demo.v
theories/T_cloud_demo.v
theories/M_cmv_demo.v
theories/X_cmv_demo.v
theories/T_cmv_demo.v
theories/M_field_reassign.v
theories/Spec_field_reassign.v
theories/X_field_reassign.v
theories/T_field_reassign.v
theories/Spec_copula_frozen.v
theories/X_copula_frozen.v
theories/T_copula_frozen.v
theories/X_copula_hours.v
theories/T_copula_hours.v
theories/Spec_cam_exact.v
theories/X_cam_exact.v
theories/T_cam_exact.v
theories/M_stats_tau.v
theories/X_stats_tau.v
theories/T_stats_tau.v
theories/X_field_narrow.v
theories/T_field_narrow.v
theories/Spec_dataset.v
theories/X_dataset_names.v
theories/T_dataset_names.v
theories/X_field_mean.v
theories/T_field_mean.v
theories/M_field_demo.v
theories/Spec_field_demo.v
theories/X_field_demo.v
theories/T_field_demo.v
theories/M_field_names.v
theories/Spec_field_names.v
theories/X_field_names.v
theories/T_field_names.v
theories/M_digitize.v
theories/Spec_digitize.v
theories/P_digitize.v
theories/X_digitize.v
theories/T_digitize.v
theories/X_repo_tests.v
theories/T_repo_tests.v
theories/M_trunc_float.v
theories/X_trunc_float.v
theories/T_trunc_float.v
theories/M_filter_nan.v
theories/X_filter_nan.v
theories/T_filter_nan.v
theories/M_paths_race.v
theories/X_paths_race.v
theories/T_paths_race.v
theories/M_quantile_tz.v
theories/Spec_quantile_tz.v
theories/X_quantile_tz.v
theories/T_quantile_tz.v
theories/M_plant_float.v
theories/X_plant_float.v
theories/T_plant_float.v
theories/M_resample_tz.v
theories/Spec_resample_tz.v
theories/X_resample_tz.v
theories/T_resample_tz.v
theories/M_stats_dup.v
theories/Spec_stats_dup.v
theories/X_stats_dup.v
theories/T_stats_dup.v
theories/M_session.v
theories/Spec_session.v
theories/X_session.v
theories/T_session.v
theories/M_stats_int.v
theories/Spec_stats_int.v
theories/X_stats_int.v
theories/T_stats_int.v
theories/M_heap.v
theories/Spec_heap.v
theories/X_heap.v
theories/T_heap.v
theories/M_paths_any.v
theories/Spec_paths_any.v
theories/X_paths_any.v
theories/T_paths_any.v
theories/M_plant_int.v
theories/X_plant_int.v
theories/T_plant_int.v
theories/Spec_dist_float.v
theories/M_dist_float.v
theories/X_dist_float.v
theories/T_dist_float.v
theories/M_field_cols.v
theories/Spec_field_cols.v
theories/X_field_cols.v
theories/T_field_cols.v
theories/M_cmv_iter.v
theories/X_cmv_iter.v
theories/T_cmv_iter.v
theories/M_proj_float.v
theories/X_proj_float.v
theories/T_proj_float.v
theories/M_tf_names.v
theories/X_tf_names.v
theories/T_tf_names.v
theories/M_marcos32.v
theories/X_marcos32.v
theories/T_marcos32.v
