-Q theories Verif
theories/Base.v
theories/M_addbar.v
theories/M_backend.v
theories/M_bars.v
theories/M_binance.v
theories/M_builder.v
theories/M_config.v
theories/M_cusumtest.v
theories/M_download.v
theories/M_features.v
theories/M_float.v
theories/M_float10.v
theories/M_float11.v
theories/M_float12.v
theories/M_float13.v
theories/M_float14.v
theories/M_float15.v
theories/M_float16.v
theories/M_float2.v
theories/M_float3.v
theories/M_float4.v
theories/M_float5.v
theories/M_float6.v
theories/M_float7.v
theories/M_float8.v
theories/M_float9.v
theories/M_footprint.v
theories/M_fpdata.v
theories/M_graph.v
theories/M_inspect.v
theories/M_kit.v
theories/M_kitcfg.v
theories/M_labelkit.v
theories/M_log.v
theories/M_logic.v
theories/M_multi.v
theories/M_names.v
theories/M_pipe.v
theories/M_sampling.v
theories/M_store.v
theories/M_tbio.v
theories/M_tbm.v
theories/M_tickf.v
theories/M_trades.v
theories/M_transforms.v
theories/M_volat.v
theories/M_volpro.v
theories/M_volume.v
theories/M_weights.v
theories/P_backend.v
theories/P_bars.v
theories/P_corrf.v
theories/P_cstestf.v
theories/P_cusum.v
theories/P_cusumbar.v
theories/P_cusumf.v
theories/P_download.v
theories/P_ewmstf.v
theories/P_features.v
theories/P_features2.v
theories/P_float.v
theories/P_float10.v
theories/P_float11.v
theories/P_float12.v
theories/P_float13.v
theories/P_float2.v
theories/P_float3.v
theories/P_float4.v
theories/P_float5.v
theories/P_float6.v
theories/P_float7.v
theories/P_float8.v
theories/P_float9.v
theories/P_footf.v
theories/P_footf2.v
theories/P_footf3.v
theories/P_footprint.v
theories/P_kahan.v
theories/P_labelkit.v
theories/P_level.v
theories/P_level2.v
theories/P_log.v
theories/P_logic.v
theories/P_mirror.v
theories/P_mirror2.v
theories/P_mirror3.v
theories/P_mono.v
theories/P_mono2.v
theories/P_online.v
theories/P_pieces.v
theories/P_pipe.v
theories/P_pipe2.v
theories/P_pipe3.v
theories/P_profilef.v
theories/P_profilef2.v
theories/P_profilef3.v
theories/P_profilef4.v
theories/P_profilef5.v
theories/P_readcut.v
theories/P_retf.v
theories/P_rootf.v
theories/P_sampling.v
theories/P_shapef.v
theories/P_shift.v
theories/P_shift2.v
theories/P_shift3.v
theories/P_shiftpipe.v
theories/P_sizef.v
theories/P_sizef2.v
theories/P_sort.v
theories/P_store.v
theories/P_sumf.v
theories/P_tbm.v
theories/P_tbmf.v
theories/P_tickf.v
theories/P_time.v
theories/P_trades.v
theories/P_trades2.v
theories/P_unitpipe.v
theories/P_units.v
theories/P_units2.v
theories/P_units3.v
theories/P_units4.v
theories/P_units5.v
theories/P_units6.v
theories/P_units7.v
theories/P_units8.v
theories/P_units9.v
theories/P_volat.v
theories/P_volatf.v
theories/P_volatf2.v
theories/P_volume.v
theories/P_volume2.v
theories/P_volume3.v
theories/P_weights.v
theories/P_weights2.v
theories/P_weights3.v
theories/P_weights4.v
theories/P_weights5.v
theories/P_weightsf.v
theories/P_weightsf2.v
theories/P_weightsf3.v
theories/S_backend.v
theories/S_bars.v
theories/S_binance.v
theories/S_builder.v
theories/S_causal.v
theories/S_cstestf.v
theories/S_cusumf.v
theories/S_download.v
theories/S_features.v
theories/S_float.v
theories/S_footf.v
theories/S_footprint.v
theories/S_fpdata.v
theories/S_kit.v
theories/S_level.v
theories/S_log.v
theories/S_logic.v
theories/S_mirror.v
theories/S_mono.v
theories/S_multi.v
theories/S_names.v
theories/S_online.v
theories/S_pieces.v
theories/S_pipe.v
theories/S_profilef.v
theories/S_shift.v
theories/S_shiftpipe.v
theories/S_store.v
theories/S_sumf.v
theories/S_tbm.v
theories/S_tbmf.v
theories/S_tickf.v
theories/S_trades.v
theories/S_transforms.v
theories/S_unitbars.v
theories/S_unitpipe.v
theories/S_units.v
theories/S_unitsf.v
theories/S_volat.v
theories/S_volume.v
theories/S_weights.v
theories/S_weights2.v
theories/T_addbar.v
theories/T_backend.v
theories/T_backend2.v
theories/T_backend3.v
theories/T_backend4.v
theories/T_bars.v
theories/T_binance.v
theories/T_binance2.v
theories/T_binance3.v
theories/T_builder.v
theories/T_causal.v
theories/T_config.v
theories/T_cstestf.v
theories/T_cusumf.v
theories/T_cusumtest.v
theories/T_download.v
theories/T_ewmstf.v
theories/T_features.v
theories/T_features2.v
theories/T_float.v
theories/T_float2.v
theories/T_float3.v
theories/T_float4.v
theories/T_footf.v
theories/T_footf2.v
theories/T_footprint.v
theories/T_fpdata.v
theories/T_graph.v
theories/T_inspect.v
theories/T_inspect2.v
theories/T_kahan.v
theories/T_kit.v
theories/T_kitcfg.v
theories/T_level.v
theories/T_log.v
theories/T_logic.v
theories/T_mirror.v
theories/T_mirror2.v
theories/T_mono.v
theories/T_multi.v
theories/T_names.v
theories/T_names2.v
theories/T_online.v
theories/T_pieces.v
theories/T_pipe.v
theories/T_profilef.v
theories/T_readcut.v
theories/T_retf.v
theories/T_rootf.v
theories/T_sampling.v
theories/T_shapef.v
theories/T_shift.v
theories/T_shift2.v
theories/T_shiftpipe.v
theories/T_sizef.v
theories/T_store.v
theories/T_tbio.v
theories/T_tbm.v
theories/T_tbmf.v
theories/T_tickf.v
theories/T_trades.v
theories/T_transforms.v
theories/T_transforms2.v
theories/T_transforms3.v
theories/T_unitpipe.v
theories/T_units.v
theories/T_units2.v
theories/T_units3.v
theories/T_volat.v
theories/T_volat2.v
theories/T_volatf.v
theories/T_volpro.v
theories/T_volume.v
theories/T_weights.v
theories/T_weights2.v
theories/T_weightsf.v
