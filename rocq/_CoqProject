-Q theories Verif
theories/M_base.v
theories/M_stack.v
theories/M_graph.v
theories/M_analysis.v
theories/S_graph.v
theories/L_base.v
theories/L_trav.v
theories/L_kosaraju.v
theories/L_topo.v
theories/L_charge.v
theories/L_analysis.v
theories/L_maxprops.v
theories/X_graph.v
theories/P_analysis.v
theories/M_filter.v
theories/S_filter.v
theories/L_filter.v
theories/L_filter2.v
theories/P_filter.v
theories/M_names.v
theories/M_render.v
theories/M_write.v
theories/S_names.v
theories/S_render.v
theories/L_names.v
theories/L_render.v
theories/L_render2.v
theories/L_write.v
theories/P_names.v
theories/P_render.v
theories/M_thumb.v
theories/S_thumb.v
theories/L_thumb.v
theories/L_thumb2.v
theories/L_thumb3.v
theories/L_thumb4.v
theories/X_thumb.v
theories/L_thumb5.v
theories/L_thumb6.v
theories/P_thumb.v
theories/P_sweep.v
theories/M_nom.v
theories/M_ty.v
theories/M_parse.v
theories/X_parse.v
theories/S_sig.v
theories/S_ir.v
theories/L_nom.v
theories/L_ir1.v
theories/L_ir2.v
theories/L_ir3.v
theories/L_ir4.v
theories/L_ir5.v
theories/L_ir6.v
theories/L_ir7.v
theories/L_ir8.v
theories/L_ir9.v
theories/P_ir.v
theories/M_build.v
theories/S_build.v
theories/L_build1.v
theories/L_build2.v
theories/L_build3.v
theories/L_build4.v
theories/L_build5.v
theories/L_build6.v
theories/L_build7.v
theories/X_build.v
theories/L_build8.v
theories/L_build9.v
theories/M_run.v
theories/S_run.v
theories/L_u64.v
theories/L_run.v
theories/L_run2.v
theories/P_build.v
theories/P_run.v
theories/M_log.v
theories/L_log.v
theories/S_log.v
theories/L_log2.v
theories/L_literal.v
theories/L_log3.v
theories/L_log4.v
theories/L_log5.v
theories/L_log6.v
theories/L_log7.v
theories/M_wrapper.v
theories/M_driver.v
theories/S_driver.v
theories/L_driver1.v
theories/L_driver2.v
theories/L_path.v
theories/L_driver3.v
theories/L_driver4.v
theories/L_driver5.v
theories/X_driver.v
theories/X_findings.v
theories/P_driver.v
theories/P_driver2.v
theories/S_machine.v
theories/L_machine.v
theories/L_branch.v
theories/X_machine.v
theories/L_machine2.v
theories/L_report.v
theories/L_report2.v
theories/X_report.v
theories/L_total.v
theories/L_driver6.v
theories/X_total.v
theories/P_report.v
theories/X_machine2.v
theories/P_machine.v
theories/P_total.v
theories/L_log8.v
theories/L_log9.v
theories/L_log10.v
theories/X_log.v
theories/P_log.v
theories/S_mono.v
theories/L_mono.v
theories/P_mono.v
theories/S_pair.v
theories/S_calls.v
theories/L_calls1.v
theories/L_calls2.v
theories/L_calls3.v
theories/L_calls4.v
theories/L_calls5.v
theories/L_calls6.v
theories/S_exact.v
theories/L_exact.v
theories/P_calls.v
theories/L_pair.v
theories/X_pair.v
theories/P_pair.v
theories/M_cli.v
theories/S_cli.v
theories/L_cli.v
theories/L_cli2.v
theories/X_cli.v
theories/P_cli.v
theories/M_debug.v
theories/S_debug.v
theories/L_debug1.v
theories/L_debug2.v
theories/L_debug3.v
theories/L_debug4.v
theories/L_debug5.v
theories/L_debug6.v
theories/L_debug7.v
theories/P_debug.v
theories/S_move.v
theories/L_move.v
theories/X_move.v
theories/P_move.v
theories/S_same.v
theories/L_same.v
theories/S_samelog.v
theories/L_samelog.v
theories/L_same2.v
theories/X_same.v
theories/P_same.v
theories/X_samelog.v
theories/P_samelog.v
theories/S_noise.v
theories/L_noise.v
theories/L_noise2.v
theories/X_noise.v
theories/P_noise.v
theories/S_wrapper.v
theories/L_wrapper.v
theories/X_wrapper.v
theories/P_wrapper.v
theories/S_rename.v
theories/L_rename.v
theories/L_rename2.v
theories/L_rename3.v
theories/X_rename.v
theories/S_renlog.v
theories/L_renlog.v
theories/X_renlog.v
theories/P_rename.v
theories/S_early.v
theories/L_early.v
theories/X_early.v
theories/P_early.v
theories/S_attain.v
theories/L_attain.v
theories/X_attain.v
theories/P_attain.v
theories/S_ends.v
theories/L_nofail.v
theories/L_ends.v
theories/X_ends.v
theories/P_ends.v
theories/S_finite.v
theories/L_nofuel.v
theories/L_finite.v
theories/X_finite.v
theories/P_finite.v
theories/S_format.v
theories/L_format.v
theories/X_format.v
theories/P_format.v
theories/S_part.v
theories/L_part.v
theories/L_part2.v
theories/X_part.v
theories/P_part.v
theories/S_bounded.v
theories/L_bounded.v
theories/X_bounded.v
theories/P_bounded.v
theories/S_aliases.v
theories/L_aliases.v
theories/L_aliases2.v
theories/X_aliases.v
theories/P_aliases.v
theories/S_below.v
theories/S_prints.v
theories/L_below.v
theories/L_below2.v
theories/X_below.v
theories/P_below.v
theories/S_more.v
theories/L_more.v
theories/X_more.v
theories/L_below3.v
theories/X_below2.v
theories/P_more.v
theories/S_fewer.v
theories/L_fewer.v
theories/L_fewer2.v
theories/X_fewer.v
theories/X_fewer2.v
theories/P_fewer.v
theories/S_resize.v
theories/L_resize.v
theories/L_resize2.v
theories/X_resize.v
theories/P_resize.v
theories/S_fold.v
theories/L_fold.v
theories/L_fold2.v
theories/L_fold3.v
theories/X_fold.v
theories/S_types.v
theories/X_types.v
theories/P_types.v
theories/P_fold.v
theories/S_silent.v
theories/L_silent.v
theories/X_silent.v
theories/P_silent.v
theories/S_direct.v
theories/L_direct.v
theories/S_silent2.v
theories/L_silent2.v
theories/X_silent2.v
theories/X_silent3.v
theories/P_silent2.v
theories/X_direct.v
theories/X_direct2.v
theories/P_direct.v
