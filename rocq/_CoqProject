-Q theories Verif
theories/Base.v
theories/Base_lemmas.v
theories/Text_lemmas.v
theories/Version_model.v
theories/Version_spec.v
theories/Version_proofs.v
theories/Version_order.v
theories/Version_hash.v
theories/P_Version.v
theories/Range_model.v
theories/Range_spec.v
theories/Range_proofs.v
theories/Range_text.v
theories/Range_compat.v
theories/P_Range.v
theories/Requirement_model.v
theories/Requirement_spec.v
theories/Requirement_proofs.v
theories/Requirement_text.v
theories/Requirement_package.v
theories/P_Requirement.v
theories/Maps.v
theories/Sorting.v
theories/Json.v
theories/Package_model.v
theories/Order_model.v
theories/Order_spec.v
theories/Order_proofs.v
theories/P_Order.v
theories/Dfs.v
theories/Solver_model.v
theories/Solver_spec.v
theories/Solver_proofs.v
theories/Solver_result.v
theories/Solver_ends.v
theories/P_Solver.v
theories/Graph_model.v
theories/Graph_spec.v
theories/Graph_proofs.v
theories/Graph_topo.v
theories/Graph_cycle.v
theories/Graph_misc.v
theories/P_Graph.v
theories/Base26_model.v
theories/Base26_spec.v
theories/Base26_proofs.v
theories/Base26_links.v
theories/P_Base26.v
theories/Payload_model.v
theories/Payload_spec.v
theories/Payload_proofs.v
theories/Payload_seq.v
theories/Payload_misc.v
theories/Payload_crash.v
theories/P_Payload.v
theories/Filter_model.v
theories/Filter_spec.v
theories/Filter_proofs.v
theories/P_Filter.v
theories/Rex_model.v
theories/Rex_spec.v
theories/Rex_proofs.v
theories/Rex_shell.v
theories/Rex_parse.v
theories/P_Rex.v
theories/Env_model.v
theories/Env_spec.v
theories/Env_proofs.v
theories/Env_gen.v
theories/Env_path.v
theories/Env_misc.v
theories/Env_context.v
theories/P_Env.v
theories/Codec.v
theories/Suite_model.v
theories/Suite_spec.v
theories/Suite_proofs.v
theories/P_Suite.v
theories/Cache_model.v
theories/Cache_spec.v
theories/Cache_proofs.v
theories/Cache_conc.v
theories/P_Cache.v
theories/Locks_model.v
theories/Locks_spec.v
theories/Locks_proofs.v
theories/Rcache_model.v
theories/Rcache_spec.v
theories/Rcache_proofs.v
theories/P_Rcache.v
theories/Repo_model.v
theories/Repo_spec.v
theories/Repo_proofs.v
theories/P_Repo.v
theories/Rctx_model.v
theories/Rctx_spec.v
theories/Rctx_proofs.v
theories/P_Rctx.v
theories/Suite_edits.v
theories/Search_model.v
theories/Search_spec.v
theories/Search_tree.v
theories/Search_queue.v
theories/Search_proofs.v
theories/P_Search.v
theories/Files_model.v
theories/Files_spec.v
theories/Files_proofs.v
theories/P_Files.v
theories/Astar_model.v
theories/Astar_spec.v
theories/Astar_proofs.v
theories/Astar_complete.v
theories/P_Astar.v
theories/Defs_model.v
theories/Defs_spec.v
theories/Defs_proofs.v
theories/P_Defs.v
theories/Pyfile_model.v
theories/Pyfile_spec.v
theories/Pyfile_format.v
theories/Pyfile_proofs.v
theories/Pyfile_files.v
theories/Pyfile_commands.v
theories/P_Pyfile.v
theories/Pkgfile_model.v
theories/Pkgfile_spec.v
theories/Pkgfile_python.v
theories/Pkgfile_loads.v
theories/Pkgfile_writers.v
theories/Pkgfile_proofs.v
theories/Pkgfile_files.v
theories/Pkgfile_whole.v
theories/P_Pkgfile.v
theories/Expand_model.v
theories/Expand_spec.v
theories/Expand_proofs.v
theories/P_Expand.v
theories/Config_model.v
theories/Config_spec.v
theories/Config_proofs.v
theories/Config_env.v
theories/Config_load.v
theories/Config_core.v
theories/P_Config.v
theories/Diff_model.v
theories/Diff_spec.v
theories/Diff_proofs.v
theories/Diff_command.v
theories/P_Diff.v
theories/Query_model.v
theories/Query_spec.v
theories/Query_proofs.v
theories/P_Query.v
theories/Clash_model.v
theories/Clash_spec.v
theories/Clash_proofs.v
theories/P_Clash.v
theories/Release_model.v
theories/Release_spec.v
theories/Release_proofs.v
theories/Release_whole.v
theories/Release_cli.v
theories/P_Release.v
theories/Pip_model.v
theories/Pip_spec.v
theories/Pip_proofs.v
theories/Pip_files.v
theories/Pip_command.v
theories/P_Pip.v
theories/Shelf_model.v
theories/Shelf_spec.v
theories/Shelf_proofs.v
theories/Shelf_remove.v
theories/P_Shelf.v
theories/Bundle_model.v
theories/Bundle_spec.v
theories/Bundle_text.v
theories/Bundle_proofs.v
theories/Bundle_disk.v
theories/P_Bundle.v
theories/Build_model.v
theories/Build_spec.v
theories/Build_proofs.v
theories/Build_text.v
theories/Build_disk.v
theories/P_Build.v
theories/Try_model.v
theories/Try_spec.v
theories/Try_proofs.v
theories/Try_more.v
theories/P_Try.v
theories/Bind_model.v
theories/Bind_spec.v
theories/Bind_text.v
theories/Bind_files.v
theories/Bind_disk.v
theories/P_Bind.v
theories/Scan_model.v
theories/Scan_spec.v
theories/Scan_proofs.v
theories/Scan_repo.v
theories/Scan_walk.v
theories/P_Scan.v
theories/Update_model.v
theories/Update_spec.v
theories/Update_proofs.v
theories/Update_more.v
theories/Update_main.v
theories/P_Update.v
theories/Util_model.v
theories/Util_spec.v
theories/P_Util.v
theories/Outcome_model.v
theories/Outcome_spec.v
theories/Outcome_proofs.v
theories/P_Outcome.v
theories/Attr_model.v
theories/Attr_spec.v
theories/Attr_proofs.v
theories/P_Attr.v
theories/Uri_model.v
theories/Uri_spec.v
theories/Uri_proofs.v
theories/P_Uri.v
theories/Scmd_model.v
theories/Scmd_spec.v
theories/Scmd_proofs.v
theories/P_Scmd.v
theories/Hook_model.v
theories/Hook_spec.v
theories/Hook_proofs.v
theories/P_Hook.v
