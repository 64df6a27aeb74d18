-Q theories Verif
theories/Prelude.v
theories/TypeFitting.v
theories/TypeFitting_spec.v
theories/TypeFitting_proofs.v
theories/Props_TypeFitting.v
theories/Np2h5.v
theories/Np2h5_spec.v
theories/Np2h5_proofs.v
theories/H52np.v
theories/H52np_spec.v
theories/H52np_proofs.v
theories/Props_Buffers.v
theories/ListFacts.v
theories/ExtSort.v
theories/ExtSort_spec.v
theories/ExtSort_proofs.v
theories/Props_Sort.v
theories/Pairs.v
theories/Pairs_spec.v
theories/Pairs_proofs.v
theories/Props_Pairs.v
theories/Sampler.v
theories/Sampler_spec.v
theories/Sampler_proofs.v
theories/Sampler_uniform.v
theories/Props_Sampler.v
theories/Task.v
theories/Task_spec.v
theories/Task_blocks.v
theories/Task_sort.v
theories/Task_regs.v
theories/Task_gen.v
theories/Task_file.v
theories/Task_proofs.v
theories/Task_main.v
theories/Task_total.v
theories/Task_ex.v
theories/Task_refuted.v
theories/Props_Task.v
theories/Task_stats_spec.v
theories/Task_stats.v
theories/Task_stats_ex.v
theories/Task_abx.v
theories/Props_TaskStats.v
theories/Task_reg_spec.v
theories/Task_align.v
theories/Task_reg_ex.v
theories/Props_Regressors.v
theories/Distances.v
theories/Distances_spec.v
theories/Distances_jobs.v
theories/Distances_proofs.v
theories/Distances_run.v
theories/Distances_main.v
theories/Distances_ex.v
theories/Props_Distances.v
theories/Rounding.v
theories/Score.v
theories/Score_spec.v
theories/Score_proofs.v
theories/Outputs.v
theories/Score_ex.v
theories/Props_Score.v
theories/Analyze.v
theories/Analyze_spec.v
theories/Analyze_runs.v
theories/Analyze_keys.v
theories/Analyze_proofs.v
theories/Analyze_main.v
theories/Analyze_account.v
theories/Analyze_ex.v
theories/Props_Analyze.v
theories/H5io.v
theories/H5io_spec.v
theories/H5io_proofs.v
theories/H5io_keys.v
theories/H5io_main.v
theories/H5io_use.v
theories/H5io_reject.v
theories/H5io_ex.v
theories/Props_H5io.v
theories/Dtw.v
theories/Dtw_spec.v
theories/Dtw_proofs.v
theories/Dtw_ex.v
theories/Props_Dtw.v
theories/Utw.v
theories/Utw_spec.v
theories/Utw_proofs.v
theories/Utw_main.v
theories/Utw_ex.v
theories/Props_Utw.v
theories/Tree.v
theories/Tree_spec.v
theories/Tree_proofs.v
theories/Tree_ex.v
theories/Props_Tree.v
theories/SideOps.v
theories/SideOps_spec.v
theories/SideOps_proofs.v
theories/SideOps_stages.v
theories/SideOps_staged.v
theories/SideOps_meaning.v
theories/SideOps_user.v
theories/SideOps_legal.v
theories/SideOps_final.v
theories/SideOps_ex.v
theories/Props_SideOps.v
theories/Database.v
theories/Database_spec.v
theories/Database_proofs.v
theories/Database_blocks.v
theories/Database_dropped.v
theories/Database_ex.v
theories/Props_Database.v
theories/Text.v
theories/Items.v
theories/Items_proofs.v
theories/Props_Items.v
theories/Any2h5.v
theories/Any2h5_proofs.v
theories/Props_Any2h5.v
theories/Metrics.v
theories/Metrics_spec.v
theories/Metrics_proofs.v
theories/Metrics_cosine.v
theories/Metrics_kl.v
theories/Metrics_heap.v
theories/Metrics_values.v
theories/Metrics_nan.v
theories/Metrics_ex.v
theories/Props_Metrics.v
theories/LookupTable.v
theories/LookupTable_spec.v
theories/LookupTable_keys.v
theories/LookupTable_proofs.v
theories/LookupTable_main.v
theories/LookupTable_ex.v
theories/Props_LookupTable.v
theories/Pipeline.v
theories/Pipeline_spec.v
theories/Pipeline_regs.v
theories/Pipeline_file.v
theories/Pipeline_proofs.v
theories/Pipeline_ex.v
theories/Props_Pipeline.v
theories/PyCall.v
theories/DefaultDistance.v
theories/Dtw_hom.v
theories/DefaultDistance_spec.v
theories/DefaultDistance_proofs.v
theories/DefaultDistance_ex.v
theories/Props_DefaultDistance.v
theories/DistanceCommand.v
theories/RunAll.v
theories/Commands_spec.v
theories/Commands_proofs.v
theories/Commands_ex.v
theories/Props_Commands.v
theories/Levels.v
theories/Levels_spec.v
theories/Levels_proofs.v
theories/Levels_ex.v
theories/Props_Levels.v
theories/StepCommands.v
theories/StepCommands_spec.v
theories/StepCommands_proofs.v
theories/StepCommands_ex.v
theories/Props_StepCommands.v
theories/Compute.v
theories/Compute_spec.v
theories/Compute_proofs.v
theories/Compute_ex.v
theories/Props_Compute.v
theories/ScoreFile_proofs.v
theories/Props_ScoreFile.v
theories/TaskIndex_spec.v
theories/TaskIndex_proofs.v
theories/TaskIndex_ex.v
theories/TaskIndex_thr.v
theories/Props_TaskIndex.v
theories/Pipeline_thr.v
theories/Threshold_ex.v
theories/Props_Threshold.v
theories/Pipeline_ascii.v
theories/Ascii_ex.v
theories/Props_Ascii.v
theories/AnalyzeText.v
theories/AnalyzeText_spec.v
theories/AnalyzeText_proofs.v
theories/AnalyzeText_ex.v
theories/Props_AnalyzeText.v
theories/SideOps_unusable_spec.v
theories/SideOps_unusable.v
theories/Unusable_ex.v
theories/Props_Unusable.v
theories/Pipeline_text.v
theories/Props_PipelineText.v
theories/H5Names.v
theories/H5ioFile.v
theories/H5Names_proofs.v
theories/H5ioFile_spec.v
theories/H5ioFile_proofs.v
theories/H5ioFile_main.v
theories/H5ioFile_life.v
theories/H5ioFile_ex.v
theories/Props_H5ioFile.v
theories/TaskGroups.v
theories/TaskGroups_proofs.v
theories/TaskGroups_ex.v
theories/TaskGroups_pipeline.v
theories/TaskGroups_pipeline_ex.v
theories/Props_TaskGroups.v
theories/ExampleDistances.v
theories/ExampleDistances_proofs.v
theories/Props_ExampleDistances.v
theories/Task_thr_total.v
theories/Task_thr_spec.v
theories/Task_thr_ends.v
theories/Task_thr_ex.v
theories/Props_ThresholdEnds.v
theories/Task_approx_spec.v
theories/Task_approx.v
theories/Task_approx_ex.v
theories/Props_Approx.v
theories/Pipeline_same_spec.v
theories/Pipeline_same.v
theories/Pipeline_same_main.v
theories/Pipeline_same_ex.v
theories/Props_PipelineSame.v
theories/NotFinite_spec.v
theories/NotFinite_proofs.v
theories/Props_NotFinite.v
theories/Score_nan.v
theories/Props_ScoreNan.v
theories/Pipeline_scores_spec.v
theories/Pipeline_scores.v
theories/Pipeline_scores_ex.v
theories/Props_PipelineScores.v
theories/Pipeline_map_spec.v
theories/Invariance_spec.v
theories/Invariance_proofs.v
theories/Invariance_ex.v
theories/Pipeline_map.v
theories/Pipeline_default.v
theories/Pipeline_default_ex.v
theories/Props_Invariance.v
theories/TreeHeap.v
theories/TreeHeap_spec.v
theories/TreeHeap_proofs.v
theories/TreeHeap_walk.v
theories/TreeHeap_ex.v
theories/Props_TreeHeap.v
theories/FloatDistance.v
theories/Binary64.v
theories/FloatDistance_spec.v
theories/FloatDistance_proofs.v
theories/FloatDistance_error.v
theories/FloatDistance_exact.v
theories/FloatDistance_jump.v
theories/FloatDistance_ex.v
theories/Props_FloatDistance.v
theories/FloatFormat_spec.v
theories/FloatFormat_proofs.v
theories/FloatFormat_ex.v
theories/Props_FloatFormat.v
theories/Progress.v
theories/Verbose.v
theories/Progress_spec.v
theories/Verbose_spec.v
theories/Progress_proofs.v
theories/Verbose_proofs.v
theories/Verbose_gen.v
theories/Verbose_main.v
theories/Props_Verbose.v
theories/RoundEval_spec.v
theories/RoundEval_lines.v
theories/RoundEval_proofs.v
theories/RoundEval_ex.v
theories/Props_RoundEval.v
theories/FloatRange_spec.v
theories/FloatRange_proofs.v
theories/FloatRange_main.v
theories/FloatRange_ex.v
theories/FloatRange_eval_ex.v
theories/Props_FloatRange.v
theories/Frozen_data.v
theories/Frozen_ex.v
theories/Tests_ex.v
theories/Chance_spec.v
theories/Chance_count.v
theories/Chance_law.v
theories/Chance_sample.v
theories/Chance_runs.v
theories/Chance_core.v
theories/Chance_block.v
theories/Chance_task.v
theories/Chance_ex.v
theories/Props_Chance.v
theories/Expect_spec.v
theories/Expect.v
theories/Expect_task.v
theories/Expect_ex.v
theories/Props_Expect.v
theories/Unbiased_spec.v
theories/Unbiased_made.v
theories/Unbiased.v
theories/Unbiased_main.v
theories/Unbiased_ex.v
theories/Props_Unbiased.v
theories/Task_neg.v
theories/Task_neg_ex.v
theories/Props_Negative.v
theories/Task_count.v
theories/Props_Count.v
theories/VerboseFile.v
theories/VerboseFile_spec.v
theories/VerboseFile_main.v
theories/Props_VerboseFile.v
theories/NegFile.v
theories/NegFile_ex.v
theories/Props_NegFile.v
theories/TaskArgs.v
theories/TaskArgs_spec.v
theories/TaskArgs_main.v
theories/Props_TaskArgs.v
theories/TaskLines_spec.v
theories/TaskLines_main.v
theories/TaskLines_ex.v
theories/Props_TaskLines.v
theories/TotalLines_spec.v
theories/TotalLines_main.v
theories/TotalLines_ex.v
theories/Props_TotalLines.v
theories/FilterTexts.v
theories/FilterTexts_main.v
theories/FilterTexts_file.v
theories/FilterTexts_regressors.v
theories/FilterTexts_ex.v
theories/Props_FilterTexts.v
theories/RegressorInfo.v
theories/RegressorInfo_main.v
theories/RegressorInfo_texts.v
theories/RegressorInfo_ex.v
theories/Props_RegressorInfo.v
