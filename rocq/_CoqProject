-Q theories Verif
theories/Base.v
theories/IntRounded.v
theories/IntRounded_proofs.v
theories/Props_IntRounded.v
theories/Obs.v
theories/Queue.v
theories/Core.v
theories/Core_proofs.v
theories/Core_proofs2.v
theories/Core_rec.v
theories/Labels.v
theories/Props_Core.v
theories/Props_Labels.v
theories/Angles.v
theories/Jerk.v
theories/Jerk_proofs.v
theories/Props_Jerk.v
theories/Kinem.v
theories/Kinem_proofs.v
theories/Kinem_proofs2.v
theories/Props_Kinem.v
theories/Sim.v
theories/Sim_proofs.v
theories/Downtime.v
theories/Observatory.v
theories/Observatory_proofs.v
theories/SimCore.v
theories/SimRec.v
theories/Props_Observatory.v
theories/Props_Sim.v
theories/Script.v
theories/Script_proofs.v
theories/Props_Script.v
theories/Too.v
theories/Too_proofs.v
theories/Props_Too.v
theories/Surveys.v
theories/Surveys_proofs.v
theories/Props_Surveys.v
theories/Blob.v
theories/Blob_proofs.v
theories/Blob_grow.v
theories/Props_Blob.v
theories/Feat.v
theories/Feat_proofs.v
theories/Feat_proofs2.v
theories/Feat_pairs.v
theories/Props_Feat.v
theories/Bisect.v
theories/Bands.v
theories/Bands_proofs.v
theories/Props_Bands.v
theories/Util.v
theories/Util_proofs.v
theories/Props_Util.v
theories/Schema.v
theories/Schema_proofs.v
theories/Props_Schema.v
theories/Summit.v
theories/Summit_proofs.v
theories/Props_Summit.v
theories/Tsp.v
theories/Tsp_proofs.v
theories/Props_Tsp.v
theories/Cond.v
theories/Cond_proofs.v
theories/Props_Cond.v
theories/Shadow.v
theories/Shadow_proofs.v
theories/Props_Shadow.v
theories/DetOrder.v
theories/DetOrder_proofs.v
theories/Props_DetOrder.v
theories/DetEdit.v
theories/DetEdit_proofs.v
theories/Props_DetEdit.v
theories/Rot.v
theories/Rot_proofs.v
theories/Props_Rot.v
theories/Dither.v
theories/Dither_proofs.v
theories/Props_Dither.v
theories/RegLabel.v
theories/RegLabel_proofs.v
theories/Props_RegLabel.v
theories/VaryExpt.v
theories/VaryExpt_proofs.v
theories/Props_VaryExpt.v
theories/GateLoop.v
theories/GateLoop_proofs.v
theories/Props_GateLoop.v
theories/BfCall.v
theories/BfCall_proofs.v
theories/Props_BfCall.v
theories/TimeGate.v
theories/TimeGate_proofs.v
theories/Props_TimeGate.v
theories/MaskLoop.v
theories/MaskLoop_proofs.v
theories/Props_MaskLoop.v
theories/Turn.v
theories/Turn_proofs.v
theories/Props_Turn.v
theories/Sky.v
theories/Sky_proofs.v
theories/Props_Sky.v
theories/Foot.v
theories/Foot_proofs.v
theories/Foot_proofs2.v
theories/Foot_proofs3.v
theories/Props_Foot.v
theories/Cadence.v
theories/Cadence_proofs.v
theories/Props_Cadence.v
theories/SeasonBf.v
theories/SeasonBf_proofs.v
theories/Props_SeasonBf.v
theories/SiteData.v
theories/SiteData_proofs.v
theories/Props_SiteData.v
theories/DownGen.v
theories/DownGen_proofs.v
theories/Props_DownGen.v
theories/Almanac.v
theories/Props_Almanac.v
theories/Seeing.v
theories/Seeing_proofs.v
theories/Props_Seeing.v
theories/Pointings.v
theories/Pointings_proofs.v
theories/Props_Pointings.v
theories/LongGap.v
theories/LongGap_proofs.v
theories/Props_LongGap.v
theories/SkyPre.v
theories/SkyPre_proofs.v
theories/Props_SkyPre.v
theories/Ddf.v
theories/Ddf_proofs.v
theories/Props_Ddf.v
theories/Props_DdfGen.v
theories/SkyArea.v
theories/SkyArea_proofs.v
theories/Props_SkyArea.v
theories/Sphere.v
theories/Sphere_proofs.v
theories/Props_Sphere.v
theories/Props_Bearing.v
theories/Horizon.v
theories/Horizon_proofs.v
theories/Props_Horizon.v
theories/Htm.v
theories/Htm_proofs.v
theories/HtmAll_proofs.v
theories/Props_Htm.v
theories/HtmHalf.v
theories/HtmBounds_proofs.v
theories/HtmHalf_proofs.v
theories/HtmFind_proofs.v
theories/Props_HtmHalf.v
theories/Props_HtmRanges.v
theories/Props_HtmCircles.v
theories/HealBin.v
theories/HealBin_proofs.v
theories/Props_HealBin.v
theories/Fov.v
theories/Fov_proofs.v
theories/Props_GrowMask.v
theories/Props_Fov.v
theories/CamFoot.v
theories/Props_CamFoot.v
theories/Sampling.v
theories/Props_Sampling.v
theories/Tess.v
theories/Tess_proofs.v
theories/Props_Tess.v
theories/RiseSet.v
theories/Props_RiseSet.v
theories/ConsDb.v
theories/Props_ConsDb.v
theories/Zernike.v
theories/Zernike_proofs.v
theories/Props_Zernike.v
theories/NightTimes.v
theories/Props_NightTimes.v
theories/ObsArray.v
theories/Props_ObsArray.v
theories/LsstSurveys.v
theories/Props_LsstSurveys.v
theories/GenEvents.v
theories/GenEvents_proofs.v
theories/Props_GenEvents.v
theories/DdfSeq.v
theories/Props_DdfSeq.v
theories/Roman.v
theories/Props_Roman.v
theories/Baseline.v
theories/Props_Baseline.v
theories/Simple.v
theories/Props_Simple.v
theories/ConsObs.v
theories/ConsObs_proofs.v
theories/Props_ConsObs.v
theories/ShortExpt.v
theories/Props_ShortExpt.v
theories/SchedDown.v
theories/Props_SchedDown.v
theories/Download.v
theories/Props_Download.v
theories/RewardDf.v
theories/RewardDf_proofs.v
theories/Props_RewardDf.v
theories/SkyFiles.v
theories/SkyFiles_proofs.v
theories/Props_SkyFiles.v
theories/PointingsDf.v
theories/Props_PointingsDf.v
theories/SiteParams.v
theories/Props_SiteParams.v
theories/SpecPaths.v
theories/Props_SpecPaths.v
theories/LongGapDf.v
theories/Props_LongGapDf.v
theories/FieldAltAz.v
theories/Props_FieldAltAz.v
theories/Wind.v
theories/Props_Wind.v
theories/DdfGrid.v
theories/Props_DdfGrid.v
theories/Restore.v
theories/Restore_proofs.v
theories/Props_Restore.v
theories/CondSet.v
theories/Props_CondSet.v
theories/OrderSky.v
theories/Props_OrderSky.v
theories/Spin.v
theories/Spin_proofs.v
theories/Props_Spin.v
theories/Shown.v
theories/Shown_proofs.v
theories/Props_Shown.v
theories/TargetM5.v
theories/Props_TargetM5.v
theories/Ephem.v
theories/Props_Ephem.v
theories/Raster.v
theories/Props_Raster.v
theories/WarmStart.v
theories/Props_WarmStart.v
theories/SharedArray.v
theories/Props_SharedArray.v
theories/DdBfs.v
theories/Props_DdBfs.v
theories/SeasonOffset.v
theories/Props_SeasonOffset.v
theories/CleanUp.v
theories/Props_CleanUp.v
theories/FieldGates.v
theories/Props_FieldGates.v
theories/NormFactor.v
theories/Props_NormFactor.v
theories/Percent.v
theories/Percent_proofs.v
theories/Props_Percent.v
theories/Quickest_proofs.v
theories/Quickest_phases.v
theories/Props_Quickest.v
theories/Faster_proofs.v
theories/Props_Faster.v
theories/SlewArray.v
theories/Props_SlewArray.v
theories/Quickest_ramp.v
theories/Props_SimEnds.v
theories/Whole.v
theories/Props_Whole.v
theories/RewardLog.v
theories/Props_RewardLog.v
theories/Props_KinemMore.v
theories/PlanAhead.v
theories/Props_PlanAhead.v
theories/InSeason.v
theories/Props_InSeason.v
theories/RunInfo.v
theories/Props_RunInfo.v
theories/ReadFields.v
theories/Props_ReadFields.v
