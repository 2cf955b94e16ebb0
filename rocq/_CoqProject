-Q theories Verif
theories/Base.v
theories/Bundle_Model.v
theories/Bundle_Spec.v
theories/Bundle_Proofs.v
theories/Bundle_Props.v
theories/Slicer_Model.v
theories/Slicer_Spec.v
theories/Slicer_Proofs.v
theories/Slicer_Props.v
theories/TimeSlicer_Model.v
theories/TimeSlicer_Spec.v
theories/TimeSlicer_Proofs.v
theories/TimeSlicer_Props.v
theories/GapMetrics_Model.v
theories/GapMetrics_Spec.v
theories/GapMetrics_Proofs.v
theories/GapMetrics_Props.v
theories/StatMetrics_Model.v
theories/StatMetrics_Spec.v
theories/StatMetrics_Proofs.v
theories/StatMetrics_Props.v
theories/Vector_Model.v
theories/Vector_Spec.v
theories/Vector_Proofs.v
theories/Vector_Props.v
theories/Depth_Model.v
theories/Depth_Spec.v
theories/Depth_Proofs.v
theories/Depth_Props.v
theories/ResultsDb_Model.v
theories/ResultsDb_Spec.v
theories/ResultsDb_Proofs.v
theories/ResultsDb_Props.v
theories/TrackingDb_Model.v
theories/TrackingDb_Spec.v
theories/TrackingDb_Proofs.v
theories/TrackingDb_Props.v
theories/Archive_Model.v
theories/Archive_Spec.v
theories/Archive_Proofs.v
theories/Archive_Props.v
theories/Calendar_Model.v
theories/Calendar_Spec.v
theories/Calendar_Proofs.v
theories/Calendar_Props.v
theories/Prenight_Model.v
theories/Prenight_Spec.v
theories/Prenight_Proofs.v
theories/Prenight_Props.v
theories/Stacker_Model.v
theories/Stacker_Spec.v
theories/Stacker_Proofs.v
theories/Stacker_Props.v
theories/Group_Model.v
theories/Group_Spec.v
theories/Group_Proofs.v
theories/Group_Props.v
theories/Technical_Model.v
theories/Technical_Spec.v
theories/Technical_Proofs.v
theories/Technical_Proofs2.v
theories/Technical_Proofs3.v
theories/Technical_Props.v
theories/VisitGroups_Model.v
theories/VisitGroups_Spec.v
theories/VisitGroups_Proofs.v
theories/VisitGroups_Props.v
theories/Transient_Model.v
theories/Transient_Spec.v
theories/Transient_Proofs.v
theories/Transient_Props.v
theories/MoObs_Model.v
theories/MoObs_Spec.v
theories/MoObs_Proofs.v
theories/MoObs_Proofs2.v
theories/MoObs_Proofs3.v
theories/MoObs_Proofs4.v
theories/MoObs_Props.v
theories/MoObs_Props2.v
theories/MoSum_Model.v
theories/MoSum_Spec.v
theories/MoSum_Proofs.v
theories/MoSum_Proofs2.v
theories/MoSum_Proofs3.v
theories/MoSum_Proofs4.v
theories/MoSum_Props.v
theories/MoSum_Props2.v
theories/MoGroup_Model.v
theories/MoGroup_Spec.v
theories/MoGroup_Proofs.v
theories/MoGroup_Props.v
theories/Astrom_Model.v
theories/Astrom_Spec.v
theories/Astrom_Proofs.v
theories/Astrom_Proofs2.v
theories/Astrom_Props.v
theories/Astrom_Props2.v
theories/MoMag_Model.v
theories/MoMag_Spec.v
theories/MoMag_Proofs.v
theories/MoMag_Proofs2.v
theories/MoMag_Props.v
theories/MoMag_Props2.v
theories/Resample_Model.v
theories/Resample_Spec.v
theories/Resample_Proofs.v
theories/Resample_Proofs2.v
theories/Resample_Proofs3.v
theories/Resample_Props.v
theories/Resample_Props2.v
theories/Phot_Model.v
theories/Phot_Spec.v
theories/Phot_Proofs.v
theories/Phot_Proofs2.v
theories/Phot_Props.v
theories/Phot_Proofs3.v
theories/Phot_Props2.v
theories/Phot_Props3.v
theories/Sed_Model.v
theories/Sed_Spec.v
theories/Sed_Proofs.v
theories/Sed_Props.v
theories/Sed_Proofs2.v
theories/Sed_Proofs3.v
theories/Sed_Props2.v
theories/Cheby_Model.v
theories/Cheby_Spec.v
theories/Cheby_Proofs.v
theories/Cheby_Proofs2.v
theories/Cheby_Proofs3.v
theories/Cheby_Proofs4.v
theories/Cheby_Proofs5.v
theories/Cheby_Props.v
theories/ChebySeg_Model.v
theories/ChebySeg_Spec.v
theories/ChebySeg_Proofs.v
theories/ChebySeg_Proofs2.v
theories/ChebySeg_Proofs3.v
theories/ChebySeg_Props.v
theories/ChebyEph_Model.v
theories/ChebyEph_Spec.v
theories/ChebyEph_Proofs.v
theories/ChebyEph_Props.v
theories/Orbits_Model.v
theories/Orbits_Spec.v
theories/Orbits_Proofs.v
theories/Orbits_Proofs2.v
theories/Orbits_Proofs3.v
theories/Orbits_Props.v
theories/Orbits_Props2.v
theories/OrbitsIO_Model.v
theories/OrbitsIO_Spec.v
theories/OrbitsIO_Proofs.v
theories/OrbitsIO_Proofs2.v
theories/OrbitsIO_Props.v
theories/OrbitsIO_Props2.v
theories/OrbitsIO_Props3.v
theories/DirectObs_Model.v
theories/DirectObs_Spec.v
theories/DirectObs_Proofs.v
theories/DirectObs_Proofs2.v
theories/DirectObs_Proofs3.v
theories/DirectObs_Proofs4.v
theories/DirectObs_Props.v
theories/DirectObs_Props2.v
theories/DirectObs_Props3.v
theories/SelfSolve_Model.v
theories/SelfSolve_Spec.v
theories/SelfSolve_Proofs.v
theories/SelfSolve_Proofs2.v
theories/SelfSolve_Proofs3.v
theories/SelfSolve_Props.v
theories/SelfCat_Model.v
theories/SelfCat_Spec.v
theories/SelfCat_Proofs.v
theories/SelfCat_Proofs2.v
theories/SelfCat_Props.v
theories/SatConst_Model.v
theories/SatConst_Spec.v
theories/SatConst_Proofs.v
theories/SatConst_Proofs2.v
theories/SatConst_Props.v
theories/SatConst_Proofs3.v
theories/SatConst_Props2.v
theories/SatConst_Proofs4.v
theories/SatConst_Props3.v
theories/Spatial_Model.v
theories/Spatial_Spec.v
theories/Spatial_Proofs.v
theories/Spatial_Props.v
theories/Spatial_Props2.v
theories/Spatial_Props3.v
theories/Small_Model.v
theories/Small_Spec.v
theories/Small_Proofs.v
theories/Small_Proofs2.v
theories/Small_Props.v
theories/Small_Props2.v
theories/Small_Props3.v
theories/Template_Model.v
theories/Template_Spec.v
theories/Template_Proofs.v
theories/Template_Proofs2.v
theories/Template_Props.v
theories/Template_Props2.v
theories/Lens_Model.v
theories/Lens_Spec.v
theories/Lens_Proofs.v
theories/Lens_Props.v
theories/Lens_Props2.v
theories/Lens_Props3.v
theories/Sky_Model.v
theories/Sky_Spec.v
theories/Sky_Proofs.v
theories/Sky_Proofs2.v
theories/Sky_Props.v
theories/Sky_Props2.v
theories/Sky_Props3.v
theories/Sky_Props4.v
theories/Maps_Model.v
theories/Maps_Spec.v
theories/Maps_Proofs.v
theories/Maps_Props.v
theories/Maps_Props2.v
theories/Maps_Props3.v
theories/Maps_Props4.v
theories/Crowd_Model.v
theories/Crowd_Spec.v
theories/Crowd_Proofs.v
theories/Crowd_Props.v
theories/Crowd_Props2.v
theories/Crowd_Props3.v
theories/Crowd_Props4.v
theories/Crowd_Props5.v
theories/Param_Model.v
theories/Param_Spec.v
theories/Param_Props.v
theories/Param_Props2.v
theories/Param_Props3.v
theories/Plane_Spec.v
theories/Plane_Model.v
theories/Plane_Props.v
theories/Plane_Props2.v
theories/Plane_Props3.v
theories/Plane_Props4.v
theories/Runs_Spec.v
theories/Runs_Model.v
theories/Runs_Props.v
theories/Runs_Props2.v
theories/Runs_Props3.v
theories/Runs_Props4.v
theories/Runs_Props5.v
theories/Runs_Props6.v
theories/Runs_Props7.v
theories/Pop_Spec.v
theories/Pop_Model.v
theories/Pop_Props.v
theories/Pop_Props2.v
theories/Pop_Props3.v
theories/Pop_Props4.v
theories/Pop_Props5.v
theories/Pop_Props6.v
theories/Pop_Props7.v
theories/Pop_Props8.v
theories/Pop_Props9.v
theories/Web_Spec.v
theories/Web_Model.v
theories/Web_Proofs.v
theories/Web_Props.v
theories/Web_Props2.v
theories/Web_Props3.v
theories/Web_Props4.v
theories/Micro_Model.v
theories/Micro_Spec.v
theories/Micro_Props.v
theories/Micro_Props2.v
theories/Micro_Proofs.v
theories/Micro_Props3.v
theories/Micro_Props4.v
theories/Micro_Props5.v
theories/Micro_Props6.v
theories/Micro_Props7.v
theories/Ascii_Model.v
theories/Ascii_Spec.v
theories/Ascii_Proofs.v
theories/Ascii_Proofs2.v
theories/Ascii_Proofs3.v
theories/Ascii_Proofs4.v
theories/Ascii_Props.v
theories/Ascii_Props2.v
theories/Ascii_Props3.v
theories/Handler_Model.v
theories/Handler_Spec.v
theories/Handler_Proofs.v
theories/Handler_Proofs2.v
theories/Handler_Proofs3.v
theories/Handler_Props.v
theories/Handler_Props2.v
theories/Handler_Props3.v
theories/Handler_Props4.v
theories/Period_Model.v
theories/Period_Spec.v
theories/Period_Proofs.v
theories/Period_Props.v
theories/Period_Props2.v
theories/Period_Props3.v
theories/Uniform_Model.v
theories/Uniform_Spec.v
theories/Uniform_Proofs.v
theories/Uniform_Props.v
theories/Uniform_Props2.v
theories/Young_Model.v
theories/Young_Spec.v
theories/Young_Props.v
theories/Young_Props2.v
theories/Young_Props3.v
theories/Starcount_Model.v
theories/Starcount_Spec.v
theories/Starcount_Props.v
theories/Starcount_Props2.v
theories/Bars_Model.v
theories/Bars_Spec.v
theories/Bars_Props.v
theories/Twod_Model.v
theories/Twod_Props.v
theories/Moplot_Model.v
theories/Moplot_Props.v
theories/Hplot_Model.v
theories/Hplot_Props.v
