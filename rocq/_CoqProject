-Q theories Verif
theories/Base/QcExtra.v
theories/Base/ISort.v
theories/Base/Quantile.v
theories/Base/Fl.v
theories/Base/Calendar.v
theories/Base/TimeSeries.v
theories/Base/Segments.v
theories/Base/Rolling.v
theories/Model/Utilities.v
theories/Model/Bootstrap.v
theories/Model/YearOnYear.v
theories/Spec/Stats.v
theories/Spec/Time.v
theories/Proofs/StatsP.v
theories/Props/C01.v
theories/Spec/YoY.v
theories/Spec/Window.v
theories/Spec/Upsampled.v
theories/Spec/Trend.v
theories/Spec/RawPower.v
theories/Spec/Reorder.v
theories/Spec/Delay.v
theories/Spec/CleanRun.v
theories/Spec/Superposition.v
theories/Spec/Wrong.v
theories/Spec/Unknown.v
theories/Proofs/YoYP.v
theories/Proofs/FlP.v
theories/Proofs/YoYP2.v
theories/Proofs/YoYP3.v
theories/Proofs/WindowP.v
theories/Proofs/SuperP.v
theories/Proofs/SuperP2.v
theories/Proofs/NormLinP.v
theories/Proofs/AggLinP.v
theories/Proofs/NormMonoP.v
theories/Proofs/WrongP.v
theories/Proofs/UnknownP.v
theories/Proofs/TwoStepsP.v
theories/Proofs/TwoStepsP2.v
theories/Spec/Sawtooth.v
theories/Proofs/SawP.v
theories/Proofs/SawP2.v
theories/Proofs/SawP3.v
theories/Spec/Fading.v
theories/Proofs/FadingP.v
theories/Proofs/BootP.v
theories/Props/YoYDemo.v
theories/Props/C02.v
theories/Props/C03.v
theories/Props/C04.v
theories/Props/C05.v
theories/Props/C06.v
theories/Props/C07.v
theories/Props/C08.v
theories/Props/C09.v
theories/Model/Regression.v
theories/Spec/Regression.v
theories/Proofs/RegressionP.v
theories/Proofs/RegressionP2.v
theories/Proofs/MannKendallP.v
theories/Proofs/ClassicalP.v
theories/Props/C10.v
theories/Props/C11.v
theories/Props/C12.v
theories/Props/C13.v
theories/Props/C14.v
theories/Model/Interpolation.v
theories/Model/Energy.v
theories/Spec/Interp.v
theories/Spec/Energy.v
theories/Proofs/InterpP.v
theories/Proofs/EnergyP.v
theories/Proofs/EnergyP2.v
theories/Proofs/EnergyP3.v
theories/Proofs/EnergyP4.v
theories/Proofs/EnergyP5.v
theories/Proofs/EnergyP6.v
theories/Props/C15.v
theories/Props/C16.v
theories/Props/C17.v
theories/Model/Filters.v
theories/Model/Normalization.v
theories/Model/Clipping.v
theories/Model/ClipFeatures.v
theories/Model/Availability.v
theories/Model/Soiling.v
theories/Spec/Filters.v
theories/Spec/Normalization.v
theories/Spec/Clipping.v
theories/Spec/ClipFeatures.v
theories/Spec/Availability.v
theories/Spec/Soiling.v
theories/Proofs/FiltersP.v
theories/Proofs/FiltersP2.v
theories/Proofs/FiltersP3.v
theories/Proofs/UncertaintyP.v
theories/Proofs/NormP.v
theories/Proofs/NormP2.v
theories/Proofs/NormP3.v
theories/Proofs/NormP4.v
theories/Proofs/ClipP.v
theories/Proofs/ClipP2.v
theories/Proofs/ClipP3.v
theories/Proofs/ClipP4.v
theories/Proofs/ClipFeatP.v
theories/Proofs/ClipFeatP2.v
theories/Proofs/AvailP.v
theories/Proofs/AvailP2.v
theories/Proofs/AvailP3.v
theories/Proofs/AvailP4.v
theories/Proofs/EnergyP7.v
theories/Proofs/AvailP5.v
theories/Proofs/AvailP6.v
theories/Proofs/AvailP7.v
theories/Proofs/AvailP8.v
theories/Proofs/AvailP9.v
theories/Proofs/AvailP10.v
theories/Proofs/AvailP11.v
theories/Proofs/AvailP12.v
theories/Model/SoilingSummary.v
theories/Model/CodsTools.v
theories/Model/CodsKalman.v
theories/Model/Cods.v
theories/Spec/Cods.v
theories/Spec/Seasonal.v
theories/Spec/CodsRun.v
theories/Spec/CodsStep.v
theories/Spec/Clean.v
theories/Spec/Kalman.v
theories/Spec/CodsBoot.v
theories/Spec/Tracking.v
theories/Spec/TrackingSetup.v
theories/Proofs/CodsP.v
theories/Proofs/CodsP2.v
theories/Proofs/CodsP3.v
theories/Proofs/CodsP4.v
theories/Proofs/CodsP5.v
theories/Proofs/CodsP6.v
theories/Proofs/CodsP7.v
theories/Proofs/CodsP8.v
theories/Proofs/CodsP9.v
theories/Proofs/CodsP10.v
theories/Proofs/CodsP11.v
theories/Proofs/EdgeP.v
theories/Proofs/CleanP.v
theories/Proofs/KalP1.v
theories/Proofs/KalP2.v
theories/Proofs/KalP3.v
theories/Proofs/KalP4.v
theories/Proofs/KalP5.v
theories/Spec/TrackingFit.v
theories/Proofs/KalP6.v
theories/Proofs/KalP7.v
theories/Spec/SoilingTable.v
theories/Spec/SoilingSummary.v
theories/Proofs/SoilP.v
theories/Proofs/SoilP2.v
theories/Proofs/SoilP3.v
theories/Proofs/SoilP4.v
theories/Proofs/SoilP5.v
theories/Proofs/SoilP6.v
theories/Proofs/SoilP7.v
theories/Proofs/SoilP8.v
theories/Proofs/SoilP9.v
theories/Proofs/SoilP10.v
theories/Proofs/SoilP11.v
theories/Proofs/SoilP12.v
theories/Spec/Theil.v
theories/Proofs/SoilP13.v
theories/Proofs/SoilP14.v
theories/Props/C22.v
theories/Props/C23.v
theories/Props/C24.v
theories/Props/C25.v
theories/Props/C26.v
theories/Props/C27.v
theories/Props/C28.v
theories/Props/C29.v
theories/Props/C30.v
theories/Props/C33.v
theories/Props/C18.v
theories/Props/C19.v
theories/Props/C20.v
theories/Props/C21.v
theories/Props/C31.v
theories/Props/C32.v
theories/Props/C34.v
theories/Props/C35.v
theories/Props/C36.v
theories/Props/C37.v
theories/Props/C38.v
theories/Props/C56.v
theories/Props/C57.v
theories/Props/C39.v
theories/Props/C40.v
theories/Props/C41.v
theories/Props/C42.v
theories/Props/C43.v
theories/Props/C44.v
theories/Props/C58.v
theories/Props/C47.v
theories/Props/C50.v
theories/Props/C59.v
theories/Props/C45.v
theories/Props/C46.v
theories/Props/C60.v
theories/Props/C48.v
theories/Props/C49.v
theories/Props/C61.v
theories/Props/C62.v
theories/Spec/Dict.v
theories/Model/FilterDict.v
theories/Proofs/DictP.v
theories/Props/C52.v
theories/Spec/Deprecation.v
theories/Model/Deprecation.v
theories/Proofs/DeprP.v
theories/Props/C55.v
theories/Spec/Climate.v
theories/Model/ClearskyTemp.v
theories/Proofs/ClimP.v
theories/Proofs/ClimP2.v
theories/Props/C51.v
theories/Model/TrendAnalysis.v
theories/Model/TrendPlots.v
theories/Model/Plots.v
theories/Model/AvailabilityPlots.v
theories/Spec/FilterSets.v
theories/Proofs/TrendP1.v
theories/Proofs/TrendP2.v
theories/Spec/TrendRuns.v
theories/Proofs/TrendP3.v
theories/Proofs/TrendP4.v
theories/Spec/TrendCalls.v
theories/Spec/TrendPlots.v
theories/Spec/SoilingUnits.v
theories/Spec/AvailabilityUnits.v
theories/Spec/Available.v
theories/Spec/Outages.v
theories/Spec/KalmanUnits.v
theories/Spec/Steady.v
theories/Proofs/TrendP5.v
theories/Proofs/TrendP6.v
theories/Props/C53.v
theories/Props/C54.v
theories/Spec/Pipeline.v
theories/Spec/ClearskyPoa.v
theories/Proofs/TrendP7.v
theories/Proofs/TrendP8.v
theories/Proofs/TrendP9.v
theories/Proofs/TrendP10.v
theories/Proofs/TrendP11.v
theories/Proofs/SoilP15.v
theories/Proofs/AvailP13.v
theories/Proofs/AvailP14.v
theories/Proofs/AvailP15.v
theories/Proofs/AvailP16.v
theories/Proofs/DelayP.v
theories/Proofs/DelayP2.v
theories/Proofs/GrowP.v
theories/Proofs/GrowP2.v
theories/Proofs/EnergyP8.v
theories/Proofs/GrowP3.v
theories/Proofs/YoYP4.v
theories/Proofs/RawP.v
theories/Proofs/CleanRunP.v
theories/Proofs/KalP8.v
theories/Proofs/SteadyP.v
theories/Proofs/SteadyP2.v
theories/Spec/Units.v
theories/Spec/Plots.v
theories/Spec/SoilingPlots.v
theories/Spec/AvailabilityPlots.v
theories/Proofs/UnitP.v
theories/Proofs/ClipFeatP3.v
theories/Proofs/ClipFeatP4.v
theories/Proofs/UnitP2.v
theories/Proofs/PlotsP.v
theories/Proofs/PlotsP2.v
theories/Proofs/PlotsP3.v
theories/Proofs/PlotsP4.v
theories/Proofs/PlotsP5.v
theories/Proofs/PlotsP6.v
theories/Props/C63.v
theories/Props/C64.v
theories/Props/C65.v
theories/Props/C66.v
theories/Props/C67.v
theories/Props/C68.v
theories/Props/C69.v
theories/Props/C70.v
theories/Props/C71.v
theories/Props/C72.v
theories/Props/C73.v
theories/Props/C74.v
theories/Props/C75.v
theories/Props/C76.v
theories/Props/C77.v
theories/Props/C78.v
theories/Props/C79.v
theories/Props/C80.v
theories/Props/C81.v
theories/Props/C82.v
theories/Props/C83.v
theories/Props/C84.v
theories/Props/C85.v
theories/Props/C86.v
theories/Props/C87.v
theories/Props/C88.v
theories/Props/C89.v
theories/Props/C90.v
theories/Props/C91.v
