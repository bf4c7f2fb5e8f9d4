-Q theories Verif

theories/Base.v
theories/BaseProofs.v
theories/Traversal.v
theories/TraversalSpec.v
theories/TraversalProofs.v
theories/TraversalProofs2.v
theories/TraversalProofs3.v
theories/TraversalProofs4.v
theories/PropTraversal.v
theories/Glm.v
theories/GlmSpec.v
theories/GlmProofs.v
theories/GlmProofs2.v
theories/GlmProofs3.v
theories/GlmProofs4.v
theories/PropGlm.v
theories/Lut.v
theories/LutSpec.v
theories/LutProofs.v
theories/PropLut.v
theories/FileName.v
theories/FileNameSpec.v
theories/FileNameProofs.v
theories/FileNameProofs2.v
theories/PropFileName.v
theories/Accum.v
theories/AccumSpec.v
theories/AccumProofs.v
theories/PropAccum.v
theories/Poly.v
theories/PolySpec.v
theories/PolyProofs.v
theories/PropPoly.v
theories/BBox.v
theories/BBoxSpec.v
theories/BBoxProofs.v
theories/PropBBox.v
theories/Slice.v
theories/SliceSpec.v
theories/SliceProofs.v
theories/PropSlice.v
theories/Regroup.v
theories/RegroupSpec.v
theories/RegroupProofs.v
theories/PropRegroup.v
theories/Pipeline.v
theories/PipelineSpec.v
theories/PipelineProofs.v
theories/PropPipeline.v
theories/ChunkSpec.v
theories/ChunkProofs.v
theories/PropChunks.v
theories/Imagery.v
theories/ImagerySpec.v
theories/ImageryProofs.v
theories/PropImagery.v
theories/Aggregate.v
theories/AggregateSpec.v
theories/AggregateProofs.v
theories/PropAggregate.v
theories/Tiles.v
theories/TilesSpec.v
theories/TilesProofs.v
theories/PropTiles.v
theories/Ellipse.v
theories/EllipseSpec.v
theories/EllipseProofs.v
theories/PropEllipse.v
theories/Unsigned.v
theories/FloatProofs.v
theories/PropUnsigned.v
theories/Ccd.v
theories/PropCcd.v
theories/Lcfa.v
theories/LcfaSpec.v
theories/LcfaProofs.v
theories/PropLcfa.v
theories/GridSetup.v
theories/GridSetupSpec.v
theories/GridSetupProofs.v
theories/GridSetupProofs2.v
theories/PropGridSetup.v
theories/Gridder.v
theories/GridderSpec.v
theories/GridderProofs.v
theories/PropGridder.v
theories/PropAverages.v
theories/PropImageSums.v
theories/Output.v
theories/OutputSpec.v
theories/OutputProofs.v
theories/OutputProofs2.v
theories/OutputProofs3.v
theories/OutputProofs4.v
theories/PropOutput.v
theories/PropReadBack.v
theories/Points.v
theories/PointsSpec.v
theories/PointsProofs.v
theories/PropPoints.v
theories/Calls.v
theories/CallsSpec.v
theories/CallsProofs.v
theories/CallsProofs2.v
theories/CallsProofs3.v
theories/CallsProofs4.v
theories/CallsProofs5.v
theories/CallsProofs6.v
theories/PropCalls.v
theories/Times.v
theories/TimesSpec.v
theories/TimesProofs.v
theories/PropTimes.v
theories/PropDegrees.v
theories/Footprint.v
theories/FootprintSpec.v
theories/FootprintProofs.v
theories/PropFootprint.v
theories/PropLonLat.v
theories/Scaled.v
theories/ScaledSpec.v
theories/ScaledProofs.v
theories/PropScaled.v
theories/Plot.v
theories/PlotSpec.v
theories/PlotProofs.v
theories/PropPlot.v
theories/Inspect.v
theories/InspectProofs.v
theories/PropInspect.v
theories/Pug.v
theories/PugProofs.v
theories/PropPug.v
theories/InitMethods.v
theories/PropInitMethods.v
theories/PlotFiles.v
theories/PlotFilesProofs.v
theories/PropPlotFiles.v
theories/Units.v
theories/PropUnits.v
theories/LassoGrid.v
theories/PropLassoGrid.v
theories/Georef.v
theories/PropGeoref.v
theories/Float32Proofs.v
theories/Single.v
theories/PropSingle.v
theories/TilesBinary.v
theories/FloatExact.v
theories/PropTilesBinary.v
theories/PixelsBinary.v
theories/PixelsBinaryProofs.v
theories/PropPixelsBinary.v
theories/BBoxRegular.v
theories/PropBBoxRegular.v
theories/Convert.v
theories/PropConvert.v
theories/Saved.v
theories/PropSaved.v
theories/Pool.v
theories/PropPool.v
theories/LutBinary.v
theories/PropLutBinary.v
theories/CommandLine.v
theories/PropCommandLine.v
theories/Runs.v
theories/PropRuns.v
theories/Overlap.v
theories/OverlapProofs.v
theories/PropOverlap.v
theories/RowOrderSpec.v
theories/RowOrderProofs.v
theories/PropRowOrder.v
theories/SampleTotal.v
theories/SampleTotalSpec.v
theories/PropSampleTotal.v
theories/Chain.v
theories/ChainSpec.v
theories/PropChain.v
theories/Reach.v
theories/ReachSpec.v
theories/ReachProofs.v
theories/ReachProofs2.v
theories/PropReach.v
theories/CellProductsSpec.v
theories/PropCellProducts.v
theories/TemplatesSpec.v
theories/PropTemplates.v
theories/NestedSpec.v
theories/PropNested.v
theories/RelabelSpec.v
theories/RelabelProofs.v
theories/PropRelabel.v
theories/StricterSpec.v
theories/StricterProofs.v
theories/PropStricter.v
theories/LassoTable.v
theories/LassoTableSpec.v
theories/PropLassoTable.v
theories/PropDurations.v
theories/PropMinutes.v
theories/TimeFrames.v
theories/PropTimeFrames.v
theories/Spectra.v
theories/SpectraSpec.v
theories/PropSpectra.v
theories/PropRunSums.v
theories/PropAggregateRange.v
theories/PropAggregateSums.v
theories/Colors.v
theories/PropColors.v
theories/AggregateAttrs.v
theories/PropAggregateAttrs.v
theories/LassoDefaults.v
theories/PropLassoDefaults.v
theories/PropSpectraDefaults.v
theories/Centroids.v
theories/PropCentroids.v
