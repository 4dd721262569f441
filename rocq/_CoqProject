-Q theories Verif
theories/Base.v
theories/BaseFacts.v
theories/Heap.v
theories/HeapProofs.v
theories/F64.v
theories/F64Facts.v
theories/HeapSpec.v
theories/HeapRefine.v
theories/HeapProps.v
theories/CostDist.v
theories/CostSpec.v
theories/DijkstraProofs.v
theories/CostProofs.v
theories/CostPublicProofs.v
theories/CostProps.v
theories/Mosaic.v
theories/MosaicSpec.v
theories/MosaicProofs.v
theories/MosaicProps.v
theories/F64Exact.v
theories/F32.v
theories/Proximity.v
theories/ProximityProofs.v
theories/ProximityMain.v
theories/ProximityModes.v
theories/ProximitySpec.v
theories/ProximityChunk.v
theories/ProximityTaxi.v
theories/ProximityProps.v
theories/ProximityWhole.v
theories/ProximityWholeSpec.v
theories/ProximityWholeProofs.v
theories/ProximityWholeMain.v
theories/GreatCircle.v
theories/GreatCircleProofs.v
theories/ProximityWholeProps.v
theories/Chunks.v
theories/ChunksSpec.v
theories/ChunksProofs.v
theories/ChunksProps.v
theories/Blocks.v
theories/BlocksSpec.v
theories/BlocksProofs.v
theories/BlocksProps.v
theories/Scalars.v
theories/BlockArgs.v
theories/BlockArgsSpec.v
theories/BlockArgsProofs.v
theories/BlockArgsProps.v
theories/NumFacts.v
theories/Stats.v
theories/StatsSpec.v
theories/StatsProofs.v
theories/StatsProps.v
theories/Arr2.v
theories/Arr2Facts.v
theories/Focal.v
theories/FocalSpec.v
theories/FocalProofs.v
theories/FocalValues.v
theories/FocalFast.v
theories/FocalCorr.v
theories/FocalResults.v
theories/FocalProps.v
theories/Dtypes.v
theories/DtypesSpec.v
theories/DtypesProofs.v
theories/DtypesProps.v
theories/Raster.v
theories/RasterSpec.v
theories/RasterProofs.v
theories/RasterValues.v
theories/RasterStack.v
theories/Pad.v
theories/PadProofs.v
theories/RasterProps.v
theories/Grids.v
theories/GridsProofs.v
theories/GridsF64.v
theories/GridsFloat.v
theories/GridsProps.v
theories/Vectors.v
theories/VectorsProofs.v
theories/VectorsProps.v
theories/Zonal.v
theories/ZonalSpec.v
theories/ZonalProofs.v
theories/ZonalStats.v
theories/ZonalProps.v
theories/Rasterize.v
theories/RasterizeSpec.v
theories/RasterizeProofs.v
theories/RasterizeProps.v
theories/LineStats.v
theories/LineStatsSpec.v
theories/LineStatsProofs.v
theories/LineStatsProps.v
theories/Aggregate.v
theories/AggregateSpec.v
theories/AggregateProofs.v
theories/AggregateProps.v
theories/RemapFile.v
theories/RemapFileSpec.v
theories/RemapFileProofs.v
theories/RemapFileProps.v
theories/Morph.v
theories/MorphSpec.v
theories/MorphProofs.v
theories/MorphProps.v
theories/Surface.v
theories/SurfaceSpec.v
theories/SurfaceProofs.v
theories/SurfaceReal.v
theories/SurfaceResults.v
theories/SurfaceProps.v
theories/Regions.v
theories/RegionsSpec.v
theories/RegionsProofs.v
theories/RegionsProps.v
theories/Batch.v
theories/BatchSpec.v
theories/BatchProofs.v
theories/BatchProps.v
theories/Bands.v
theories/BandsSpec.v
theories/BandsProofs.v
theories/BandsProps.v
theories/Frames.v
theories/FramesSpec.v
theories/FramesProofs.v
theories/FramesProps.v
theories/Points.v
theories/PointsSpec.v
theories/PointsProofs.v
theories/PointsProps.v
theories/MapBlocks.v
theories/MapBlocksSpec.v
theories/MapBlocksProofs.v
theories/MapBlocksProps.v
theories/Normalize.v
theories/NormalizeSpec.v
theories/NormalizeProofs.v
theories/NormalizeProps.v
theories/Reconcile.v
theories/ReconcileSpec.v
theories/ReconcileProofs.v
theories/ReconcileProps.v
theories/Ingest.v
theories/IngestSpec.v
theories/IngestProofs.v
theories/IngestProps.v
theories/Align.v
theories/AlignSpec.v
theories/AlignProofs.v
theories/AlignArrays.v
theories/AlignProps.v
theories/MapOverlap.v
theories/MapOverlapSpec.v
theories/MapOverlapProofs.v
theories/MapOverlapMain.v
theories/MapOverlapProps.v
theories/GeoMap.v
theories/GeoMapSpec.v
theories/GeoMapProofs.v
theories/GeoMapOverlap.v
theories/GeoMapProps.v
theories/Creation.v
theories/CreationSpec.v
theories/CreationProofs.v
theories/CreationProps.v
theories/Reductions.v
theories/ReductionsSpec.v
theories/ReductionsProofs.v
theories/ReductionsProps.v
theories/MosaicWhole.v
theories/MosaicWholeSpec.v
theories/MosaicWholeProofs.v
theories/MosaicWholeProps.v
theories/Saving.v
theories/SavingSpec.v
theories/SavingProofs.v
theories/SavingProps.v
theories/Extract.v
theories/ExtractSpec.v
theories/ExtractProofs.v
theories/ExtractProps.v
theories/Polygons.v
theories/PolygonsSpec.v
theories/PolygonsProofs.v
theories/PolygonsProps.v
theories/RasterizeRaster.v
theories/RasterizeRasterSpec.v
theories/RasterizeRasterProofs.v
theories/RasterizeRasterProps.v
theories/Clipping.v
theories/ClippingSpec.v
theories/ClippingProofs.v
theories/ClippingProps.v
theories/Tpi.v
theories/TpiSpec.v
theories/TpiProofs.v
theories/TpiProps.v
theories/WriteOptions.v
theories/WriteOptionsSpec.v
theories/WriteOptionsProofs.v
theories/WriteOptionsProps.v
theories/ZonalRaster.v
theories/ZonalRasterSpec.v
theories/ZonalRasterProofs.v
theories/ZonalRasterCells.v
theories/ZonalRasterMain.v
theories/ZonalRasterCalls.v
theories/ZonalRasterProps.v
theories/UfuncCall.v
theories/UfuncCallSpec.v
theories/UfuncCallProofs.v
theories/UfuncCallProps.v
theories/VectorTable.v
theories/VectorTableSpec.v
theories/VectorTableProofs.v
theories/VectorTableSources.v
theories/VectorTableProps.v
theories/LengthRaster.v
theories/LengthRasterSpec.v
theories/LengthRasterProofs.v
theories/LengthRasterMain.v
theories/LengthRasterProps.v
theories/PadGrid.v
theories/PadGridSpec.v
theories/PadGridProofs.v
theories/PadGridProps.v
theories/ChunkBoxes.v
theories/ChunkBoxesSpec.v
theories/ChunkBoxesProofs.v
theories/ChunkBoxesProps.v
theories/Warp.v
theories/WarpSpec.v
theories/WarpProofs.v
theories/WarpProps.v
theories/Dataset.v
theories/DatasetSpec.v
theories/DatasetProofs.v
theories/DatasetProps.v
theories/Coerce.v
theories/CoerceSpec.v
theories/CoerceProofs.v
theories/CoerceProps.v
theories/BandConcat.v
theories/BandConcatSpec.v
theories/BandConcatProofs.v
theories/BandConcatProps.v
theories/Combine.v
theories/CombineSpec.v
theories/CombineProofs.v
theories/CombineProps.v
theories/Keywords.v
theories/KeywordsSpec.v
theories/KeywordsProofs.v
theories/KeywordsProps.v
theories/Shuffle.v
theories/ShuffleSpec.v
theories/ShuffleProofs.v
theories/ShuffleProps.v
theories/RasterFill.v
theories/RasterFillSpec.v
theories/RasterFillProofs.v
theories/RasterFillProps.v
theories/BandwiseCall.v
theories/BandwiseCallSpec.v
theories/BandwiseCallProofs.v
theories/BandwiseCallProps.v
theories/CostArgs.v
theories/CostArgsSpec.v
theories/CostArgsFloats.v
theories/CostArgsProofs.v
theories/CostArgsProps.v
theories/Bearing.v
theories/BearingSpec.v
theories/BearingProofs.v
theories/BearingProps.v
theories/MosaicSum.v
theories/MosaicSumSpec.v
theories/MosaicSumProofs.v
theories/MosaicSumProps.v
theories/RoundTrip.v
theories/RoundTripSpec.v
theories/RoundTripProofs.v
theories/RoundTripPoints.v
theories/RoundTripProps.v
theories/Pieces.v
theories/PiecesSpec.v
theories/PiecesProofs.v
theories/PiecesGrid.v
theories/PiecesCombine.v
theories/PiecesMain.v
theories/PiecesProps.v
theories/SaveChunks.v
theories/SaveChunksSpec.v
theories/SaveChunksProofs.v
theories/SaveChunksMain.v
theories/SaveChunksProps.v
theories/UniformSpec.v
theories/UniformProofs.v
theories/UniformMain.v
theories/UniformProps.v
theories/BlockBudget.v
theories/BlockBudgetSpec.v
theories/BlockBudgetProofs.v
theories/BlockBudgetProps.v
theories/UnitRangesSpec.v
theories/UnitRangesProofs.v
theories/UnitRangesProps.v
theories/WhereNullSpec.v
theories/WhereNullProofs.v
theories/WhereNullProps.v
theories/TwoStepsSpec.v
theories/TwoStepsProofs.v
theories/TwoStepsProps.v
theories/FocalMorphProofs.v
theories/FocalMorphProps.v
theories/MorphTwiceProofs.v
theories/MorphTwiceProps.v
theories/MorphOpenProofs.v
theories/MorphOpenProps.v
