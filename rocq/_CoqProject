-Q theories Verif
theories/Base.v
theories/BaseProofs.v
theories/MathModel.v
theories/MathModelFloat.v
theories/MathProofs.v
theories/AxisModel.v
theories/AxisSpec.v
theories/AxisProofs.v
theories/AxisProofs2.v
theories/AxisProofs3.v
theories/AxisProofs4.v
theories/AxisProofs5.v
theories/AxisProofs6.v
theories/IntAxisModel.v
theories/IntAxisProofs.v
theories/AxisProps.v
theories/PeriodModel.v
theories/PeriodSpec.v
theories/PeriodProofs.v
theories/PeriodProofs2.v
theories/PeriodProps.v
theories/DateModel.v
theories/DateSpec.v
theories/DateProofs.v
theories/DateProofs2.v
theories/DateProps.v
theories/GeohashModel.v
theories/GeohashSpec.v
theories/GeohashProofs.v
theories/GeohashProofs2.v
theories/GeohashProofs3.v
theories/GeohashProofs4.v
theories/GeohashProofs5.v
theories/GeohashProofs6.v
theories/GeohashProofs7.v
theories/GeohashProofs8.v
theories/GeohashModelFloat.v
theories/GeohashWhere.v
theories/GeohashProps.v
theories/ThreadModel.v
theories/ThreadProofs.v
theories/ThreadProps.v
theories/StatsModel.v
theories/StatsSpec.v
theories/StatsProofs.v
theories/StatsProofs2.v
theories/StatsProps.v
theories/HistModel.v
theories/HistSpec.v
theories/HistProofs.v
theories/HistProofs2.v
theories/HistSerModel.v
theories/HistSerProofs.v
theories/HistProps.v
theories/FillModel.v
theories/FillSpec.v
theories/FillProofs.v
theories/FillProps.v
theories/RelaxModel.v
theories/RelaxSpec.v
theories/RelaxProofs.v
theories/RelaxPar.v
theories/RelaxProps.v
theories/LoessModel.v
theories/LoessSpec.v
theories/LoessProps.v
theories/InterpModel.v
theories/InterpSpec.v
theories/InterpProofs.v
theories/InterpProofs2.v
theories/InterpProofs3.v
theories/InterpProofs4.v
theories/Interp1dModel.v
theories/Interp1dSpec.v
theories/InterpProofs5.v
theories/InterpProofs6.v
theories/InterpProofs7.v
theories/InterpProps.v
theories/InterpProps2.v
theories/Interp1dProofs.v
theories/Interp1dProps.v
theories/GridModel.v
theories/GridSpec.v
theories/GridProofs.v
theories/GridProofs2.v
theories/GridProofs3.v
theories/GridProofs4.v
theories/GridProps.v
theories/GridProps2.v
theories/GridProps3.v
theories/GridProps4.v
theories/BinningModel.v
theories/BinningSpec.v
theories/BinningHistory.v
theories/BinningProofs.v
theories/BinningProofs2.v
theories/BinningProofs3.v
theories/BinningProofs4.v
theories/BinningProofs5.v
theories/BinningProps.v
theories/BinningProps2.v
theories/Hist2dModel.v
theories/Hist2dSpec.v
theories/Hist2dProofs.v
theories/Hist2dProps.v
theories/WindowModel.v
theories/WindowProofs.v
theories/WindowProps.v
theories/RTreeModel.v
theories/RTreeSpec.v
theories/RTreeProofs.v
theories/RTreeProps.v
theories/GeodesyModel.v
theories/GeodesySpec.v
theories/GeodesyProofs.v
theories/GeodesyProps.v
theories/GeodesyProps2.v
theories/FrameModel.v
theories/FrameSpec.v
theories/FrameProofs.v
theories/FrameProofs2.v
theories/FrameProofs3.v
theories/FrameProofs4.v
theories/FrameProofs5.v
theories/FrameProofs6.v
theories/FrameProps.v
theories/FrameProps2.v
theories/CrossModel.v
theories/CrossSpec.v
theories/CrossProofs.v
theories/CrossProofs2.v
theories/CrossProps.v
theories/GeomModel.v
theories/GeomProps.v
theories/OrbitModel.v
theories/OrbitSpec.v
theories/OrbitProofs.v
theories/OrbitProofs2.v
theories/OrbitProps.v
theories/OrbitProps2.v
theories/SwathModel.v
theories/SwathProps.v
theories/QuadForm.v
theories/RbfModel.v
theories/RbfSpec.v
theories/LinSolve.v
theories/KernelProofs.v
theories/KernelProofs2.v
theories/KernelProofs3.v
theories/RbfProofs.v
theories/RbfProps.v
theories/RbfProps2.v
theories/KrigingSpec.v
theories/KrigingProps.v
theories/KrigingProps2.v
theories/NamesModel.v
theories/NamesProps.v
theories/XarrayModel.v
theories/XarraySpec.v
theories/XarrayProofs.v
theories/XarrayProps.v
theories/XarrayProps2.v
theories/XarrayProps3.v
theories/XarrayProofs2.v
theories/XarrayProps4.v
theories/XarrayProps5.v
theories/XarrayProps6.v
theories/XarrayProps7.v
theories/GeoTreeModel.v
theories/GeoTreeSpec.v
theories/GeoTreeProofs.v
theories/GeoTreeProps.v
theories/DtypeModel.v
theories/DtypeSpec.v
theories/DtypeProps.v
theories/FillPyModel.v
theories/FillPyProps.v
theories/GeohashClassModel.v
theories/GeohashClassProps.v
theories/UniformAxis.v
theories/GeohashClassProofs.v
theories/GeohashClassProps2.v
theories/GeohashClassProps3.v
theories/LongitudeModel.v
theories/LongitudeProps.v
theories/VectorModel.v
theories/VectorProps.v
theories/VectorProps2.v
theories/TemporalModel.v
theories/TemporalProps.v
theories/TemporalProps2.v
theories/DaskModel.v
theories/DaskSpec.v
theories/DaskProofs.v
theories/DaskProps.v
theories/DaskProps2.v
theories/GridVecModel.v
theories/GridVecProps.v
theories/GridPickleModel.v
theories/GridPickleProps.v
theories/PyPeriodModel.v
theories/PyPeriodSpec.v
theories/PyPeriodProofs.v
theories/PyPeriodProps.v
theories/PyPeriodListProps.v
theories/LoessGridModel.v
theories/LoessGridProps.v
theories/SplineArrayModel.v
theories/SplineArrayProps.v
theories/DateTextModel.v
theories/DateTextSpec.v
theories/DateTextProofs.v
theories/DateTextProps.v
theories/OrbitInterpModel.v
theories/OrbitInterpProps.v
theories/AliasModel.v
theories/AliasProps.v
theories/OrbitBuildModel.v
theories/OrbitBuildProps.v
theories/FloatAxisModel.v
theories/FloatAxisProofs.v
theories/FloatAxisProps.v
theories/FloatGridModel.v
theories/FloatGridProofs.v
theories/FloatGridProps.v
theories/FloatMultiModel.v
theories/FloatMultiProofs.v
theories/FloatMultiProps.v
theories/FloatCircleModel.v
theories/FloatCircleProofs.v
theories/FloatCircleProps.v
theories/FloatStatsModel.v
theories/FloatStatsProofs.v
theories/FloatStatsProps.v
theories/FloatGeohashModel.v
theories/FloatGeohashProofs.v
theories/FloatGeohashProps.v
