-Q theories Verif
theories/Model/Base.v
theories/Model/Double.v
theories/Model/Arith.v
theories/Model/Header.v
theories/Model/PointRecord.v
theories/Model/Point.v
theories/Model/Extent.v
theories/Model/Voxel.v
theories/Model/Utils.v
theories/Model/Subsampling.v
theories/Model/RadiusSearch.v
theories/Model/File.v
theories/Model/Compression.v
theories/Model/IO.v
theories/Model/AppConvert.v
theories/Model/AppUtils.v
theories/Model/FilterApp.v
theories/Model/MergeApp.v
theories/Model/TileApp.v
theories/Model/TransformApp.v
theories/Model/DiffApp.v
theories/Model/ToolApp.v
theories/Model/SrsApp.v
theories/Model/Asprs.v
theories/Model/Json.v
theories/Model/InfoApp.v
theories/Model/GetOpt.v
theories/Model/Commands.v
theories/Model/Programs.v
theories/Model/BenchmarkIo.v
theories/Model/Examples.v
theories/Model/Benchmarks.v
theories/Model/TestUtils.v
theories/Model/GaussianCloud.v
theories/Model/SpocPy.v
theories/Model/SpocPyValues.v
theories/Spec/Python.v
theories/Model/Par.v
theories/Model/Affine.v
theories/Spec/Rounding.v
theories/Spec/Sampling.v
theories/Spec/Schedules.v
theories/Proofs/BaseFacts.v
theories/Proofs/OrderFacts.v
theories/Proofs/DoubleFacts.v
theories/Proofs/ArithFacts.v
theories/Proofs/VoxelFacts.v
theories/Proofs/SubsampleFacts.v
theories/Proofs/ParFacts.v
theories/Proofs/RadiusFacts.v
theories/Proofs/ScaleFacts.v
theories/Spec/Geometry.v
theories/Spec/Distance.v
theories/Proofs/ErrorFacts.v
theories/Spec/Format.v
theories/Proofs/HeaderFacts.v
theories/Spec/ZlibContract.v
theories/Proofs/CompressionFacts.v
theories/Proofs/ToyZlib.v
theories/Proofs/PointRecordFacts.v
theories/Proofs/IOFacts.v
theories/Proofs/PaddingFacts.v
theories/Proofs/StaleFacts.v
theories/Proofs/CutFacts.v
theories/Proofs/TurnFacts.v
theories/Proofs/MovingFacts.v
theories/Spec/Files.v
theories/Spec/History.v
theories/Spec/Apps.v
theories/Spec/Text.v
theories/Spec/Reports.v
theories/Spec/Areas.v
theories/Spec/CommandLines.v
theories/Spec/Fields.v
theories/Spec/Transforms.v
theories/Spec/Diffs.v
theories/Spec/Tools.v
theories/Spec/Tiles.v
theories/Proofs/FileFacts.v
theories/Proofs/HistoryFacts.v
theories/Proofs/FilterFacts.v
theories/Proofs/TextFacts.v
theories/Proofs/MapFacts.v
theories/Proofs/CountFacts.v
theories/Proofs/JsonFacts.v
theories/Proofs/SummaryFacts.v
theories/Proofs/TileFacts.v
theories/Proofs/TileSizeFacts.v
theories/Proofs/CompressedFacts.v
theories/Proofs/FileIOFacts.v
theories/Proofs/SafetyFacts.v
theories/Proofs/StreamFacts.v
theories/Spec/Streams.v
theories/Spec/Truncation.v
theories/Spec/Turning.v
theories/Spec/Moving.v
theories/Spec/FilterOrder.v
theories/Spec/TransformFilter.v
theories/Spec/Updates.v
theories/Spec/Testing.v
theories/Proofs/HeaderCutFacts.v
theories/Proofs/FileMoreFacts.v
theories/Proofs/StoreFacts.v
theories/Props/HeaderProps.v
theories/Props/RecordProps.v
theories/Props/FileProps.v
theories/Props/CompressionProps.v
theories/Props/HistoryProps.v
theories/Props/GeometryProps.v
theories/Props/VoxelProps.v
theories/Props/MetricProps.v
theories/Props/SearchProps.v
theories/Props/RadiusProps.v
theories/Props/MutualProps.v
theories/Props/BuildProps.v
theories/Props/BoxProps.v
theories/Props/SpocPyValueProps.v
theories/Props/StreamingProps.v
theories/Props/RecordOrderProps.v
theories/Props/TransparentProps.v
theories/Props/InfoMainProps.v
theories/Props/StagedProps.v
theories/Props/BenchmarkIoProps.v
theories/Props/GaussianProps.v
theories/Props/RewriteProps.v
theories/Props/FilterMergeProps.v
theories/Props/CountProps.v
theories/Props/RangeProps.v
theories/Props/TransformFilterProps.v
theories/Props/TransformMergeProps.v
theories/Props/TileReportProps.v
theories/Props/ClassifyProps.v
theories/Props/ParProps.v
theories/Props/FilterProps.v
theories/Props/TextProps.v
theories/Proofs/FieldFacts.v
theories/Proofs/TransformFacts.v
theories/Proofs/DiffFacts.v
theories/Proofs/ToolFacts.v
theories/Proofs/ToolGeometryFacts.v
theories/Proofs/RestoreFacts.v
theories/Proofs/CommandFacts.v
theories/Proofs/OptionFacts.v
theories/Proofs/ProgramFacts.v
theories/Proofs/SpocPyFacts.v
theories/Props/CenterProps.v
theories/Props/CommandProps.v
theories/Props/HelpProps.v
theories/Props/ProgramProps.v
theories/Props/PipeProps.v
theories/Props/ScenarioProps.v
theories/Props/WorkflowProps.v
theories/Props/ExampleProps.v
theories/Props/TruncatedProps.v
theories/Props/VoxelSizeProps.v
theories/Props/TileWidthProps.v
theories/Props/UpdateProps.v
theories/Props/TestUtilsProps.v
theories/Props/GeneratorProps.v
theories/Props/MovingProps.v
theories/Props/FilterOrderProps.v
theories/Props/TurnProps.v
theories/Props/SpocPyProps.v
theories/Props/TransformProps.v
theories/Props/DiffProps.v
theories/Props/ToolProps.v
theories/Props/ToolGeometryProps.v
theories/Props/ToolProgramProps.v
theories/Props/SrsProps.v
theories/Props/InfoProps.v
theories/Props/JsonProps.v
theories/Props/InfoProgramProps.v
theories/Props/AreaProps.v
theories/Props/SummaryProps.v
theories/Props/MergeProps.v
theories/Props/TileProps.v
