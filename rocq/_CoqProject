-Q theories Verif
theories/Py.v
theories/PyFacts.v
theories/SymbolicModel.v
theories/SymbolicSpec.v
theories/SymbolicReduceProofs.v
theories/SymbolicRx.v
theories/SymbolicParseProofs.v
theories/SymbolicChainProofs.v
theories/SymbolicTermProofs.v
theories/SymbolicExprProofs.v
theories/SymbolicLawProofs.v
theories/SymbolicProps.v
theories/AliasedModel.v
theories/AliasedSpec.v
theories/AliasedProofs.v
theories/AliasedMapProofs.v
theories/AliasedGroupProofs.v
theories/AliasedMoreProofs.v
theories/AliasedProps.v
theories/PyDict.v
theories/IterablesModel.v
theories/IterablesSpec.v
theories/IterablesProofs.v
theories/IterablesMoreProofs.v
theories/IterablesToolsProofs.v
theories/IterablesProps.v
theories/QcOrder.v
theories/NumericalModel.v
theories/NumericalSpec.v
theories/NumericalProofs.v
theories/InterpolationProofs.v
theories/NumericalProps.v
theories/SpellingModel.v
theories/SpellingSpec.v
theories/SpellingProofs.v
theories/SpellingProps.v
theories/MetricTables.v
theories/MetricModel.v
theories/MetricSpec.v
theories/MetricProofs.v
theories/MetricMoreProofs.v
theories/MetricTableProofs.v
theories/MetricProps.v
theories/MetadataModel.v
theories/MetadataSpec.v
theories/MetadataProofs.v
theories/MetadataProps.v
theories/MeasurableModel.v
theories/MeasurableSpec.v
theories/MeasurableProofs.v
theories/QuantityProofs.v
theories/MeasurableProps.v
theories/ArrayModel.v
theories/ArraySpec.v
theories/ArrayProofs.v
theories/ArrayOpsProofs.v
theories/MeshProofs.v
theories/ArrayMoreProofs.v
theories/ArrayProps.v
theories/ObservingModel.v
theories/ObservingSpec.v
theories/ObservingProofs.v
theories/ObservingProps.v
theories/RuntimeModel.v
theories/RuntimeSpec.v
theories/RuntimeProofs.v
theories/RuntimeProps.v
theories/AxisModel.v
theories/AxisSpec.v
theories/AxisProofs.v
theories/AxisProps.v
theories/EpremModel.v
theories/EpremSpec.v
theories/EpremProofs.v
theories/EpremProps.v
theories/ComputedModel.v
theories/ComputedSpec.v
theories/ComputedProofs.v
theories/VectorProofs.v
theories/CoordinateProofs.v
theories/IntegralProofs.v
theories/FluxProofs.v
theories/SpectrumProofs.v
theories/ComputedProps.v
theories/ObserverModel.v
theories/ObserverSpec.v
theories/ObserverProofs.v
theories/ObserverProps.v
theories/FilesModel.v
theories/FilesSpec.v
theories/FilesProofs.v
theories/FilesProps.v
theories/SourceModel.v
theories/SourceSpec.v
theories/SourceProofs.v
theories/SourceProps.v
theories/ParametersModel.v
theories/ParametersSpec.v
theories/ParametersProofs.v
theories/ParametersProps.v
theories/ObservablesModel.v
theories/ObservablesSpec.v
theories/ObservablesProofs.v
theories/ObservablesProps.v
theories/SpeciesModel.v
theories/SpeciesSpec.v
theories/SpeciesProofs.v
theories/SpeciesProps.v
theories/SystemModel.v
theories/SystemSpec.v
theories/SystemAlgebraProofs.v
theories/SystemNormProofs.v
theories/SystemProofs.v
theories/SystemProps.v
theories/VariablesModel.v
theories/VariablesSpec.v
theories/VariablesProofs.v
theories/VariablesProps.v
theories/ViewsModel.v
theories/ViewsProofs.v
theories/ViewsProps.v
theories/DisplayModel.v
theories/DisplaySpec.v
theories/DisplayProofs.v
theories/DisplayProps.v
theories/UfuncModel.v
theories/UfuncSpec.v
theories/UfuncProofs.v
theories/UfuncProps.v
theories/FactoryModel.v
theories/FactorySpec.v
theories/FactoryProofs.v
theories/FactoryProps.v
theories/PhysicalModel.v
theories/PhysicalSpec.v
theories/PhysicalProofs.v
theories/PhysicalProps.v
theories/ConverterModel.v
theories/ConverterSpec.v
theories/ConverterProofs.v
theories/UnitQuantityProofs.v
theories/ConverterProps.v
theories/SessionModel.v
theories/SessionSpec.v
theories/SessionProofs.v
theories/SessionProps.v
theories/TermsModel.v
theories/TermsSpec.v
theories/TermsProofs.v
theories/TermsProps.v
theories/ContainersModel.v
theories/ContainersSpec.v
theories/ContainersProofs.v
theories/ContainersProps.v
theories/PackageModel.v
theories/PackageSpec.v
theories/PackageProofs.v
theories/PackageNameProofs.v
theories/PackageProps.v
theories/AxisTargetSpec.v
theories/AxisTargetProofs.v
theories/AxisTargetProps.v
theories/DistributeModel.v
theories/DistributeSpec.v
theories/DistributeProofs.v
theories/DistributeProps.v
theories/AmountsModel.v
theories/AmountsSpec.v
theories/AmountsProofs.v
theories/AmountsProps.v
theories/SubscriptSpec.v
theories/SubscriptProofs.v
theories/SubscriptProps.v
theories/RestrictionModel.v
theories/RestrictionSpec.v
theories/RestrictionProofs.v
theories/RestrictionProps.v
theories/ObservedModel.v
theories/ObservedSpec.v
theories/ObservedProofs.v
theories/ObservedProps.v
theories/ListTextSpec.v
theories/ListTextProofs.v
theories/ListTextProps.v
theories/FloatSpec.v
theories/FloatProofs.v
theories/FloatProps.v
theories/DecimalSpec.v
theories/DecimalProofs.v
theories/DecimalProps.v
theories/GrammarSpec.v
theories/GrammarProofs.v
theories/GrammarProps.v
theories/DimensionSpec.v
theories/DimensionProofs.v
theories/DimensionProps.v
