-Q theories Verif

theories/Base.v
theories/Scenario.v
theories/ScenarioSpec.v
theories/ScenarioLemmas.v
theories/Props_Scenario.v
theories/Calendar.v
theories/CalendarLemmas.v
theories/Timestep.v
theories/TimestepLemmas.v
theories/Props_Timestep.v
theories/Network.v
theories/NetworkBuild.v
theories/NetworkSpec.v
theories/NetworkBuildLemmas.v
theories/Props_Network.v
theories/Lp.v
theories/LpSpec.v
theories/LpColLemmas.v
theories/LpRowLemmas.v
theories/LpUpdateLemmas.v
theories/LpLemmas.v
theories/LpRelLemmas.v
theories/LpDynLemmas.v
theories/Props_Lp.v
theories/Props_LpRel.v
theories/NetState.v
theories/NetStateSpec.v
theories/NetStateLemmas.v
theories/NetRunLemmas.v
theories/NetHistLemmas.v
theories/VsLemmas.v
theories/Props_NetState.v
theories/ParamBuild.v
theories/ParamBuildSpec.v
theories/ParamBuildLemmas.v
theories/ParamEval.v
theories/ParamEvalSpec.v
theories/ParamEvalLemmas.v
theories/ParamMeaningLemmas.v
theories/ParamStepLemmas.v
theories/ParamOrderLemmas.v
theories/ParamSchedLemmas.v
theories/Props_Param.v
theories/AggFuncs.v
theories/AggFuncsSpec.v
theories/AggFuncsLemmas.v
theories/Props_Agg.v
theories/ParamsTemporal.v
theories/ParamsTemporalSpec.v
theories/ParamsTemporalLemmas.v
theories/ParamMemorySpec.v
theories/ParamMemoryLemmas.v
theories/Props_Temporal.v
theories/Aggregator.v
theories/AggregatorSpec.v
theories/PeriodLemmas.v
theories/AggregatorLemmas.v
theories/AggregatorRunLemmas.v
theories/AggregatorEndLemmas.v
theories/LockstepLemmas.v
theories/Memory.v
theories/MemorySpec.v
theories/MemoryLemmas.v
theories/MemoryRunLemmas.v
theories/MemoryFinalLemmas.v
theories/Props_Recorder.v
theories/ControlCurves.v
theories/ControlCurvesSpec.v
theories/ControlCurvesLemmas.v
theories/Props_Curves.v
theories/Profiles.v
theories/ProfilesSpec.v
theories/ProfilesLemmas.v
theories/Props_Profiles.v
theories/Lookups.v
theories/LookupsSpec.v
theories/LookupsLemmas.v
theories/Props_Lookups.v
theories/Run.v
theories/RunSpec.v
theories/RunLemmas.v
theories/Props_Run.v
theories/MultiNetwork.v
theories/MultiNetworkSpec.v
theories/MultiNetworkLemmas.v
theories/Props_Multi.v
theories/Formulas.v
theories/SchemaNodes.v
theories/SchemaMetrics.v
theories/SchemaSpec.v
theories/SchemaLemmas.v
theories/SchemaNodeLemmas.v
theories/SchemaEdgeLemmas.v
theories/Props_Schema.v
theories/Props_SchemaEdges.v
theories/Props_SchemaMore.v
theories/SchemaRun.v
theories/SchemaRunCheck.v
theories/RoutingSpec.v
theories/Props_Routing.v
theories/PowerSpec.v
theories/Props_Power.v
theories/PiecewiseSpec.v
theories/Props_Piecewise.v
theories/Tables.v
theories/TablesSpec.v
theories/TablesLemmas.v
theories/Props_Tables.v
theories/Timeseries.v
theories/TimeseriesSpec.v
theories/TimeseriesLemmas.v
theories/Props_Timeseries.v
theories/Props_TimeseriesRefs.v
theories/IpmCholesky.v
theories/IpmStep.v
theories/IpmSpec.v
theories/IpmRunSpec.v
theories/IpmDense.v
theories/IpmSymbolic.v
theories/IpmNumeric.v
theories/IpmSolve.v
theories/IpmStepLemmas.v
theories/IpmLoopLemmas.v
theories/IpmBufferLemmas.v
theories/Props_Ipm.v
theories/IpmLp.v
theories/IpmLpSpec.v
theories/IpmLpCols.v
theories/IpmLpRows.v
theories/IpmLpIndep.v
theories/IpmLpPosed.v
theories/IpmLpUpdate.v
theories/IpmLpSolve.v
theories/IpmLpRun.v
theories/Props_IpmLp.v
theories/Outputs.v
theories/OutputsSpec.v
theories/OutputsLemmas.v
theories/OutputsWide.v
theories/OutputsLong.v
theories/Props_Outputs.v
theories/SchemaVirtual.v
theories/SchemaVirtualSpec.v
theories/SchemaVirtualLemmas.v
theories/SchemaVirtualRefs.v
theories/Props_SchemaVirtual.v
theories/Props_SchemaLicence.v
theories/Props_SchemaVirtualEx.v
theories/MetricSets.v
theories/MetricSetsSpec.v
theories/Props_MetricSets.v
theories/V1Convert.v
theories/V1ConvertSpec.v
theories/V1ConvertLemmas.v
theories/V1ConvertNetLemmas.v
theories/Props_V1Convert.v
theories/SchemaParams.v
theories/SchemaParamsSpec.v
theories/SchemaParamsLemmas.v
theories/SchemaParamsMeaning.v
theories/Props_SchemaParams.v
theories/Backends.v
theories/BackendsSpec.v
theories/BackendsLemmas.v
theories/BackendsMain.v
theories/BackendsFeat.v
theories/Props_Backends.v
theories/SchemaDomain.v
theories/SchemaDomainSpec.v
theories/Props_SchemaDomain.v
theories/SchemaMulti.v
theories/SchemaMultiSpec.v
theories/SchemaMultiLemmas.v
theories/Props_SchemaMulti.v
theories/Visit.v
theories/VisitSpec.v
theories/VisitLemmas.v
theories/VisitVisitors.v
theories/Props_Visit.v
theories/PyParams.v
theories/PyParamsSpec.v
theories/PyParamsLemmas.v
theories/Props_PyParams.v
theories/IpmOcl.v
theories/IpmOclSpec.v
theories/IpmOclLemmas.v
theories/IpmOclLp.v
theories/Props_IpmOcl.v
theories/SchemaOutputs.v
theories/SchemaOutputsSpec.v
theories/SchemaOutputsLemmas.v
theories/SchemaOutputsLoad.v
theories/Props_SchemaOutputs.v
theories/Serde.v
theories/SerdeTypes.v
theories/SerdeSpec.v
theories/SerdeCheck.v
theories/SerdeLemmas.v
theories/SerdeSame.v
theories/Props_Serde.v
theories/Ffi.v
theories/FfiSpec.v
theories/FfiLemmas.v
theories/FfiMain.v
theories/Props_Ffi.v
theories/Launch.v
theories/LaunchSpec.v
theories/LaunchLemmas.v
theories/Props_Launch.v
theories/Float64.v
theories/Float64Order.v
theories/Float64Spec.v
theories/Float64Real.v
theories/Float64Lemmas.v
theories/Float64Error.v
theories/Float64Sum.v
theories/Float64More.v
theories/Float64Rows.v
theories/Props_Float64.v
theories/DataFiles.v
theories/DataFilesSpec.v
theories/DataFilesLemmas.v
theories/Props_DataFiles.v
theories/V1Components.v
theories/V1ComponentsSpec.v
theories/V1ComponentsLemmas.v
theories/Props_V1Components.v
theories/ParamTiers.v
theories/ParamTiersLemmas.v
theories/ParamTiersSpec.v
theories/ParamTiersMain.v
theories/ParamTiersBuild.v
theories/Props_ParamTiers.v
theories/WholeRun.v
theories/WholeRunSpec.v
theories/WholeRunLemmas.v
theories/WholeRunFacts.v
theories/WholeRunMore.v
theories/WholeRunCode.v
theories/LpEnv.v
theories/WholeRunMain.v
theories/Props_WholeRun.v
theories/NodeParams.v
theories/NodeSpecial.v
theories/NodeSpecialSpec.v
theories/NodeSpecialMain.v
theories/NodeParamsSpec.v
theories/NodeParamsLemmas.v
theories/NodeSpecialLemmas.v
theories/Props_NodeParams.v
theories/Props_Deficit.v
theories/Radial.v
theories/RadialLemmas.v
theories/Props_Radial.v
theories/Recorders.v
theories/Props_Recorders.v
theories/ScenarioConst.v
theories/Props_ScenarioConst.v
theories/Props_Float64Bound.v
theories/NodeAttrs.v
theories/Props_NodeAttrs.v
theories/VariablesU32.v
theories/Props_VariablesU32.v
theories/ParamIndexRef.v
theories/Props_ParamIndexRef.v
