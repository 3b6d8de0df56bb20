-Q theories Verif
theories/Base.v
theories/BaseFacts.v
theories/TimingModel.v
theories/TimingSpec.v
theories/TimingProofs.v
theories/Prop_Timing.v
theories/InflationModel.v
theories/InflationProofs.v
theories/ScenarioModel.v
theories/ScenarioProofs.v
theories/Prop_Inflation.v
theories/InflationSpec.v
theories/LedgerModel.v
theories/LedgerProofs.v
theories/Prop_Ledger.v
theories/RBase.v
theories/GrowthModel.v
theories/GrowthProofs.v
theories/AccountModel.v
theories/AccountSpec.v
theories/AccountProofs.v
theories/Prop_Account.v
theories/LinkModel.v
theories/LinkSpec.v
theories/LinkProofs.v
theories/Prop_Link.v
theories/PersonModel.v
theories/PersonSpec.v
theories/PersonProofs.v
theories/Prop_Person.v
theories/RegModel.v
theories/RegSpec.v
theories/RegProofs.v
theories/Prop_Registered.v
theories/Prop_RRSP.v
theories/Prop_TFSA.v
theories/TaxableModel.v
theories/TaxableSpec.v
theories/TaxableProofs.v
theories/Prop_Taxable.v
theories/TaxModel.v
theories/TaxSpec.v
theories/TaxProofs.v
theories/TaxProofs2.v
theories/TaxProofs3.v
theories/Prop_Tax.v
theories/TaxCanadaModel.v
theories/Prop_TaxCanada.v
theories/StrategyModel.v
theories/Prop_Strategy.v
theories/LivingModel.v
theories/Prop_Living.v
theories/TxStratModel.v
theories/TxGraphModel.v
theories/Prop_TxStrat.v
theories/TxFlowFacts.v
theories/TxFlowShape.v
theories/TxFlowAccounts.v
theories/TxFlowZero.v
theories/Prop_TxNode.v
theories/Prop_TxGraph.v
theories/Prop_TxOrder.v
theories/SubModel.v
theories/Prop_SubForecast.v
theories/ForecastsModel.v
theories/Prop_Forecasts.v
theories/HorizonModel.v
theories/Prop_Horizon.v
theories/PrecisionModel.v
theories/ReaderModel.v
theories/Prop_Precision.v
theories/Prop_Reader.v
theories/Prop_ReaderFile.v
theories/ForecasterModel.v
theories/Prop_Forecaster.v
theories/DebtPayModel.v
theories/Prop_DebtPay.v
theories/PersonDatesModel.v
theories/Prop_PersonDates.v
theories/DeepCopyModel.v
theories/DeepCopyProofs.v
theories/Prop_DeepCopy.v
theories/MappingModel.v
theories/Prop_Mapping.v
theories/TxFlowNode.v
theories/Prop_NodeLimit.v
theories/Prop_PlainAccount.v
theories/Prop_Available.v
theories/Prop_TxWeighted.v
theories/RegBuildModel.v
theories/Prop_RegBuild.v
theories/CanadaConstsModel.v
theories/Prop_CanadaConsts.v
theories/Prop_PersonTax.v
theories/TxFlowLead.v
theories/TxSolver.v
theories/TxFlowLine.v
theories/Prop_TxLead.v
theories/ReportModel.v
theories/Prop_Reported.v
theories/AccountLedgerModel.v
theories/Prop_AccountYears.v
theories/Prop_NetWorth.v
theories/ShiftModel.v
theories/Prop_Shift.v
theories/PersonYearsModel.v
theories/Prop_PersonYears.v
theories/KindModel.v
theories/Prop_Kind.v
theories/RoundTaxModel.v
theories/Prop_RoundTax.v
theories/RoundModel.v
theories/Prop_Round.v
theories/TxDictModel.v
theories/Prop_TxDict.v
theories/KindTaxModel.v
theories/Prop_KindTax.v
theories/KindRegModel.v
theories/Prop_KindReg.v
theories/KindStratModel.v
theories/Prop_KindStrat.v
theories/DecoratorModel.v
theories/Prop_Decorator.v
theories/TaxMultiModel.v
theories/Prop_TaxMulti.v
theories/PlanForecastModel.v
theories/Prop_PlanForecast.v
theories/Prop_PlanFull.v
theories/CanadaForecastModel.v
theories/Prop_CanadaForecast.v
theories/KindSubModel.v
theories/Prop_KindSub.v
