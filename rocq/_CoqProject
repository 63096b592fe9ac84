-Q theories Verif
theories/Py.v
theories/Num.v
theories/Dict.v
theories/DataModel.v
theories/DataSpec.v
theories/DataCheck.v
theories/DataProofs.v
theories/DataProofs2.v
theories/DataRejected.v
theories/DataProofs3.v
theories/DataProofs4.v
theories/WPointsModel.v
theories/WPointsSpec.v
theories/WPointsProofs.v
theories/DataProps.v
theories/DataKeyProps.v
theories/Trig.v
theories/WindModel.v
theories/WindSpec.v
theories/WindProofs.v
theories/WindProps.v
theories/PySort.v
theories/NhoodModel.v
theories/NhoodSpec.v
theories/NhoodProofs.v
theories/NhoodProps.v
theories/InterpModel.v
theories/InterpSpec.v
theories/InterpProofs.v
theories/InterpProps.v
theories/ShepardProps.v
theories/ListX.v
theories/TableModel.v
theories/TableSpec.v
theories/TableProofs.v
theories/TableProofs2.v
theories/TableProofs3.v
theories/TableProofs4.v
theories/TableProps.v
theories/CsvModel.v
theories/CsvSpec.v
theories/CsvProofs.v
theories/CsvProps.v
theories/BaseModel.v
theories/BaseProps.v
theories/CurveModel.v
theories/CurveProps.v
theories/CloudModel.v
theories/CloudProps.v
theories/MultiModel.v
theories/MultiProps.v
theories/CsvTextModel.v
theories/CsvTextProps.v
theories/FilterModel.v
theories/FilterProps.v
theories/WeigherModel.v
theories/WeigherProps.v
theories/FuzzyModel.v
theories/FuzzyProps.v
theories/FuzzyTextProps.v
theories/ImputModel.v
theories/ImputProps.v
theories/SmoothModel.v
theories/SmoothProps.v
theories/SamplerModel.v
theories/SamplerProps.v
theories/HandlerModel.v
theories/HandlerProps.v
theories/InjectModel.v
theories/InjectProps.v
theories/ModelFunModel.v
theories/ModelFunProps.v
theories/RegrModel.v
theories/RegrProps.v
theories/PipeModel.v
theories/PipeSpec.v
theories/PipeProps.v
theories/ExtModel.v
theories/ExtProps.v
theories/ExpandModel.v
theories/ExpandProps.v
theories/QAModel.v
theories/QAProps.v
theories/InfluenceModel.v
theories/InfluenceProps.v
theories/WeatherModel.v
theories/WeatherProps.v
theories/MeteoModel.v
theories/MeteoProps.v
theories/GlobeModel.v
theories/GlobeSpec.v
theories/GlobeProofs.v
theories/GlobeProps.v
theories/CruiseModel.v
theories/CruiseSpec.v
theories/ConvexProofs.v
theories/ConvexProps.v
theories/CruiseProps.v
theories/CourseProps.v
theories/IsochroneProps.v
theories/PlotModel.v
theories/PlotProps.v
theories/LegendModel.v
theories/LegendProps.v
theories/GradientModel.v
theories/GradientProps.v
theories/PlotAllModel.v
theories/PlotAllProps.v
theories/DefaultsModel.v
theories/DefaultsProps.v
theories/FloatMod.v
theories/FloatUnit.v
theories/FloatSteps.v
theories/FloatAverage.v
theories/FloatSmooth.v
theories/FloatWeather.v
theories/FloatQuantile.v
theories/FloatMirror.v
theories/DataTextModel.v
theories/DataTextProps.v
theories/StrModel.v
theories/StrSpec.v
theories/StrProps.v
theories/WholeModel.v
theories/WholeProofs.v
theories/WholeProps.v
theories/RowsModel.v
theories/RowsProps.v
theories/SpaceModel.v
theories/SpaceProps.v
theories/FullModel.v
theories/FullProofs.v
theories/FullProps.v
theories/WeatherText.v
theories/RefuseProps.v
theories/ExternProps.v
theories/ArrayTextModel.v
theories/ArrayTextProps.v
theories/ReprModel.v
theories/ReprProps.v
theories/SharedModel.v
theories/SharedSpec.v
theories/SharedProofs.v
theories/SharedProps.v
theories/NmeaRowsProps.v
theories/PlotMoreProps.v
theories/ImputDefaultProps.v
theories/ArgsModel.v
theories/ArgsProps.v
theories/FloatTable.v
theories/FloatSpace.v
theories/SmoothExact.v
theories/StatsModel.v
theories/StatsSpec.v
theories/StatsProofs.v
theories/StatsProps.v
theories/DirTextModel.v
theories/DirTextProps.v
theories/SmoothTies.v
theories/FloatTableSym.v
theories/FloatWeigh.v
theories/CsvLines.v
theories/ArrayLines.v
theories/PlotHull.v
theories/FloatFluct.v
theories/ConvexInfluence.v
theories/ConvexSails.v
theories/FloatMember.v
theories/FloatTimes.v
theories/FloatFill.v
theories/FloatNmea.v
theories/FloatQA.v
theories/HandlerRest.v
