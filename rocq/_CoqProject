-Q theories Verif
theories/Base.v
theories/BaseLemmas.v
theories/Rounding.v
theories/TileModel.v
theories/TileSpec.v
theories/TileProofs.v
theories/ClipModel.v
theories/ClipProofs.v
theories/PyStr.v
theories/NameModel.v
theories/NameSpec.v
theories/NameProofs.v
theories/TileNameProofs.v
theories/TileProps.v
theories/NameProps.v
theories/SchedModel.v
theories/SchedSpec.v
theories/SchedProofs.v
theories/SchedStoreProofs.v
theories/SchedProps.v
theories/PipeModel.v
theories/PipeSpec.v
theories/PipeProofs.v
theories/PipeRunProofs.v
theories/PipeProps.v
theories/PhaseModel.v
theories/PhaseSpec.v
theories/PhaseProofs.v
theories/PhaseProps.v
theories/ConvModel.v
theories/DistModel.v
theories/ConvSpec.v
theories/ConvProofs.v
theories/ConvRunSpec.v
theories/ConvRunProofs.v
theories/ConvProps.v
theories/DistProofs.v
theories/DistProps.v
theories/WholeSpec.v
theories/WholeProofs.v
theories/WholeProps.v
theories/TerrModel.v
theories/TerrSpec.v
theories/TerrProofs.v
theories/TerrRunProofs.v
theories/MzModel.v
theories/MzProofs.v
theories/TerrProps.v
theories/ShldModel.v
theories/ShldSpec.v
theories/ShldProofs.v
theories/ShldKernProofs.v
theories/ShldRunProofs.v
theories/ShldProps.v
theories/TopoModel.v
theories/TopoSpec.v
theories/TopoLineProofs.v
theories/TopoMhProofs.v
theories/TopoCalcProofs.v
theories/TopoHillProofs.v
theories/TopoPathProofs.v
theories/TopoRunProofs.v
theories/TopoStageProofs.v
theories/TopoProps.v
theories/NcModel.v
theories/NcSpec.v
theories/NcProofs.v
theories/NcProps.v
theories/BlrbModel.v
theories/BlrbSpec.v
theories/BlrbProofs.v
theories/BlrbProps.v
theories/UtilModel.v
theories/UtilSpec.v
theories/UtilProofs.v
theories/UtilProps.v
theories/SingModel.v
theories/SingProps.v
theories/RunModel.v
theories/RunSpec.v
theories/RunProofs.v
theories/RunProps.v
theories/PreModel.v
theories/PreSpec.v
theories/PreProofs.v
theories/PreProps.v
theories/TilingProps.v
theories/Atan2.v
theories/SlopeSpec.v
theories/SlopeProofs.v
theories/SlopeProps.v
theories/RPoly.v
theories/VincModel.v
theories/VincSpec.v
theories/VincProofs.v
theories/VincSeries.v
theories/VincRunProofs.v
theories/VincGeoProofs.v
theories/VincTermProofs.v
theories/VincProps.v
theories/PixModel.v
theories/PixSpec.v
theories/PixProofs.v
theories/PixProps.v
theories/DirSpec.v
theories/DirProofs.v
theories/DirProps.v
theories/GcModel.v
theories/GcSpec.v
theories/GcProps.v
theories/SaveModel.v
theories/SaveSpec.v
theories/SaveProofs.v
theories/SaveProps.v
theories/LogModel.v
theories/LogProofs.v
theories/LogProps.v
theories/FailModel.v
theories/FailProofs.v
theories/FailProps.v
theories/ReprModel.v
theories/ReprSpec.v
theories/ReprProofs.v
theories/ReprProps.v
theories/SizeProps.v
theories/RastModel.v
theories/RastSpec.v
theories/RastProps.v
theories/ProgModel.v
theories/ProgProofs.v
theories/ProgProps.v
theories/TcutSpec.v
theories/TcutProofs.v
theories/TcutGridProofs.v
theories/TcutRampProofs.v
theories/TcutProps.v
theories/CsvModel.v
theories/CsvSpec.v
theories/CsvProofs.v
theories/CsvProps.v
theories/StartModel.v
theories/StartSpec.v
theories/StartProofs.v
theories/StartProps.v
theories/TurnSpec.v
theories/TurnProofs.v
theories/TurnTopoProofs.v
theories/TurnShldProofs.v
theories/TurnProps.v
theories/IniModel.v
theories/IniSpec.v
theories/IniProofs.v
theories/IniProps.v
theories/ShiftSpec.v
theories/ShiftProofs.v
theories/ShiftProps.v
theories/CmdModel.v
theories/CmdSpec.v
theories/CmdProofs.v
theories/CmdProps.v
theories/FloatSpec.v
theories/FloatModel.v
theories/FloatRndProofs.v
theories/FloatTerrProofs.v
theories/FloatShldProofs.v
theories/FloatProps.v
theories/SeamProofs.v
theories/SeamProps.v
theories/StageModel.v
theories/StageSpec.v
theories/StageProofs.v
theories/StageProps.v
theories/SensSpec.v
theories/SensProofs.v
theories/SensProps.v
theories/TypeProps.v
theories/HistModel.v
theories/HistProofs.v
theories/HistProps.v
theories/TopoFlSpec.v
theories/TopoFlProofs.v
theories/TopoFlEndProofs.v
theories/TopoFlHillProofs.v
theories/TopoFlProps.v
theories/TopoRndSpec.v
theories/TopoRndModel.v
theories/TopoRndProofs.v
theories/TopoRndProps.v
theories/HelpSpec.v
theories/HelpModel.v
theories/HelpProofs.v
theories/HelpProps.v
theories/CallSpec.v
theories/CallModel.v
theories/CallProofs.v
theories/CallProps.v
theories/PrepSpec.v
theories/PrepModel.v
theories/PrepProofs.v
theories/PrepProps.v
theories/ArgSpec.v
theories/ArgModel.v
theories/ArgProofs.v
theories/ArgProps.v
theories/ImpSpec.v
theories/ImpModel.v
theories/ImpProofs.v
theories/ImpProps.v
theories/MosSpec.v
theories/MosModel.v
theories/MosProofs.v
theories/MosProps.v
theories/ChkSpec.v
theories/ChkModel.v
theories/ChkProofs.v
theories/ChkProps.v
theories/TinySpec.v
theories/TinyModel.v
theories/TinyProofs.v
theories/TinyProps.v
theories/DateSpec.v
theories/DateModel.v
theories/DateProofs.v
theories/DateProps.v
theories/ChainSpec.v
theories/ChainProofs.v
theories/ChainProps.v
theories/TxtModel.v
theories/TxtSpec.v
theories/TxtProofs.v
theories/TxtLineProofs.v
theories/TxtProps.v
theories/NcvModel.v
theories/NcvSpec.v
theories/NcvProofs.v
theories/NcvProps.v
theories/TxtReadSpec.v
theories/TxtReadProofs.v
theories/TxtReadProps.v
theories/FmtSpec.v
theories/FmtModel.v
theories/FmtProofs.v
theories/FmtProps.v
theories/SingReModel.v
theories/SingReProps.v
theories/GitRunModel.v
theories/GitRunProps.v
