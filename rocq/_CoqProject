-Q theories Verif
theories/Cpp.v
theories/CppProof.v
theories/MaiModel.v
theories/MaiSpec.v
theories/Radix.v
theories/MaiProof.v
theories/MaiProps.v
theories/CdModel.v
theories/CdSpec.v
theories/CdProof.v
theories/Ieee.v
theories/CdOpt.v
theories/CdProps.v
theories/OMap.v
theories/CmdModel.v
theories/CmdSpec.v
theories/CmdProof.v
theories/CmdProps.v
theories/FilterModel.v
theories/FilterSpec.v
theories/FilterProof.v
theories/FilterRank.v
theories/FilterWorld.v
theories/FilterSum.v
theories/FilterProg.v
theories/FilterProps.v
theories/RealArith.v
theories/LapModel.v
theories/LapSpec.v
theories/LapProof.v
theories/LapProps.v
theories/UpModel.v
theories/UpSpec.v
theories/UpProof.v
theories/UpExact.v
theories/UpProps.v
theories/Double.v
theories/DblSpec.v
theories/DblProof.v
theories/DblField.v
theories/AccModel.v
theories/AccSpec.v
theories/AccProof.v
theories/AccProps.v
theories/UpMpiModel.v
theories/UpMpiSpec.v
theories/UpMpiProof.v
theories/UpMpiProps.v
theories/VtkModel.v
theories/VtkSpec.v
theories/VtkProps.v
theories/MpiSchedModel.v
theories/MpiSchedSpec.v
theories/MpiSchedProof.v
theories/MpiSchedFilter.v
theories/MpiSchedProps.v
theories/ParModel.v
theories/ParSpec.v
theories/ParProof.v
theories/ParProps.v
theories/DrvModel.v
theories/DrvSpec.v
theories/DrvProps.v
theories/DblProps.v
theories/NumModel.v
theories/NumSpec.v
theories/NumProof.v
theories/NumProps.v
theories/TextModel.v
theories/TextSpec.v
theories/TextProof.v
theories/TextRun.v
theories/TextProps.v
theories/FileProps.v
theories/DblSten.v
theories/UmDblProps.v
theories/MpiTextModel.v
theories/MpiTextSpec.v
theories/MpiTextProof.v
theories/MpiTextProps.v
theories/MpiReportProps.v
theories/WrapSpec.v
theories/WrapProof.v
theories/WrapProps.v
theories/MpiMainModel.v
theories/MpiMainProof.v
theories/LeakProps.v
theories/MpiMainSpec.v
theories/MpiMainCalls.v
theories/MpiMainRun.v
theories/MpiMainProps.v
theories/LangSpec.v
theories/FortModel.v
theories/FortProof.v
theories/FortProps.v
theories/ReachProof.v
theories/ReachProps.v
theories/PySpec.v
theories/PyModel.v
theories/PyProof.v
theories/PyProps.v
theories/JlSpec.v
theories/JlModel.v
theories/JlProof.v
theories/JlProps.v
theories/MmModel.v
theories/MmSpec.v
theories/MmProof.v
theories/MmProps.v
theories/LapDbl.v
theories/LapDblProps.v
theories/UpLongProps.v
theories/ConvSpec.v
theories/ConvProof.v
theories/ConvProps.v
theories/WalkSpec.v
theories/WalkProps.v
theories/WalkSumProps.v
theories/PyMpiModel.v
theories/PyMpiSpec.v
theories/PyMpiProof.v
theories/PyMpiProps.v
theories/PyMpiDbl.v
theories/PyMpiDblProps.v
theories/FlowProof.v
theories/FortDbl.v
theories/FortTextModel.v
theories/FortDblProps.v
theories/FortFile.v
theories/FortFront.v
theories/FortFileProps.v
theories/FortThreadModel.v
theories/FortThreadProps.v
theories/NeighbourProps.v
theories/CyModel.v
theories/CyProof.v
theories/PrintModel.v
theories/CyProps.v
theories/BestProps.v
theories/DiagProps.v
theories/StabProps.v
theories/MomentProps.v
theories/FourierProps.v
theories/RoundProof.v
theories/StdProof.v
theories/RoundProps.v
theories/RoundOtherProps.v
theories/TeamProps.v
theories/LimitProps.v
theories/FlowGap.v
theories/FortRoundProps.v
theories/StenGap.v
theories/MpiRoundProps.v
theories/PyMpiRoundProps.v
theories/CyFileModel.v
theories/CyFileProps.v
theories/LapSineProps.v
