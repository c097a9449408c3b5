-Q theories Verif
theories/Py.v
theories/PyFacts.v
theories/LogModel.v
theories/MutModel.v
theories/MutSpec.v
theories/MutProofs.v
theories/MutProps.v
theories/HashModel.v
theories/SplitModel.v
theories/GroupFacts.v
theories/SplitSpec.v
theories/SplitProofs.v
theories/SplitProps.v
theories/InfoModel.v
theories/InfoSpec.v
theories/InfoProofs.v
theories/InfoProps.v
theories/EntropyModel.v
theories/EntropySpec.v
theories/EntropyProofs.v
theories/EntropyProps.v
theories/PosModel.v
theories/PosSpec.v
theories/PosProofs.v
theories/PosProps.v
theories/FilterModel.v
theories/FilterSpec.v
theories/FilterProofs.v
theories/FilterIndProofs.v
theories/FilterProps.v
theories/EqModel.v
theories/EqSpec.v
theories/EqProofs.v
theories/EqProps.v
theories/TextModel.v
theories/TextSpec.v
theories/TextProofs.v
theories/TextProps.v
theories/XesModel.v
theories/XesSpec.v
theories/XesProofs.v
theories/XesLogProofs.v
theories/XesProps.v
theories/PatternModel.v
theories/PatternSpec.v
theories/PatternProofs.v
theories/RepeatProofs.v
theories/PatternProps.v
theories/TreeModel.v
theories/TreeSpec.v
theories/TreeProofs.v
theories/TreeProps.v
theories/ActModel.v
theories/ActSpec.v
theories/ActProofs.v
theories/ActProps.v
theories/ActLogModel.v
theories/ActLogSpec.v
theories/ActLogProofs.v
theories/ActLogProps.v
theories/TileModel.v
theories/TileSpec.v
theories/TileProofs.v
theories/TileProps.v
theories/ClassModel.v
theories/ClassSpec.v
theories/ClassProofs.v
theories/ClassProps.v
theories/NearModel.v
theories/NearSpec.v
theories/NearProofs.v
theories/NearProps.v
theories/HeapModel.v
theories/HeapSpec.v
theories/HeapProofs.v
theories/HeapProps.v
theories/CtxModel.v
theories/CtxSpec.v
theories/CtxProofs.v
theories/CtxProps.v
theories/PipeModel.v
theories/PipeSpec.v
theories/PipeProofs.v
theories/PipeProps.v
theories/HMutModel.v
theories/HMutSpec.v
theories/HMutProofs.v
theories/HMutCtxProofs.v
theories/HMutProps.v
theories/ColorModel.v
theories/ColorSpec.v
theories/ColorProofs.v
theories/ColorDrawProofs.v
theories/ColorProps.v
theories/DrawModel.v
theories/DrawSpec.v
theories/DrawProofs.v
theories/DrawPlaceProofs.v
theories/DrawProps.v
theories/ConstModel.v
theories/WireModel.v
theories/ClientModel.v
theories/ClientSpec.v
theories/ClientProofs.v
theories/ClientProps.v
theories/FloatFacts.v
theories/DecodeModel.v
theories/BackendModel.v
theories/BackendSpec.v
theories/BackendProofs.v
theories/BackendConfig.v
theories/ResultSpec.v
theories/ResultProofs.v
theories/BackendProps.v
theories/NeedSpec.v
theories/NeedProofs.v
theories/NeedProps.v
theories/ResultProps.v
theories/HighModel.v
theories/HighSpec.v
theories/HighProofs.v
theories/HighLevelProofs.v
theories/HighFresh.v
theories/HighProps.v
theories/HighLevelProps.v
theories/PictureSpec.v
theories/PictureProofs.v
theories/PictureProps.v
theories/EndSpec.v
theories/EndProofs.v
theories/EndProps.v
theories/GraphModel.v
theories/GraphSpec.v
theories/GraphProofs.v
theories/GraphProps.v
theories/ReportModel.v
theories/ReportSpec.v
theories/ReportProofs.v
theories/ReportProps.v
theories/ClusterModel.v
theories/ClusterSpec.v
theories/ClusterProofs.v
theories/ClusterProps.v
theories/DatasetModel.v
theories/DatasetSpec.v
theories/DatasetProofs.v
theories/DatasetProps.v
theories/DistModel.v
theories/DistSpec.v
theories/DistProofs.v
theories/CosineProofs.v
theories/DistProps.v
theories/ShowModel.v
theories/ShowSpec.v
theories/ShowProofs.v
theories/ShowProps.v
theories/ReplayModel.v
theories/ReplaySpec.v
theories/ReplayProofs.v
theories/ReplayProps.v
theories/RInfoModel.v
theories/RInfoSpec.v
theories/RInfoProofs.v
theories/RInfoProps.v
theories/AlphaModel.v
theories/AlphaSpec.v
theories/AlphaProofs.v
theories/AlphaProofs2.v
theories/AlphaProofs3.v
theories/AlphaProofs4.v
theories/AlphaProofs5.v
theories/AlphaProofs6.v
theories/AlphaProps.v
theories/PlusSpec.v
theories/PlusProofs.v
theories/PlusProofs2.v
theories/PlusProps.v
theories/SufModel.v
theories/SufSpec.v
theories/SufProofs1.v
theories/SufProofs2.v
theories/SufProofs3.v
theories/SufProofs4.v
theories/SufProofs5.v
theories/SufProofs6.v
theories/SufProofs7.v
theories/SufProofs8.v
theories/SufProofs9.v
theories/SufProofs10.v
theories/SufProofs11.v
theories/SufProps.v
theories/RActModel.v
theories/RActSpec.v
theories/RActProofs1.v
theories/RActProofs2.v
theories/RActProofs3.v
theories/RActProofs4.v
theories/RActProps.v
theories/RLogModel.v
theories/RLogSpec.v
theories/RLogProofs.v
theories/RLogProps.v
theories/RPipeModel.v
theories/RPipeSpec.v
theories/RPipeProofs.v
theories/RPipeProps.v
theories/RFiltModel.v
theories/RFiltSpec.v
theories/RFiltProofs.v
theories/RFiltProps.v
theories/ConvModel.v
theories/ConvSpec.v
theories/ConvProofs.v
theories/ConvProps.v
theories/SvcModel.v
theories/SvcSpec.v
theories/SvcProofs.v
theories/SvcProps.v
theories/RXesModel.v
theories/RXesSpec.v
theories/RXesProofs.v
theories/RXesProofs2.v
theories/RXesProofs3.v
theories/RXesProps.v
theories/TightSpec.v
theories/TightProofs.v
theories/TightProps.v
theories/HeurModel.v
theories/HeurSpec.v
theories/HeurProofs1.v
theories/HeurProofs2.v
theories/HeurProofs3.v
theories/HeurProofs4.v
theories/HeurProofs5.v
theories/HeurProps.v
theories/CrossModel.v
theories/CrossSpec.v
theories/CrossProofs1.v
theories/CrossProofs2.v
theories/CrossProofs3.v
theories/CrossProps.v
theories/FuzzyModel.v
theories/FuzzySpec.v
theories/FuzzyProofs1.v
theories/FuzzyProofs2.v
theories/FuzzyProofs3.v
theories/FuzzyProofs4.v
theories/FuzzyProofs5.v
theories/FuzzyProofs6.v
theories/FuzzyProps.v
theories/PnmlModel.v
theories/PnmlSpec.v
theories/PnmlProofs.v
theories/PnmlProofs2.v
theories/PnmlProps.v
theories/BxesModel.v
theories/BxesSpec.v
theories/BxesProofs.v
theories/BxesProofs2.v
theories/BxesProofs3.v
theories/BxesProofs4.v
theories/BxesProps.v
theories/NfcModel.v
theories/NfcSpec.v
theories/NfcProofs.v
theories/NfcProofs2.v
theories/NfcProps.v
theories/REntModel.v
theories/REntProofs.v
theories/REntProofs2.v
theories/REntProps.v
theories/ITreeModel.v
theories/ITreeSpec.v
theories/ITreeProofs.v
theories/ITreeProps.v
theories/UDataModel.v
theories/UDataSpec.v
theories/UDataProofs.v
theories/UDataProps.v
theories/Tight2Props.v
theories/NfcNetModel.v
theories/NfcNetSpec.v
theories/NfcNetProofs.v
theories/NfcNetProofs2.v
theories/NfcNetProofs3.v
theories/NfcNetProps.v
theories/NfcRelSpec.v
theories/NfcRelProofs.v
theories/NfcRelProps.v
theories/NfcPlaceSpec.v
theories/NfcPlaceProofs.v
theories/NfcPlaceProps.v
theories/SharpModel.v
theories/SharpSpec.v
theories/SharpProofs.v
theories/SharpProps.v
theories/Tight3Props.v
theories/NfcStepProps.v
theories/IterModel.v
theories/IterSpec.v
theories/IterProps.v
theories/PnetModel.v
theories/PnetSpec.v
theories/PnetProps.v
