-Q theories Verif
theories/Py.v
theories/PyProofs.v
theories/ChanModel.v
theories/ChanSpec.v
theories/ChanProofs.v
theories/ChanSetProofs.v
theories/ChanStreamProofs.v
theories/ChanConciseProofs.v
theories/ChanProps.v
theories/SeqModel.v
theories/SeqProps.v
theories/AliasModel.v
theories/AliasSpec.v
theories/AliasProofs.v
theories/AliasProps.v
theories/GeomModel.v
theories/GeomProofs.v
theories/GeomProps.v
theories/ScaleModel.v
theories/ScaleProofs.v
theories/ScaleProps.v
theories/GraphModel.v
theories/GraphSpec.v
theories/GraphBase.v
theories/GraphTake.v
theories/GraphOpt.v
theories/GraphMain.v
theories/GraphSound.v
theories/GraphSize.v
theories/GraphTotal.v
theories/WarpTotal.v
theories/WarpCanon.v
theories/FinalModel.v
theories/FinalSpec.v
theories/FinalProofs.v
theories/GraphProps.v
theories/QuantModel.v
theories/QuantSpec.v
theories/QuantProofs.v
theories/QuantFloat.v
theories/QuantProps.v
theories/QuantRange.v
theories/QuantRangeProps.v
theories/QuantNear.v
theories/QuantNearProps.v
theories/TakeModel.v
theories/TakeSpec.v
theories/TakeProofs.v
theories/CropProofs.v
theories/NamedProofs.v
theories/TakeVisProofs.v
theories/TakeVisProps.v
theories/TakeProps.v
theories/TakeListModel.v
theories/TakeListProps.v
theories/ExactProps.v
theories/EncodeModel.v
theories/EncodeSpec.v
theories/EncodeProofs.v
theories/EncodeProps.v
theories/EncodeExactProps.v
theories/EncodeModeProps.v
theories/LazyModel.v
theories/LazySpec.v
theories/LazyProofs.v
theories/LazyProps.v
theories/LazyExactProps.v
theories/ReadModel.v
theories/ReadSpec.v
theories/ReadProofs.v
theories/ReadProps.v
theories/TreeModel.v
theories/TreeSpec.v
theories/TreeProofs.v
theories/TreeProps.v
theories/NetModel.v
theories/NetSpec.v
theories/NetProofs.v
theories/NetProps.v
theories/SensorModel.v
theories/SensorSpec.v
theories/SensorProofs.v
theories/SensorStreamProofs.v
theories/SensorConciseProofs.v
theories/SensorEmptyProofs.v
theories/SensorProps.v
theories/SensorFixProofs.v
theories/SensorFixProps.v
theories/XformModel.v
theories/XformSpec.v
theories/XformProofs.v
theories/XformProps.v
theories/XformExactProps.v
theories/MemoModel.v
theories/MemoFrame.v
theories/MemoStep.v
theories/MemoGood.v
theories/MemoExact.v
theories/MemoKeep.v
theories/MemoSpec.v
theories/MemoProofs.v
theories/MemoProps.v
theories/LoadModel.v
theories/LoadSpec.v
theories/LoadProofs.v
theories/LoadReads.v
theories/LoadOver.v
theories/LoadProps.v
theories/MaskProps.v
theories/AxisProps.v
theories/ApiModel.v
theories/ApiSpec.v
theories/ApiProofs.v
theories/ApiProps.v
theories/PixModel.v
theories/PixSpec.v
theories/PixProofs.v
theories/PixProps.v
theories/NetParseModel.v
theories/NetParseSpec.v
theories/NetText.v
theories/NetParseProofs.v
theories/NetParseProps.v
theories/SensorCoerceModel.v
theories/SensorCoerceProofs.v
theories/SensorCoerceProps.v
theories/EnviModel.v
theories/EnviSpec.v
theories/EnviProofs.v
theories/EnviProps.v
theories/OvTotal.v
theories/OvExactProps.v
theories/OvSizeProps.v
theories/CutProofs.v
theories/CutProps.v
theories/MemberModel.v
theories/MemberProps.v
theories/HistModel.v
theories/HistSpec.v
theories/HistProofs.v
theories/HistProps.v
theories/XarrayModel.v
theories/XarrayProps.v
theories/NonzeroModel.v
theories/NonzeroProps.v
theories/NestModel.v
theories/NestProps.v
theories/ValidModel.v
theories/ValidProps.v
theories/NodataModel.v
theories/NodataProps.v
theories/AccumModel.v
theories/AccumProps.v
theories/GivenModel.v
theories/GivenProps.v
theories/SettingsProps.v
theories/ReprProps.v
theories/MetaProps.v
theories/SourcesProps.v
theories/EqModel.v
theories/EqProps.v
theories/IndexProps.v
theories/HandleModel.v
theories/HandleSpec.v
theories/HandleProofs.v
theories/HandleProps.v
theories/LoadHistModel.v
theories/LoadHistProps.v
theories/PathProps.v
theories/FloatSizeModel.v
theories/FloatSizeProps.v
theories/FloatWarpProps.v
theories/BandIndexModel.v
theories/BandIndexSpec.v
theories/BandIndexProofs.v
theories/BandIndexProps.v
theories/NansProps.v
theories/OsetModel.v
theories/OsetSpec.v
theories/OsetProofs.v
theories/OsetProps.v
theories/OvConcatProps.v
theories/OvGrowProofs.v
theories/OvGrowDq.v
theories/ChanSetProps.v
theories/OvGrowProps.v
theories/OvWarpSizeProps.v
