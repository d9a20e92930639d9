-Q theories Verif
theories/Word.v
theories/Int128Model.v
theories/Int128Spec.v
theories/Int128Proofs.v
theories/Int128Proofs2.v
theories/Int128Proofs3.v
theories/Int128Proofs4.v
theories/Int128Thms.v
theories/CmpModel.v
theories/CmpSpec.v
theories/CmpProofs.v
theories/CmpThms.v
theories/LitModel.v
theories/LitSpec.v
theories/LitProofs.v
theories/LitThms.v
theories/Mach.v
theories/SortModel.v
theories/SortSpec.v
theories/SortProofs.v
theories/SortProofs2.v
theories/SortThms.v
theories/CSortModel.v
theories/CSortProofs.v
theories/CSortProofs2.v
theories/CSortThms.v
theories/LexModel.v
theories/LexSpec.v
theories/LexSpec2.v
theories/LexProofs.v
theories/LexProofs2.v
theories/LexProofs3.v
theories/LexProofs4.v
theories/LexProofs5.v
theories/LexProofs6.v
theories/LexProofs7.v
theories/LexThms.v
theories/BytesModel.v
theories/BytesSpec.v
theories/BytesProofs.v
theories/BytesProofs2.v
theories/BytesThms.v
theories/ListAux.v
theories/RingModel.v
theories/RingSpec.v
theories/RingProofs.v
theories/RingThms.v
theories/BitsModel.v
theories/BitsSpec.v
theories/BitsProofs.v
theories/BitsThms.v
theories/PqModel.v
theories/PqSpec.v
theories/PqProofs.v
theories/PqThms.v
theories/ListModel.v
theories/ListSpec.v
theories/ListProofs.v
theories/ListThms.v
theories/MapModel.v
theories/MapSpec.v
theories/MapProofs.v
theories/MapThms.v
theories/LinkedModel.v
theories/LinkedSpec.v
theories/LinkedProofs.v
theories/LinkedThms.v
theories/PrattModel.v
theories/PrattSpec.v
theories/PrattProofs.v
theories/PrattProofs2.v
theories/PrattThms.v
theories/CodecModel.v
theories/CodecSpec.v
theories/CodecProofs.v
theories/B64Proofs.v
theories/B32Proofs.v
theories/HexProofs.v
theories/CodecProofs2.v
theories/UrlModel.v
theories/UrlSpec.v
theories/UrlProofs.v
theories/CodecThms.v
theories/UtfModel.v
theories/UtfSpec.v
theories/UtfProofs.v
theories/UtfThms.v
theories/SwitchModel.v
theories/SwitchSpec.v
theories/SwitchProofs.v
theories/SwitchThms.v
theories/NumModel.v
theories/NumSpec.v
theories/NumProofs.v
theories/NumProofs2.v
theories/NumThms.v
theories/CastTables.v
theories/CastModel.v
theories/CastSpec.v
theories/CastProofs.v
theories/CastThms.v
theories/LayoutModel.v
theories/LayoutSpec.v
theories/LayoutProofs.v
theories/LayoutProofs2.v
theories/LayoutProofs3.v
theories/LayoutProofs4.v
theories/LayoutProofs5.v
theories/LayoutProofs6.v
theories/LayoutThms.v
theories/BitAccModel.v
theories/BitAccSpec.v
theories/BitAccProofs.v
theories/BitAccProofs2.v
theories/BitAccProofs3.v
theories/BitAccProofs4.v
theories/BitAccThms.v
theories/ConstArrModel.v
theories/ConstArrSpec.v
theories/ConstArrProofs.v
theories/ConstArrProofs2.v
theories/ConstArrThms.v
theories/ConstCmpModel.v
theories/ConstCmpSpec.v
theories/ConstCmpProofs.v
theories/ConstCmpThms.v
theories/TabModel.v
theories/TabSpec.v
theories/TabProbe.v
theories/TabProofs.v
theories/TabProofs2.v
theories/TabThms.v
theories/ArenaModel.v
theories/ArenaSpec.v
theories/ArenaProofs.v
theories/ArenaThms.v
theories/TaskModel.v
theories/TaskProofs.v
theories/TaskThms.v
theories/ChanModel.v
theories/ChanSpec.v
theories/ChanProofs.v
theories/ChanProofs2.v
theories/ChanThms.v
theories/ChanUModel.v
theories/ChanUProofs.v
theories/ChanUProofs2.v
theories/ChanUThms.v
theories/JsonModel.v
theories/JsonSpec.v
theories/JsonProofs.v
theories/JsonSound.v
theories/JsonThms.v
theories/JsonWModel.v
theories/JsonWSpec.v
theories/JsonWProofs.v
theories/JsonWThms.v
theories/FlowAst.v
theories/FlowSpec.v
theories/FlowModel.v
theories/FlowProofs.v
theories/FlowThms.v
theories/AlcSpec.v
theories/AlcMem.v
theories/AlcAModel.v
theories/AlcProofs.v
theories/AlcASpec.v
theories/AlcAProofs.v
theories/AlcCheck.v
theories/AlcAThms.v
theories/AlcBack.v
theories/AlcOModel.v
theories/AlcBProofs.v
theories/AlcOSpec.v
theories/AlcOProofs.v
theories/AlcOThms.v
theories/AlcTModel.v
theories/AlcTSpec.v
theories/AlcTProofs.v
theories/AlcTThms.v
theories/QoiModel.v
theories/QoiSpec.v
theories/QoiProofs.v
theories/QoiThms.v
theories/BigModel.v
theories/BigSpec.v
theories/BigProofs.v
theories/BigProofs2.v
theories/BigProofs3.v
theories/BigProofs4.v
theories/BigProofs5.v
theories/BigProofs6.v
theories/BigProofs7.v
theories/BigProofs8.v
theories/BigProofs9.v
theories/BigThms.v
theories/LexNumSpec.v
theories/LexNumProofs.v
theories/LexNumProofs2.v
theories/LexNumProofs3.v
theories/LexNumProofs4.v
theories/LexNumThms.v
theories/RtModel.v
theories/RtSpec.v
theories/RtProofs.v
theories/RtProofs2.v
theories/RtProofs3.v
theories/RtProofs4.v
theories/RtProofs5.v
theories/RtThms.v
theories/HashModel.v
theories/HashUse.v
theories/HashSpec.v
theories/HashBits.v
theories/HashBlk.v
theories/Hash256.v
theories/Hash1.v
theories/Hash1b.v
theories/Hash5.v
theories/HashMac.v
theories/HashInst.v
theories/HashSum.v
theories/HashRc4.v
theories/HashThms.v
theories/MangModel.v
theories/MangSpec.v
theories/MangProofs.v
theories/MangThms.v
theories/StrModel.v
theories/StrSpec.v
theories/StrProofs.v
theories/StrNum.v
theories/StrThms.v
theories/DstrModel.v
theories/DstrSpec.v
theories/DstrProofs.v
theories/DstrProofs2.v
theories/DstrThms.v
theories/PathModel.v
theories/PathSpec.v
theories/PathProofs.v
theories/PathProofs2.v
theories/PathProofs3.v
theories/PathThms.v
theories/FmtModel.v
theories/FmtSpec.v
theories/FmtProofs.v
theories/FmtProofs2.v
theories/FmtProofs3.v
theories/FmtProofs4.v
theories/FmtProofs5.v
theories/FmtProofs6.v
theories/FmtProofs7.v
theories/FmtThms.v
theories/NameModel.v
theories/NameSpec.v
theories/NameProofs.v
theories/NameProofs2.v
theories/NameProofs3.v
theories/NameExamples.v
theories/DistModel.v
theories/DistSpec.v
theories/DistProofs.v
theories/NameThms.v
theories/AbiModel.v
theories/AbiSpec.v
theories/AbiProofs.v
theories/AbiProofs2.v
theories/AbiProofs3.v
theories/AbiProofs4.v
theories/AbiProofs5.v
theories/AbiProofs6.v
theories/AbiThms.v
theories/InetModel.v
theories/InetSpec.v
theories/InetProofs.v
theories/InetProofs2.v
theories/InetProofs3.v
theories/InetThms.v
theories/IoModel.v
theories/IoSpec.v
theories/IoProofs.v
theories/IoProofs2.v
theories/IoProofs3.v
theories/IoThms.v
theories/HeapModel.v
theories/HeapSpec.v
theories/HeapProofs.v
theories/HeapThms.v
theories/RndModel.v
theories/RndSpec.v
theories/RndProofs.v
theories/RndProofs2.v
theories/RndProofs3.v
theories/RndThms.v
theories/DynModel.v
theories/DynSpec.v
theories/DynProofs.v
theories/DynThms.v
theories/SliceModel.v
theories/SliceSpec.v
theories/SliceProofs.v
theories/SliceProofs2.v
theories/SliceProofs3.v
theories/SliceThms.v
theories/PoolModel.v
theories/PoolSpec.v
theories/PoolProofs.v
theories/PoolThms.v
theories/BackModel.v
theories/BackSpec.v
theories/BackProofs.v
theories/BackThms.v
theories/DateModel.v
theories/DateSpec.v
theories/DateProofs.v
theories/DateProofs2.v
theories/DateThms.v
theories/DfmtModel.v
theories/DfmtSpec.v
theories/DfmtProofs.v
theories/DfmtProofs2.v
theories/DfmtThms.v
theories/ElasModel.v
theories/ElasSpec.v
theories/ElasProofs.v
theories/ElasThms.v
theories/SiterModel.v
theories/SiterSpec.v
theories/SiterProofs.v
theories/SiterThms.v
theories/Sl2Model.v
theories/Sl2Spec.v
theories/Sl2Proofs.v
theories/Sl2Thms.v
theories/RangeModel.v
theories/RangeSpec.v
theories/RangeProofs.v
theories/RangeThms.v
theories/PrintModel.v
theories/PrintSpec.v
theories/PrintProofs.v
theories/PrintThms.v
theories/CsvModel.v
theories/CsvSpec.v
theories/CsvProofs.v
theories/CsvThms.v
