-Q theories Verif
theories/AgreeProofs.v
theories/ApplyModel.v
theories/ArrModel.v
theories/ArrayProofs.v
theories/Base.v
theories/Bits.v
theories/BoolModel.v
theories/BracketProofs.v
theories/CBracket.v
theories/CClass.v
theories/CGarbage.v
theories/CLex.v
theories/CModel.v
theories/CScalar.v
theories/CScalar2.v
theories/CSkip.v
theories/CState.v
theories/CTrim.v
theories/CTyped.v
theories/CTypes.v
theories/ClassMeans.v
theories/ClassProofs.v
theories/ClassProofs2.v
theories/DateModel.v
theories/DateProofs.v
theories/DateTextProofs.v
theories/Dec.v
theories/DupModel.v
theories/EventModel.v
theories/EventProofs.v
theories/EventSafe.v
theories/ExactProofs.v
theories/ExecProofs.v
theories/FindModel.v
theories/FindProofs.v
theories/FindSafe.v
theories/FixProofs.v
theories/FloatDec.v
theories/FloatModel.v
theories/FloatProofs.v
theories/FloatRef.v
theories/GapProofs.v
theories/HashModel.v
theories/IntModel.v
theories/IntProofs.v
theories/IntSerModel.v
theories/IntSerProofs.v
theories/IntValueProofs.v
theories/IterModel.v
theories/IterProofs.v
theories/IterSafe.v
theories/JValueModel.v
theories/JValueProofs.v
theories/KindProofs.v
theories/LaxProofs.v
theories/LongModel.v
theories/LongProofs.v
theories/LongValueModel.v
theories/Loop.v
theories/MeansProofs.v
theories/Mem.v
theories/MiscModel.v
theories/NameModel.v
theories/NameProofs.v
theories/OptionsModel.v
theories/OptionsProofs.v
theories/OrdModel.v
theories/OrdProofs.v
theories/OrdRead.v
theories/OrdSafe.v
theories/OrdSer.v
theories/OrderedProofs.v
theories/PathModel.v
theories/PathProofs.v
theories/PathProofs2.v
theories/PolicyModel.v
theories/PosModel.v
theories/PosProofs.v
theories/PosSafe.v
theories/PropertiesApply.v
theories/PropertiesArr.v
theories/PropertiesBool.v
theories/PropertiesC.v
theories/PropertiesDate.v
theories/PropertiesDateText.v
theories/PropertiesDup.v
theories/PropertiesEvent.v
theories/PropertiesExec.v
theories/PropertiesFind.v
theories/PropertiesFix.v
theories/PropertiesFloat.v
theories/PropertiesFloatSer.v
theories/PropertiesHash.v
theories/PropertiesInt.v
theories/PropertiesIter.v
theories/PropertiesKind.v
theories/PropertiesLax.v
theories/PropertiesLong.v
theories/PropertiesMeans.v
theories/PropertiesMin.v
theories/PropertiesMisc.v
theories/PropertiesName.v
theories/PropertiesOpt.v
theories/PropertiesOrd.v
theories/PropertiesPath.v
theories/PropertiesPos.v
theories/PropertiesReal.v
theories/PropertiesRealSer.v
theories/PropertiesReject.v
theories/PropertiesReport.v
theories/PropertiesSafe.v
theories/PropertiesSchema.v
theories/PropertiesSer.v
theories/PropertiesSimd.v
theories/PropertiesSkip.v
theories/PropertiesStr.v
theories/PropertiesStrOut.v
theories/PropertiesTag.v
theories/PropertiesTagPos.v
theories/PropertiesTagSer.v
theories/PropertiesTyped.v
theories/PropertiesU.v
theories/PropertiesUni.v
theories/PropertiesValue.v
theories/PropertiesVariant.v
theories/PropertiesX.v
theories/PropertiesZ.v
theories/RawValueProofs.v
theories/RealModel.v
theories/RealOptModel.v
theories/RealProofs.v
theories/RealSafe.v
theories/RealSerModel.v
theories/RealSerProofs.v
theories/RealSerProofs2.v
theories/RejectProofs.v
theories/ReportModel.v
theories/RightProofs.v
theories/ScalarProofs.v
theories/SchemaModel.v
theories/SchemaProofs.v
theories/SchemaProofs2.v
theories/SchemaProofs3.v
theories/SerModel.v
theories/SerProofs.v
theories/SerProofs2.v
theories/SimdProofs.v
theories/SkipModel.v
theories/SkipProofs.v
theories/SkipSafe.v
theories/SpecC.v
theories/SpecCompact.v
theories/SpecDate.v
theories/SpecDouble.v
theories/SpecEvent.v
theories/SpecFind.v
theories/SpecIter.v
theories/SpecJson.v
theories/SpecLax.v
theories/SpecMeans.v
theories/SpecNum.v
theories/SpecOrd.v
theories/SpecPath.v
theories/SpecReal.v
theories/SpecSchema.v
theories/SpecSer.v
theories/SpecTag.v
theories/SpecTagSer.v
theories/SpecText.v
theories/SpecTokens.v
theories/SpecTyped.v
theories/SpecU.v
theories/SpecUnicode.v
theories/SpecValue.v
theories/SpecX.v
theories/StateModel.v
theories/StateProofs.v
theories/StateProofs2.v
theories/StateSpecProofs.v
theories/StrDecodeModel.v
theories/StrDecodeProofs.v
theories/StrDecodeReject.v
theories/StrDecodeSafe.v
theories/StrEncodeModel.v
theories/StrEncodeProofs.v
theories/StrScanModel.v
theories/StrScanProofs.v
theories/StrScanProofs2.v
theories/StrScanProofs3.v
theories/TagModel.v
theories/TagPosModel.v
theories/TagPosProofs.v
theories/TagProofs.v
theories/TagSerModel.v
theories/TagSerProofs.v
theories/TypedProofs.v
theories/TypedSafe.v
theories/UModel.v
theories/UReads.v
theories/USim.v
theories/USim2.v
theories/UTyped.v
theories/UniqueProofs.v
theories/ValueModel.v
theories/VariantProofs.v
theories/XModel.v
theories/XProofs.v
theories/XSerProofs.v
theories/ZInt.v
theories/ZModel.v
theories/ZReads.v
theories/ZSafe.v
theories/ZSame.v
theories/ZScan.v
theories/ZSim.v
theories/ZTyped.v
