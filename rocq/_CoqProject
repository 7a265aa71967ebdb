-Q theories Verif
theories/Util.v
theories/Spec.v
theories/PartitionModel.v
theories/FsmModel.v
theories/DetermineModel.v
theories/MinimizeModel.v
theories/Nfa.v
theories/NfaOps.v
theories/PartitionProofs.v
theories/FsmSem.v
theories/FsmBasics.v
theories/Check.v
theories/FsmOps.v
theories/FsmOps2.v
theories/FsmStrings.v
theories/DeadProofs.v
theories/EpsProofs.v
theories/DetGeneric.v
theories/DetProofs.v
theories/MinGeneric.v
theories/MinProofs.v
theories/CompProofs.v
theories/EncModel.v
theories/EncSpec.v
theories/EncDot.v
theories/ApproxModel.v
theories/ApproxSpec.v
theories/ApproxProofs.v
theories/ApproxMain.v
theories/Api.v
theories/ApiProofs.v
theories/BuildFacts.v
theories/EncProofs.v
theories/CapModel.v
theories/CapSpec.v
theories/CapTable.v
theories/CapRun.v
theories/CapMarks.v
theories/CapMarks2.v
theories/CapApi.v
theories/CapAppend.v
theories/CapUser.v
theories/CapMain.v
theories/CapLeft.v
theories/CapLeftUser.v
theories/CapWitness.v
theories/Prop_Build.v
theories/Prop_Canon.v
theories/RunModel.v
theories/RunSpec.v
theories/RunProofs.v
theories/PrefixProofs.v
theories/PairProofs.v
theories/Prop_Run.v
theories/TagFacts.v
theories/ApproxUser.v
theories/ScannerModel.v
theories/ScannerSpec.v
theories/ScannerProofs.v
theories/ScannerBuild.v
theories/ScannerCompile.v
theories/ScannerCopy.v
theories/GlueModel.v
theories/GlueTable.v
theories/GlueProofs.v
theories/CheckBytes.v
theories/JumpProofs.v
theories/MultiRun.v
theories/ScannerRun.v
theories/ScannerFits.v
theories/SimpleModel.v
theories/IoModel.v
theories/IoBytes.v
theories/ScannerIo.v
theories/ScannerApi.v
theories/ScannerClosure.v
theories/ScannerUser.v
theories/ScannerMore.v
theories/GlueWitness.v
theories/Prop_Scanner.v
theories/Prop_Glue.v
theories/SimpleProofs.v
theories/SlowProofs.v
theories/SimpleIo.v
theories/SlowIo.v
theories/SimpleApi.v
theories/SimpleUser.v
theories/Prop_Simple.v
theories/IoSpec.v
theories/IoUser.v
theories/IoCheck.v
theories/Prop_Io.v
theories/Expr.v
theories/ExprProofs.v
theories/Prop_Expr.v
theories/Prop_Enc.v
theories/RegexModel.v
theories/RegexSpec.v
theories/RegexParse.v
theories/RegexProofs.v
theories/RegexUser.v
theories/Prop_Regex.v
theories/UniData.v
theories/UniModel.v
theories/LexModel.v
theories/LexSpec.v
theories/UniFacts.v
theories/LexProofs.v
theories/LexItems.v
theories/LexTotal.v
theories/LexUser.v
theories/Prop_Lex.v
theories/EasyModel.v
theories/EasyProofs.v
theories/EasyUser.v
theories/Prop_Easy.v
theories/CountModel.v
theories/CountSpec.v
theories/AdvModel.v
theories/AdvSpec.v
theories/NgModel.v
theories/CountIoModel.v
theories/CountApi.v
theories/CountProofs.v
theories/LoadedProofs.v
theories/LoadedGlue.v
theories/CountIo.v
theories/CountIoOk.v
theories/CountBuild.v
theories/DetSets.v
theories/CountAuto.v
theories/CountScan.v
theories/CountPairs.v
theories/CountTable.v
theories/AdvNfa.v
theories/AdvSound.v
theories/AdvRun.v
theories/AdvMain.v
theories/AdvFinds.v
theories/CountUser.v
theories/CountMeans.v
theories/CountMain.v
theories/CountWitness.v
theories/Prop_Count.v
theories/AdvWitness.v
theories/Prop_Adv.v
theories/NgApi.v
theories/NgTable.v
theories/NgGlue.v
theories/NgGlued.v
theories/NgIo.v
theories/NgSem.v
theories/NgRun.v
theories/NgWitness.v
theories/Prop_Ng.v
theories/CountIoUser.v
theories/CountIoWitness.v
theories/Prop_CountIo.v
theories/ApproxScan.v
theories/ApproxApi.v
theories/Prop_Approx.v
theories/HalfModel.v
theories/HalfSpec.v
theories/HalfCut.v
theories/HalfLang.v
theories/HalfTurn.v
theories/HalfTable.v
theories/HalfMake.v
theories/HalfRun.v
theories/HalfUser.v
theories/HalfMain.v
theories/Prop_Half.v
theories/Prop_Cap.v
theories/FcapModel.v
theories/FcapSpec.v
theories/FcapProofs.v
theories/FcapUser.v
theories/FcapWitness.v
theories/Prop_Fcap.v
theories/MarkModel.v
theories/MarkSpec.v
theories/MarkProofs.v
theories/MarkLang.v
theories/MarkUser.v
theories/MarkCalm.v
theories/MarkFront.v
theories/Prop_Mark.v
theories/MarkLexModel.v
theories/MarkLexSpec.v
theories/MarkLex.v
theories/MarkLexTotal.v
theories/Prop_MarkLex.v
