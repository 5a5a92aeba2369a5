-Q theories Verif
theories/Prelude.v
theories/BaseModel.v
theories/BaseSpec.v
theories/BaseBits.v
theories/BaseProofs.v
theories/BaseDecode.v
theories/PropBase.v
theories/IntModel.v
theories/IntProofs.v
theories/PropInt.v
theories/TimeModel.v
theories/TimeProofs.v
theories/PropTime.v
theories/MacrosModel.v
theories/MacrosProofs.v
theories/PropMacros.v
theories/HashModel.v
theories/HashProofs.v
theories/PropHash.v
theories/CstrModel.v
theories/CstrSpec.v
theories/CstrProofs.v
theories/CstrSearch.v
theories/CstrText.v
theories/CstrTok.v
theories/CstrNum.v
theories/CstrItoa.v
theories/PropCstr.v
theories/PropExact.v
theories/Heap.v
theories/LlistModel.v
theories/LlistProofs.v
theories/PropLlist.v
theories/ElistModel.v
theories/ElistProofs.v
theories/PropElist.v
theories/PtrArrayModel.v
theories/PtrArrayProofs.v
theories/PtrDel.v
theories/PropPtrArray.v
theories/Blocks.v
theories/BufModel.v
theories/BufProofs.v
theories/PropBuf.v
theories/ArrayModel.v
theories/ArrayProofs.v
theories/BstreamProofs.v
theories/PropArray.v
theories/TableModel.v
theories/TableProofs.v
theories/TableCopy.v
theories/TableKeys.v
theories/PropTable.v
theories/SetModel.v
theories/SetProofs.v
theories/PropSet.v
theories/Bits.v
theories/Ipv4Model.v
theories/Ipv4Proofs.v
theories/PropIpv4.v
theories/Sha1Spec.v
theories/Sha1Model.v
theories/Sha1Proofs.v
theories/Sha1Stream.v
theories/Sha1Final.v
theories/PropSha1.v
theories/RandModel.v
theories/RandProofs.v
theories/RandArray.v
theories/PropRand.v
theories/UuidModel.v
theories/UuidProofs.v
theories/UuidParse.v
theories/UuidGen.v
theories/PropUuid.v
theories/RbtModel.v
theories/RbtRep.v
theories/RbtInsert.v
theories/RbtRemove.v
theories/RbtSearch.v
theories/RbtIter.v
theories/PropRbt.v
theories/MemModel.v
theories/MemProofs.v
theories/MemPool.v
theories/PropMem.v
theories/PropMemInit.v
theories/Sep.v
theories/EzModel.v
theories/EzProofs.v
theories/EzSpec.v
theories/EzHistory.v
theories/PropEz.v
theories/GcModel.v
theories/GcProofs.v
theories/GcSpec.v
theories/GcHistory.v
theories/PropGc.v
theories/PropGcPace.v
theories/AtexitModel.v
theories/AtexitSpec.v
theories/AtexitProofs.v
theories/PropAtexit.v
theories/LogModel.v
theories/LogSpec.v
theories/LogProofs.v
theories/PropLog.v
theories/UnitModel.v
theories/UnitSpec.v
theories/UnitProofs.v
theories/PropUnit.v
theories/PropUnitProgram.v
theories/TpModel.v
theories/TpSpec.v
theories/TpProofs.v
theories/TpShut.v
theories/PropTp.v
theories/PropTpKill.v
theories/PropTpJobs.v
theories/PropTpLive.v
theories/OptsModel.v
theories/OptsSpec.v
theories/OptsProofs.v
theories/OptsParse.v
theories/OptsWrap.v
theories/PropOpts.v
theories/CfgModel.v
theories/CfgSpec.v
theories/CfgProofs.v
theories/CfgFile.v
theories/PropCfg.v
theories/PathModel.v
theories/PathSpec.v
theories/PathProofs.v
theories/PropPath.v
theories/FormatModel.v
theories/FormatSpec.v
theories/FormatProofs.v
theories/FormatRun.v
theories/PropFormat.v
theories/ProgModel.v
theories/PropProg.v
theories/DaemonModel.v
theories/PropDaemon.v
theories/AssertModel.v
theories/AssertSpec.v
theories/PropAssert.v
theories/ThreadsModel.v
theories/PropThreads.v
theories/ReplaceModel.v
theories/PropReplace.v
theories/HelpModel.v
theories/HelpSpec.v
theories/PropHelp.v
theories/RegModel.v
theories/RegSpec.v
theories/PropReg.v
theories/PropFigures.v
theories/TmemModel.v
theories/TmemProofs.v
theories/TmemSpec.v
theories/TmemTables.v
theories/PropTmem.v
theories/TptrModel.v
theories/TptrSpec.v
theories/TptrProofs.v
theories/TptrEach.v
theories/TptrSelf.v
theories/PropTptr.v
theories/SptrModel.v
theories/SptrSpec.v
theories/SptrProofs.v
theories/PropSptr.v
theories/AmemModel.v
theories/AmemSpec.v
theories/AmemProofs.v
theories/AmemSim.v
theories/PropAmem.v
theories/ImemModel.v
theories/ImemSpec.v
theories/ImemProofs.v
theories/ImemSim.v
theories/ImemStep.v
theories/PropImem.v
theories/Perm.v
theories/CmemModel.v
theories/CmemSpec.v
theories/CmemProofs.v
theories/CmemSim.v
theories/CmemStep.v
theories/PropCmem.v
theories/HeapModel.v
theories/PmemModel.v
theories/PmemSpec.v
theories/PmemProofs.v
theories/PmemSim.v
theories/PmemStep.v
theories/PropPmem.v
theories/BmemModel.v
theories/BmemSpec.v
theories/BmemProofs.v
theories/BmemSim.v
theories/BmemStep.v
theories/PropBmem.v
theories/PropZtime.v
theories/HexModel.v
theories/HexSpec.v
theories/HexProofs.v
theories/HexPrint.v
theories/PropHex.v
theories/FloatModel.v
theories/FloatProofs.v
theories/PropFloat.v
theories/UraceModel.v
theories/PropUrace.v
theories/LraceModel.v
theories/LraceSpec.v
theories/LraceProofs.v
theories/LraceCalm.v
theories/PropLrace.v
theories/UrepModel.v
theories/UrepSpec.v
theories/UrepProofs.v
theories/UrepRead.v
theories/PropUrep.v
theories/AraceModel.v
theories/AraceSpec.v
theories/AraceProofs.v
theories/PropArace.v
theories/OomModel.v
theories/OomSpec.v
theories/OomProofs.v
theories/PropOom.v
theories/TailqModel.v
theories/TailqSpec.v
theories/TailqProofs.v
theories/TailqMany.v
theories/TailqPool.v
theories/PropTailq.v
theories/SplayModel.v
theories/SplaySpec.v
theories/SplayProofs.v
theories/SplayOps.v
theories/PropSplay.v
theories/PropBasename.v
theories/PropCstrExact.v
theories/PropOutside.v
theories/PropMove.v
theories/PropBaseNull.v
theories/PropTableCopy.v
theories/StailqModel.v
theories/StailqSpec.v
theories/StailqProofs.v
theories/PropStailq.v
theories/BlistModel.v
theories/BlistSpec.v
theories/BlistProofs.v
theories/PropBlist.v
theories/CircleqModel.v
theories/CircleqSpec.v
theories/CircleqProofs.v
theories/PropCircleq.v
theories/RbMacModel.v
theories/RbMacProofs.v
theories/PropRbMac.v
theories/SepModel.v
theories/SepProofs.v
theories/PropSep.v
theories/SsplitModel.v
theories/SsplitProofs.v
theories/PropSsplit.v
theories/NptrModel.v
theories/NptrProofs.v
theories/PropNptr.v
