-Q theories Verif
theories/Machine.v
theories/MCommon.v
theories/MColor.v
theories/MSquare.v
theories/MBitboard.v
theories/MPieceKind.v
theories/MPiece.v
theories/MBuild.v
theories/MHand.v
theories/MMove.v
theories/MResolution.v
theories/MPosition.v
theories/MCAbi.v
theories/MCRuntime.v
theories/MCClient.v
theories/MCHeap.v
theories/MCArena.v
theories/MCCall.v
theories/MCNoThreads.v
theories/MCNoFine.v
theories/MCProgram.v
theories/MCThreads.v
theories/MCWeak.v
theories/MLegality.v
theories/MChecker.v
theories/MOrdHash.v
theories/MCollections.v
theories/MDebug.v
theories/MIter.v
theories/MPackage.v
theories/MTests.v
theories/SpecBase.v
theories/SpecAbi.v
theories/SpecBoard.v
theories/SpecPos.v
theories/SpecApi.v
theories/SpecRuntime.v
theories/SpecSfen.v
theories/SpecClient.v
theories/SpecHeap.v
theories/SpecArena.v
theories/SpecLegal.v
theories/SpecRules.v
theories/SpecAttack.v
theories/SpecBuild.v
theories/SpecCall.v
theories/SpecProgram.v
theories/SpecCheck.v
theories/SpecChecker.v
theories/SpecOrd.v
theories/SpecRepeat.v
theories/SpecCollections.v
theories/SpecContract.v
theories/SpecDebug.v
theories/SpecEdit.v
theories/SpecHand.v
theories/SpecSearch.v
theories/SpecInPlace.v
theories/SpecIter.v
theories/SpecLaws.v
theories/SpecNoThreads.v
theories/SpecNoFine.v
theories/SpecOrder.v
theories/SpecPackage.v
theories/SpecProfile.v
theories/SpecRecord.v
theories/SpecSymmetry.v
theories/SpecThreads.v
theories/SpecUnsafe.v
theories/SpecWeak.v
theories/LBase.v
theories/LBits.v
theories/LSquare.v
theories/LBitboard.v
theories/LPiece.v
theories/LHand.v
theories/LMove.v
theories/LPosition.v
theories/LRefine.v
theories/LAbstract.v
theories/LMirror.v
theories/LExt.v
theories/Sample.v
theories/LSample.v
theories/TPosition.v
theories/LWriter.v
theories/LSfen.v
theories/LRead.v
theories/LLength.v
theories/TSfen.v
theories/LRuntime.v
theories/LClient.v
theories/LDebug.v
theories/LDebugInj.v
theories/LEdit.v
theories/LOrd.v
theories/LShift.v
theories/LOrder.v
theories/LProfile.v
theories/LRange.v
theories/LSafe.v
theories/LSampleA.v
theories/LSampleC.v
theories/LSampleN.v
theories/LSampleU.v
theories/LSampleF.v
theories/LSampleE.v
theories/TGame.v
theories/TLegal.v
theories/TChecker.v
theories/LSampleK.v
theories/LSampleV.v
theories/LSampleP.v
theories/LSampleQ.v
theories/LSampleR.v
theories/LSampleS.v
theories/LSampleX.v
theories/LSampleSearch.v
theories/LSampleT.v
theories/LSampleW.v
theories/TAbi.v
theories/TRuntime.v
theories/TClient.v
theories/THeap.v
theories/TArena.v
theories/TBitboard.v
theories/TRules.v
theories/TAttack.v
theories/TBuild.v
theories/TCall.v
theories/TProgram.v
theories/TCheck.v
theories/TOrd.v
theories/TRepeat.v
theories/TOrder.v
theories/TCollections.v
theories/TContract.v
theories/TDebug.v
theories/TEdit.v
theories/THand.v
theories/TSearch.v
theories/TInPlace.v
theories/TIter.v
theories/TLaws.v
theories/TMove.v
theories/TNoStd.v
theories/TNoThreads.v
theories/TNoFine.v
theories/TPackage.v
theories/TPiece.v
theories/TSafe.v
theories/TProfile.v
theories/TThreads.v
theories/TProfileC.v
theories/TRecord.v
theories/TSquare.v
theories/TSymmetry.v
theories/TTests.v
theories/TUnsafe.v
theories/TWeak.v
theories/Prop_Abi.v
theories/Prop_Arena.v
theories/Prop_Attack.v
theories/Prop_Bitboard.v
theories/Prop_Build.v
theories/Prop_Call.v
theories/Prop_Check.v
theories/Prop_Checker.v
theories/Prop_Client.v
theories/Prop_Collections.v
theories/Prop_Contract.v
theories/Prop_Debug.v
theories/Prop_Edit.v
theories/Prop_Game.v
theories/Prop_Hand.v
theories/Prop_Heap.v
theories/Prop_InPlace.v
theories/Prop_Iter.v
theories/Prop_Laws.v
theories/Prop_Legal.v
theories/Prop_Move.v
theories/Prop_NoFine.v
theories/Prop_NoStd.v
theories/Prop_NoThreads.v
theories/Prop_Ord.v
theories/Prop_Order.v
theories/Prop_Package.v
theories/Prop_Piece.v
theories/Prop_Position.v
theories/Prop_Profile.v
theories/Prop_ProfileC.v
theories/Prop_Program.v
theories/Prop_Record.v
theories/Prop_Repeat.v
theories/Prop_Rules.v
theories/Prop_Runtime.v
theories/Prop_Safe.v
theories/Prop_Search.v
theories/Prop_Sfen.v
theories/Prop_Square.v
theories/Prop_Symmetry.v
theories/Prop_Tests.v
theories/Prop_Threads.v
theories/Prop_Unsafe.v
theories/Prop_Weak.v
