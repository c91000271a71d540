-Q theories Verif
theories/GoStr.v
theories/GoStrFacts.v
theories/Shifty.v
theories/MMisc.v
theories/MRights.v
theories/SRights.v
theories/PRights.v
theories/TRights.v
theories/SMisc.v
theories/PMisc.v
theories/TMisc.v
theories/MKw.v
theories/SKw.v
theories/PKw.v
theories/TKw.v
theories/MTime.v
theories/STime.v
theories/PTime.v
theories/TTime.v
theories/MSec.v
theories/SSec.v
theories/PSec.v
theories/TSec.v
theories/MAttr.v
theories/MLevels.v
theories/SAttr.v
theories/PAttr.v
theories/TAttr.v
theories/TLevels.v
theories/TLvlx.v
theories/MNet.v
theories/SNet.v
theories/PNet.v
theories/TNet.v
theories/MLists.v
theories/SLists.v
theories/PLists.v
theories/TLists.v
theories/MFilter.v
theories/SFilter.v
theories/PFilter.v
theories/TFilter.v
theories/TAfx.v
theories/MUri.v
theories/SUri.v
theories/PUri.v
theories/TUri.v
theories/TUriP.v
theories/MRule.v
theories/PRule.v
theories/TRule.v
theories/MConv.v
theories/MTree.v
theories/STree.v
theories/PTree.v
theories/PRead.v
theories/TTree.v
theories/SMore.v
theories/TMore.v
theories/MAci.v
theories/SAci.v
theories/PAci.v
theories/TAci.v
theories/MMeth.v
theories/SMeth.v
theories/PMeth.v
theories/TMeth.v
theories/TTab.v
theories/SText.v
theories/TText.v
theories/MView.v
theories/TView.v
theories/MHeap.v
theories/SHeap.v
theories/THeap.v
theories/MAlias.v
theories/SAlias.v
theories/TAlias.v
theories/SLex.v
theories/TLex.v
theories/MInfo.v
theories/SInfo.v
theories/TInfo.v
theories/MGraph.v
theories/SGraph.v
theories/TGraph.v
theories/SRead.v
theories/TRead.v
theories/TExact.v
theories/MShare.v
theories/SShare.v
theories/TShare.v
theories/TShareV.v
theories/MInst.v
theories/SInst.v
theories/TInst.v
theories/MInspect.v
theories/SInspect.v
theories/TInspect.v
theories/MFShare.v
theories/SFShare.v
theories/TFShare.v
theories/MSetters.v
theories/SSetters.v
theories/TSetters.v
theories/SZero.v
theories/TZero.v
theories/MOper.v
theories/SOper.v
theories/TOper.v
theories/TBlank.v
theories/SBack.v
theories/TBack.v
theories/SStd.v
theories/TStd.v
theories/TKeep.v
theories/TFront.v
theories/MPad.v
theories/SPad.v
theories/TPad.v
theories/MErr.v
theories/SErr.v
theories/TErr.v
theories/MEmbed.v
theories/SEmbed.v
theories/TEmbed.v
theories/MField.v
theories/SField.v
theories/TField.v
theories/MPbs.v
theories/TPbs.v
theories/MLock.v
theories/SLock.v
theories/TLock.v
theories/TLockT.v
theories/MWhole.v
theories/SWhole.v
theories/PWhole.v
theories/PWholeV.v
theories/TWhole.v
theories/SWholeR.v
theories/TWholeR.v
theories/SWholeS.v
theories/PWholeS.v
theories/TWholeS.v
theories/TTight.v
theories/MAfos.v
theories/TAfos.v
theories/TWholeT.v
theories/SThreads.v
theories/PThreads.v
theories/TThreadV.v
theories/TThreadL.v
theories/TThreadF.v
theories/MKind.v
theories/SKind.v
theories/TKind.v
theories/MPolicy.v
theories/SPolicy.v
theories/TPolicy.v
theories/SGiven.v
theories/TGiven.v
theories/TQuotes.v
theories/MRace.v
theories/SRace.v
theories/TRace.v
theories/MOnce.v
theories/SOnce.v
theories/TOnce.v
theories/TSays.v
theories/TErr2.v
theories/TSays2.v
theories/MWord.v
theories/SWord.v
theories/TWord.v
theories/TWord2.v
theories/TWord3.v
theories/MSlice.v
theories/SSlice.v
theories/TSlice.v
theories/MLabel.v
theories/SLabel.v
theories/TLabel.v
theories/TLabel2.v
theories/TMark.v
theories/MFirst.v
theories/SFirst.v
theories/TFirst.v
theories/PDrain.v
theories/TReturn.v
theories/TFirst2.v
theories/MPair.v
theories/SPair.v
theories/TPair.v
theories/TPair2.v
theories/TGaps.v
theories/MPb.v
theories/SPb.v
theories/TPb.v
theories/TPb2.v
theories/TGaps2.v
theories/MUriGo.v
theories/SUriGo.v
theories/TUriGo.v
theories/TUriGo2.v
theories/TUriGo3.v
theories/TUriGo4.v
theories/MTod.v
theories/STod.v
theories/TTod.v
theories/TTod2.v
theories/MSsf.v
theories/SSsf.v
theories/TSsf.v
theories/TSsf2.v
theories/MDnGo.v
theories/SDnGo.v
theories/TDnGo.v
theories/TDnGo2.v
theories/MHdr.v
theories/SHdr.v
theories/THdr.v
theories/THdr2.v
theories/MInsGo.v
theories/SInsGo.v
theories/TInsGo.v
theories/TInsGo2.v
theories/MSeen.v
theories/SSeen.v
theories/TSeen.v
theories/TSeen2.v
theories/MParseGo.v
theories/SParseGo.v
theories/TParseGo.v
theories/MSetParse.v
theories/SSetParse.v
theories/TSetParse.v
