-Q theories Verif
theories/Model_Base.v
theories/Lib.v
theories/Model_Perm.v
theories/Spec_Perm.v
theories/Spec_Rank.v
theories/Proof_Perm.v
theories/Proof_PermGroup.v
theories/Proof_PermCycles.v
theories/Proof_Inversions.v
theories/Proof_Listing.v
theories/Proof_PermMore.v
theories/Props_Perm.v
theories/Model_Binary.v
theories/Spec_Bits.v
theories/Proof_Binary.v
theories/Proof_Helpers.v
theories/Proof_Numbers.v
theories/Proof_Linear.v
theories/Props_Binary.v
theories/Props_Helpers.v
theories/Model_SetPart.v
theories/Spec_SetPart.v
theories/Proof_SetPart.v
theories/Proof_SetPartMerge.v
theories/Proof_SetPartMore.v
theories/Proof_SetPartLattice.v
theories/Proof_SetPartLabels.v
theories/Proof_SetPartImproved.v
theories/Proof_SetPartObj.v
theories/Proof_Domain.v
theories/Props_SetPart.v
theories/Model_SetPartComp.v
theories/Spec_SetPartComp.v
theories/Proof_SetPartComp.v
theories/Proof_SetPartCompMore.v
theories/Props_SetPartComp.v
theories/Model_SigPerm.v
theories/Spec_SigPerm.v
theories/Proof_SigPerm.v
theories/Proof_SigPermMore.v
theories/Proof_SigPermOps.v
theories/Props_SigPerm.v
theories/Model_WalshPerm.v
theories/Spec_WalshPerm.v
theories/Proof_WalshLinear.v
theories/Proof_WalshPerm.v
theories/Proof_WalshOps.v
theories/Proof_WalshIndex.v
theories/Proof_WalshMore.v
theories/Props_WalshPerm.v
theories/Model_Twin.v
theories/Model_Boolf.v
theories/Spec_Boolf.v
theories/Proof_Deflate.v
theories/Proof_Reorder.v
theories/Proof_Boolf.v
theories/Proof_BoolfTable.v
theories/Proof_BoolfApply.v
theories/Proof_Twin.v
theories/Proof_BoolfMake.v
theories/Props_Boolf.v
theories/Model_BoolfMore.v
theories/Spec_Twin.v
theories/Proof_Noble.v
theories/Props_Twin.v
theories/Proof_BoolfMore.v
theories/Proof_BoolfWalsh.v
theories/Props_BoolfMore.v
theories/Model_Schoute.v
theories/Proof_Schoute.v
theories/Props_Schoute.v
theories/Model_SetPartBoolf.v
theories/Proof_SetPartBoolf.v
theories/Props_SetPartBoolf.v
theories/Model_Determinant.v
theories/Spec_Determinant.v
theories/Proof_Bareiss.v
theories/Proof_ZDet.v
theories/Proof_Determinant.v
theories/Proof_DetMod2.v
theories/Props_Determinant.v
theories/Model_Splits.v
theories/Spec_Splits.v
theories/Proof_Splits.v
theories/Props_Splits.v
theories/Model_Segments.v
theories/Spec_Segments.v
theories/Proof_Segments.v
theories/Proof_SegmentsMore.v
theories/Props_Segments.v
theories/Model_MinRep.v
theories/Proof_MinRepTwin.v
theories/Proof_MinRepClass.v
theories/Proof_MinRepCoset.v
theories/Proof_MinRep.v
theories/Spec_MinRep.v
theories/Proof_MinRepMin.v
theories/Proof_MinRepMale.v
theories/Props_MinRep.v
theories/Model_Blight.v
theories/Spec_Blight.v
theories/Proof_Blight.v
theories/Proof_BlightBoolf.v
theories/Proof_Blocks.v
theories/Proof_BlightBlocks.v
theories/Proof_Bloatless.v
theories/Proof_Blightless.v
theories/Proof_Gapless.v
theories/Proof_Bundles.v
theories/Props_Blight.v
theories/Model_Helpers.v
theories/Spec_Helpers.v
theories/Proof_Hasse.v
theories/Proof_Containers.v
theories/Proof_Seqs.v
theories/Proof_HelpersBits.v
theories/Proof_HelpersMore.v
theories/Props_HelpersMore.v
theories/Model_Ec.v
theories/Spec_Ec.v
theories/Proof_Ec.v
theories/Proof_EcClass.v
theories/Proof_EcMembers.v
theories/Proof_EcCount.v
theories/Proof_EcSplinters.v
theories/Proof_EcSymmetry.v
theories/Proof_EcPartitioned.v
theories/Proof_EcMore.v
theories/Props_Ec.v
theories/Model_Hyper.v
theories/Spec_Hyper.v
theories/Proof_Hyper.v
theories/Proof_HyperLevels.v
theories/Proof_HyperCores.v
theories/Props_Hyper.v
theories/Model_Layers.v
theories/Spec_Layers.v
theories/Proof_Layers.v
theories/Proof_Fission.v
theories/Proof_FissionMore.v
theories/Props_Layers.v
theories/Props_Fission.v
theories/Model_Misc.v
theories/Spec_Misc.v
theories/Proof_Fract.v
theories/Proof_Misc.v
theories/Proof_Swan.v
theories/Props_Misc.v
theories/Model_ClanMatrix.v
theories/Spec_ClanMatrix.v
theories/Proof_ClanSizes.v
theories/Proof_ClanSyms.v
theories/Proof_ClanExposets.v
theories/Proof_ClanReorder.v
theories/Proof_ClanMatrix.v
theories/Props_ClanMatrix.v
theories/Model_Str.v
theories/Spec_Str.v
theories/Proof_Str.v
theories/Proof_BoolfStr.v
theories/Proof_Texts.v
theories/Props_Str.v
theories/Props_Args.v
theories/Model_Cayley.v
theories/Spec_Cayley.v
theories/Proof_Cayley.v
theories/Props_Cayley.v
theories/Model_Pretty.v
theories/Spec_Pretty.v
theories/Proof_Pretty.v
theories/Props_Pretty.v
theories/Model_Log.v
theories/Spec_Log.v
theories/Proof_Log.v
theories/Proof_LogMore.v
theories/Props_Log.v
theories/Model_Wiki.v
theories/Spec_Wiki.v
theories/Proof_WikiRow.v
theories/Props_WikiRow.v
theories/Proof_WikiNeg.v
theories/Proof_WikiClan.v
theories/Props_WikiClan.v
theories/Model_Svg.v
theories/Spec_Svg.v
theories/Proof_Svg.v
theories/Proof_SvgLoop.v
theories/Proof_SvgPath.v
theories/Proof_SvgFill.v
theories/Props_Svg.v
theories/Model_LogQuot.v
theories/Spec_LogQuot.v
theories/Proof_LnBounds.v
theories/Proof_LogQuot.v
theories/Props_LogQuot.v
theories/Model_BinvText.v
theories/Spec_BinvText.v
theories/Proof_BinvText.v
theories/Props_BinvText.v
theories/Proof_Foibles.v
theories/Proof_Consul.v
theories/Props_Foibles.v
theories/Proof_Convert.v
theories/Props_Convert.v
theories/Model_King.v
theories/Proof_King.v
theories/Proof_Prefect.v
theories/Props_King.v
theories/Model_Rest.v
theories/Props_Rest.v
theories/Props_Relations.v
theories/Props_Praetor.v
theories/Props_SigArray.v
theories/Props_Equivariance.v
theories/Model_WalshMore.v
theories/Props_WalshMore.v
theories/Props_BitPerm.v
theories/Props_Gray.v
theories/Props_PermCopy.v
theories/Props_Decompose.v
theories/Model_LoopHyper.v
theories/Props_LoopHyper.v
theories/Model_Values.v
theories/Props_Values.v
theories/Model_Shared.v
theories/Props_Shared.v
theories/Model_Int64.v
theories/Props_Int64.v
theories/Props_Inflated.v
theories/Props_Negative.v
theories/Model_PermInt.v
theories/Proof_PermInt.v
theories/Props_PermInt.v
theories/Props_Nonlinear.v
theories/Proof_MinRepConst.v
theories/Props_InflatedEc.v
theories/Props_Superfluous.v
theories/Props_InflatedSym.v
theories/Conf_Base.v
theories/Conf_Helpers.v
theories/Conf_Perm.v
theories/Conf_SetPart.v
theories/Conf_Examples.v
theories/Conf_BoolfA.v
theories/Conf_BoolfM.v
theories/Conf_BoolfN.v
theories/Conf_BoolfT.v
theories/Conf_BoolfTA.v
theories/Conf_BoolfTD.v
theories/Conf_BoolfTE.v
theories/Conf_BoolfTB.v
theories/Conf_BoolfTC.v
theories/Props_Alias.v
theories/Model_VectorClass.v
theories/Props_VectorClass.v
theories/Props_Labels.v
theories/Model_HyperInt.v
theories/Props_HyperInt.v
theories/Model_InvSet.v
theories/Props_InvSet.v
theories/Model_OtherEntry.v
theories/Props_OtherEntry.v
theories/Props_MergeMany.v
theories/Model_SigMatrix.v
theories/Props_SigMatrix.v
