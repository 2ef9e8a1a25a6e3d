-Q theories Verif
theories/Base.v
theories/Spec.v
theories/Interface.v
theories/CoreModel.v
theories/World.v
theories/CoreSpec.v
theories/BaseLemmas.v
theories/CoreLemmas.v
theories/CoreInv.v
theories/CoreTokens.v
theories/CoreSupply.v
theories/CoreLedger.v
theories/CoreFee.v
theories/CoreAuth.v
theories/CoreRebal.v
theories/CoreSolvency.v
theories/CoreQuery.v
theories/InterfaceSpec.v
theories/InterfaceProofs.v
theories/CoreListing.v
theories/CoreMore.v
theories/CoreIff.v
theories/Demo.v
theories/PropertiesCore.v
theories/AirdropModel.v
theories/AirdropSpec.v
theories/AirdropProofs.v
theories/AirdropInv.v
theories/AirdropHist.v
theories/AirdropMerkle.v
theories/AirdropListing.v
theories/AirdropMore.v
theories/AirdropDemo.v
theories/PropertiesAirdrop.v
theories/MathModel.v
theories/PoolModel.v
theories/PeripheryModel.v
theories/PeripheryWorld.v
theories/MathProofs.v
theories/PoolProofs.v
theories/PoolTotal.v
theories/PoolOut.v
theories/PowReal.v
theories/PowAccuracy.v
theories/PowMixed.v
theories/PoolAccuracy.v
theories/RatioSpec.v
theories/PoolRatio.v
theories/PeripherySpec.v
theories/SimSpec.v
theories/SimProofs.v
theories/SimIff.v
theories/SimQuote.v
theories/ParseProofs.v
theories/ParseSpec.v
theories/ParseIff.v
theories/PeripheryProofs.v
theories/PeripheryChain.v
theories/PeripheryUser.v
theories/PeripheryMore.v
theories/PeripheryIff.v
theories/PeripheryDemo.v
theories/PropertiesPeriphery.v
theories/DecodeModel.v
theories/DecodeSpec.v
theories/DecodeProofs.v
theories/PropertiesSim.v
theories/PropertiesMath.v
theories/ReceiptModel.v
theories/ReceiptSpec.v
theories/ReceiptProofs.v
theories/PropertiesReceipts.v
theories/StreamSpec.v
theories/StreamProofs.v
theories/CoreProfit.v
theories/PropertiesStream.v
theories/RebalSpec.v
theories/CoreFinish.v
theories/CoreSplit.v
theories/CoreDist.v
theories/PropertiesRebal.v
theories/RenderModel.v
theories/RenderSpec.v
theories/RenderProofs.v
theories/PropertiesText.v
theories/StableModel.v
theories/StableSpec.v
theories/StableProofs.v
theories/PropertiesStable.v
theories/QuerySpec.v
theories/CoreAsk.v
theories/PropertiesQuery.v
theories/Bech32Model.v
theories/Bech32Spec.v
theories/Bech32Proofs.v
theories/PropertiesAddress.v
theories/StoreModel.v
theories/StoreSpec.v
theories/StoreLemmas.v
theories/StoreProofs.v
theories/StoreRange.v
theories/StoreQueries.v
theories/StoreCore.v
theories/StoreCoreProofs.v
theories/PropertiesStore.v
theories/VersionModel.v
theories/VersionSpec.v
theories/VersionProofs.v
theories/PropertiesVersion.v
theories/WireModel.v
theories/WireSpec.v
theories/WireText.v
theories/WireValues.v
theories/WireMsgs.v
theories/WireTrip.v
theories/WireOrder.v
theories/PropertiesWire.v
theories/SizeSpec.v
theories/SizeProofs.v
theories/AnswerModel.v
theories/AnswerSpec.v
theories/AnswerProofs.v
theories/PropertiesAnswer.v
theories/TextModel.v
theories/TextSpec.v
theories/TextProofs.v
theories/PropertiesChain.v
theories/ByteModel.v
theories/ByteSpec.v
theories/ByteProofs.v
theories/PropertiesByte.v
theories/DropByteModel.v
theories/DropByteSpec.v
theories/DropByteProofs.v
theories/PropertiesDropByte.v
theories/JointModel.v
theories/JointSpec.v
theories/JointProofs.v
theories/PropertiesJoint.v
theories/SdkModel.v
theories/SdkSpec.v
theories/SdkProofs.v
theories/PropertiesSdk.v
theories/SdkAnswers.v
theories/PropertiesSdkAnswers.v
theories/DeployModel.v
theories/DeploySpec.v
theories/DeployProofs.v
theories/ScriptProofs.v
theories/PropertiesDeploy.v
theories/SetupProofs.v
theories/PropertiesScripts.v
theories/HolderSpec.v
theories/HolderProofs.v
theories/PropertiesHolders.v
theories/DropPaySpec.v
theories/DropPayProofs.v
theories/PropertiesDropPay.v
theories/ProtoModel.v
theories/ProtoSpec.v
theories/ProtoProofs.v
theories/PropertiesProto.v
theories/PoolJsonModel.v
theories/PoolJsonSpec.v
theories/PoolJsonProofs.v
theories/PropertiesPoolJson.v
theories/NodeModel.v
theories/NodeSpec.v
theories/NodeProofs.v
theories/NodeSimProofs.v
theories/PropertiesNode.v
theories/StackSpec.v
theories/StackProofs.v
theories/PropertiesStack.v
theories/WholeSpec.v
theories/WholeProofs.v
theories/PropertiesWhole.v
theories/HoldSpec.v
theories/HoldProofs.v
theories/PropertiesHold.v
theories/WorthSpec.v
theories/WorthProofs.v
theories/PropertiesWorth.v
theories/ThroughSpec.v
theories/ThroughProofs.v
theories/PropertiesThrough.v
theories/FreeSpec.v
theories/FreeProofs.v
theories/PropertiesFree.v
theories/PaceSpec.v
theories/PaceProofs.v
theories/PropertiesPace.v
theories/GroupSpec.v
theories/GroupProofs.v
theories/PropertiesGroup.v
theories/HashModel.v
theories/RepoCore.v
theories/RepoAirdrop.v
theories/RepoPackages.v
theories/HashSpec.v
theories/HashProofs.v
theories/PropertiesHash.v
theories/GainSpec.v
theories/GainProofs.v
theories/PropertiesGain.v
theories/LeaveSpec.v
theories/LeaveProofs.v
theories/PropertiesLeave.v
theories/TapeSpec.v
theories/TapeProofs.v
theories/PropertiesTape.v
theories/KeepSpec.v
theories/KeepProofs.v
theories/PropertiesKeep.v
theories/TrustSpec.v
theories/TrustProofs.v
theories/PropertiesTrust.v
theories/RightSpec.v
theories/RightProofs.v
theories/PropertiesRight.v
theories/EntrySpec.v
theories/EntryProofs.v
theories/PropertiesEntry.v
theories/LedgerSpec.v
theories/LedgerProofs.v
theories/PropertiesLedger.v
