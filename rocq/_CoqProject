-Q theories Verif
theories/Base.v
theories/BaseLemmas.v
theories/EncModel.v
theories/EncSpec.v
theories/EncProofs.v
theories/EncEnd.v
theories/EncShape.v
theories/EncNode.v
theories/EncNodeSpec.v
theories/EncSize.v
theories/EncNodeProofs.v
theories/Frame.v
theories/PropsEncLemmas.v
theories/PropsEnc.v
theories/DecSpec.v
theories/DecModel.v
theories/DecProofs.v
theories/DecEndProofs.v
theories/DecText.v
theories/DecNode.v
theories/DecNodeSpec.v
theories/DecNodeProofs.v
theories/PropsDecLemmas.v
theories/PropsDec.v
theories/CrcSpec.v
theories/CrcModel.v
theories/CrcLin.v
theories/CrcAlg.v
theories/CrcProofs.v
theories/CrcMul.v
theories/CrcErr.v
theories/CrcNodeSpec.v
theories/CrcNodeProofs.v
theories/PropsCrc.v
theories/ClmulModel.v
theories/ClmulProofs.v
theories/ClmulMul.v
theories/Clmul256Model.v
theories/Clmul256Proofs.v
theories/CrcIsaProofs.v
theories/PropsCrcIsa.v
theories/MulLoop.v
theories/ArmModel.v
theories/ArmProofs.v
theories/ArmMul.v
theories/RvModel.v
theories/RvProofs.v
theories/PropsCrcArm.v
theories/CrcUtilModel.v
theories/CrcUtilProofs.v
theories/CrcUtilFacts.v
theories/PropsCrcUtil.v
theories/DecSimdModel.v
theories/DecGrow.v
theories/DecSimdSpec.v
theories/DecSimdProofs.v
theories/DecSimdMain.v
theories/DecMaskModel.v
theories/DecMaskSpec.v
theories/DecMaskProofs.v
theories/PropsSimdLemmas.v
theories/DecVec.v
theories/DecKernelModel.v
theories/DecSseModel.v
theories/DecBlock.v
theories/DecKernel.v
theories/DecVecProofs.v
theories/DecCompact.v
theories/DecSseProofs.v
theories/DecBlockFacts.v
theories/DecSseMain.v
theories/PropsSimd.v
theories/JsBase.v
theories/JsModel.v
theories/JsSpec.v
theories/JsStrings.v
theories/JsEncoder.v
theories/JsBuilds.v
theories/JsParse.v
theories/JsFromPost.v
theories/JsRound.v
theories/JsRobust.v
theories/PropsJsLemmas.v
theories/PropsJs.v
theories/JsSame.v
theories/PropsJsBuilds.v
theories/IsaSpec.v
theories/IsaModel.v
theories/IsaProofs.v
theories/PropsIsa.v
theories/ArmIsaSpec.v
theories/ArmIsaModel.v
theories/ArmIsaProofs.v
theories/PropsArmIsa.v
theories/EncSseModel.v
theories/EncBlock.v
theories/EncVec.v
theories/EncFlags.v
theories/EncSpread.v
theories/EncSseProofs.v
theories/EncAvxModel.v
theories/EncAvxProofs.v
theories/EncLoopModel.v
theories/EncRvvModel.v
theories/EncLoop.v
theories/EncRvvProofs.v
theories/EncNeonModel.v
theories/EncNeonVec.v
theories/EncNeonProofs.v
theories/PropsEncSimd.v
theories/DecAvxModel.v
theories/DecAvxProofs.v
theories/DecAvxMain.v
theories/DecEvexModel.v
theories/DecEvexProofs.v
theories/PropsSimdEvex.v
theories/PropsSimdAvx.v
theories/DecRvvModel.v
theories/DecRvvProofs.v
theories/DecValid.v
theories/DecRvvMain.v
theories/DecRvvValid.v
theories/DecRvvExact.v
theories/PropsSimdRvv.v
theories/PropsSimdRvvValid.v
theories/DecRvvEndless.v
theories/DecSafe.v
theories/DecRvvSafe.v
theories/DecEvexSafe.v
theories/PropsSimdRvvEnds.v
theories/DecNeonModel.v
theories/DecNeonProofs.v
theories/DecNeonMain.v
theories/PropsSimdNeon.v
theories/NativeModel.v
theories/NativeSpec.v
theories/NativeProofs.v
theories/EncPadSpec.v
theories/EncPad.v
theories/PropsNative.v
theories/EncIncr.v
theories/JsInject.v
theories/CrcExact.v
theories/PropsExact.v
theories/JsNum.v
theories/JsNumProofs.v
theories/PropsJsNum.v
theories/PropsPad.v
theories/JsArgs.v
theories/JsArgsSpec.v
theories/JsArgsProofs.v
theories/PropsArgs.v
theories/EncLocal.v
theories/EncIncrDest.v
theories/PropsIncr.v
theories/DecLocal.v
theories/HeapModel.v
theories/HeapSpec.v
theories/HeapProofs.v
theories/HeapEx.v
theories/PropsHeap.v
theories/ReachProofs.v
theories/PropsReach.v
theories/EndianModel.v
theories/EndianSpec.v
theories/EndianProofs.v
theories/EndianExact.v
theories/EndianDecode.v
theories/CrcEndianModel.v
theories/CrcEndianProofs.v
theories/PropsEndian.v
theories/DecEndianModel.v
theories/DecEndianProofs.v
theories/PropsDecEndian.v
theories/ArmEndianModel.v
theories/ArmEndianProofs.v
theories/PropsArmEndian.v
theories/RvEndianModel.v
theories/RvEndianProofs.v
theories/PropsRvEndian.v
