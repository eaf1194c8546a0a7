-Q theories Verif
theories/Base.v
theories/BoolCoderModel.v
theories/BoolEncProofs.v
theories/BoolCoderProofs.v
theories/BoolDecSafety.v
theories/ParserModel.v
theories/ParserProofs.v
theories/Tables.v
theories/PropBoolCoder.v
theories/HeaderModel.v
theories/HeaderProofs.v
theories/TreeModel.v
theories/CodingSpec.v
theories/PropTrees.v
theories/PropHeaders.v
theories/TokenModel.v
theories/TokenProofs.v
theories/PropTokens.v
theories/MVModel.v
theories/MVProofs.v
theories/PropMotionVectors.v
theories/MBModel.v
theories/MBProofs.v
theories/MBDecoded.v
theories/PropMacroblocks.v
theories/ChunkModel.v
theories/ContainerModel.v
theories/ChunkProofs.v
theories/PropChunk.v
theories/ContainerProofs.v
theories/PropContainer.v
theories/FrameModel.v
theories/FrameProofs.v
theories/PropFrame.v
theories/ConcealModel.v
theories/PropConceal.v
theories/QuantModel.v
theories/PropQuant.v
theories/RasterModel.v
theories/TransformModel.v
theories/RasterProofs.v
theories/PropTransform.v
theories/PredictModel.v
theories/PredictProofs.v
theories/PropInter.v
theories/PropIntra.v
theories/LoopFilterModel.v
theories/PropLoopFilter.v
theories/ReconModel.v
theories/ReconProofs.v
theories/PropPicture.v
theories/PropRecon.v
theories/PropContexts.v
theories/StateModel.v
theories/StateProofs.v
theories/PropState.v
theories/PropFilter.v
theories/SerialModel.v
theories/SerialProofs.v
theories/PropSerial.v
theories/TerminateModel.v
theories/PropTerminate.v
theories/IvfModel.v
theories/IvfProofs.v
theories/PropIvf.v
theories/FdModel.v
theories/PropFd.v
theories/PacketModel.v
theories/PropPacket.v
theories/PacerModel.v
theories/PropPacer.v
theories/PoolModel.v
theories/PropPool.v
theories/ReceiverModel.v
theories/ReceiverProofs.v
theories/PropReceiver.v
theories/SenderModel.v
theories/SenderProofs.v
theories/PropSender.v
theories/PropSystem.v
theories/SearchModel.v
theories/PropSearch.v
theories/EncoderModel.v
theories/PropEncoder.v
theories/Y4mModel.v
theories/PropY4m.v
theories/PlayerModel.v
theories/PropPlayer.v
theories/ResidueModel.v
theories/ResidueProofs.v
theories/PropResidue.v
theories/SafeRasterModel.v
theories/SafeRasterProofs.v
theories/PropSafeRaster.v
theories/MotionModel.v
theories/PropMotion.v
theories/VarianceModel.v
theories/PropVariance.v
theories/EncodeModel.v
theories/EncodeProofs.v
theories/EncodeMBProofs.v
theories/PropEncode.v
theories/CostsModel.v
theories/PropCosts.v
theories/CountsModel.v
theories/PropCounts.v
theories/RateModel.v
theories/PropRate.v
theories/ReencodeModel.v
theories/ReencodeProofs.v
theories/PropReencode.v
theories/SimdModel.v
theories/AsmTransformModel.v
theories/SimdProofs.v
theories/AsmTransformProofs.v
theories/AsmForwardProofs.v
theories/AsmSubtractProofs.v
theories/PropAsmTransform.v
theories/EncoderApiModel.v
theories/EncoderApiProofs.v
theories/PropEncoderApi.v
theories/ZeroModel.v
theories/PropZero.v
theories/SizeProofs.v
theories/PropSize.v
theories/XcEncModel.v
theories/LocalProofs.v
theories/XcEncProofs.v
theories/PropXcEnc.v
theories/AsmInterModel.v
theories/AsmInterProofs.v
theories/AsmInterCalls.v
theories/PropAsmInter.v
theories/AsmIntraModel.v
theories/AsmIntraProofs.v
theories/AsmIntraCalls.v
theories/AsmIntraMeans.v
theories/PropAsmIntra.v
theories/AsmLoopFilterModel.v
theories/AsmLoopFilterProofs.v
theories/AsmLoopFilterLanes.v
theories/AsmLoopFilterCalls.v
theories/AsmLoopFilterChroma.v
theories/PropAsmLoopFilter.v
theories/AsmSadModel.v
theories/PropAsmSad.v
