-Q theories Verif

theories/Base.v
theories/ChecksumModel.v
theories/ChecksumSpec.v
theories/ChecksumProofs.v
theories/BitsModel.v
theories/BitsSpec.v
theories/BitsProofs.v
theories/PropChecksum.v
theories/PropBits.v
theories/CanonSpec.v
theories/DeflateSpec.v
theories/InflateModel.v
theories/CanonProofs.v
theories/HtProofs.v
theories/InflateProofs.v
theories/PropInflate.v
theories/HuffModel.v
theories/HuffProofs.v
theories/PropHuff.v
theories/Lz77Model.v
theories/Lz77Spec.v
theories/Lz77Proofs.v
theories/PropLz77.v
theories/DeflateModel.v
theories/DeflateSyms.v
theories/DeflateProofs.v
theories/DeflateRle.v
theories/DeflateBlock.v
theories/DeflateTop.v
theories/PropDeflate.v
theories/PngFilterModel.v
theories/PngPaletteModel.v
theories/PngQuantModel.v
theories/PngDecModel.v
theories/PngModel.v
theories/PngSpec.v
theories/PngEncSpec.v
theories/PngFilterProofs.v
theories/PngPackProofs.v
theories/PngDecProofs.v
theories/PngPaletteProofs.v
theories/PngReduceProofs.v
theories/PngFileProofs.v
theories/PngEncodeProofs.v
theories/PngQuantProofs.v
theories/PngTop.v
theories/PngApi.v
theories/PropPng.v
theories/MsbSpec.v
theories/MsbProofs.v
theories/JpegBaseModel.v
theories/JpegBaseProofs.v
theories/PropJpegBase.v
theories/JpegHuffModel.v
theories/JpegDecModel.v
theories/JpegSpec.v
theories/JpegTabProofs.v
theories/JpegSymProofs.v
theories/JpegBlockProofs.v
theories/JpegOptProofs.v
theories/JpegEncModel.v
theories/JpegEncProofs.v
theories/JpegCountProofs.v
theories/JpegImgSpec.v
theories/JpegMcuProofs.v
theories/JpegIdctProofs.v
theories/JpegScanProofs.v
theories/JpegFileSpec.v
theories/JpegTop.v
theories/JpegProgSpec.v
theories/JpegProgProofs.v
theories/JpegApi.v
theories/JpegClaims.v
theories/JpegRefute.v
theories/JpegIdctReal.v
theories/JpegColour.v
theories/JpegDecTotal.v
theories/PropJpegEnc.v
theories/F32Model.v
theories/F32Proofs.v
theories/LzOptModel.v
theories/LzOptProofs.v
theories/LzOptTop.v
theories/LzOptBest.v
theories/LzOptApi.v
theories/PropDeflateOpt.v
theories/ResizeModel.v
theories/ResizeF32.v
theories/ResizeSpec.v
theories/ResizeProofs.v
theories/ResizeLanczos.v
theories/ResizeSame.v
theories/ResizeTop.v
theories/PropResize.v
theories/JpegDctModel.v
theories/JpegDctSpec.v
theories/JpegDctReal.v
theories/JpegDctProofs.v
theories/JpegDctTop.v
theories/JpegTrellisModel.v
theories/JpegTrellisProofs.v
theories/JpegTrellisTop.v
theories/JpegFlat.v
theories/JpegUniform.v
theories/JpegRealRefute.v
theories/JpegDctIntModel.v
theories/JpegDctIntProofs.v
theories/PropJpegDct.v
theories/SimdModel.v
theories/SimdProofs.v
theories/SimdAdler.v
theories/SimdDct.v
theories/SimdTop.v
theories/PropSimd.v
theories/JpegDecSpec.v
theories/JpegDecPanic.v
theories/JpegIdctEven.v
theories/PropJpegDec.v
theories/PngConfSpec.v
theories/PngConf.v
theories/PropPngDec.v
theories/JpegAnySpec.v
theories/JpegAny.v
theories/JpegAnyTop.v
theories/JpegAnyEx.v
theories/PropJpegAny.v
theories/JpegParseval.v
theories/JpegFidSpec.v
theories/JpegFidelity.v
theories/PropJpegFid.v
theories/CliModel.v
theories/CliSpec.v
theories/CliPnm.v
theories/CliProofs.v
theories/PropCli.v
theories/SizeSpec.v
theories/SizeProofs.v
theories/PropSize.v
theories/TruncProofs.v
theories/TruncJpeg.v
theories/PropTrunc.v
theories/HuffOptSpec.v
theories/HuffOpt.v
theories/PropHuffOpt.v
theories/FilterSpec.v
theories/FilterChoice.v
theories/PropFilter.v
theories/ParallelProofs.v
theories/PropParallel.v
theories/JpegOrderSpec.v
theories/JpegOrder.v
theories/PropJpegOrder.v
theories/JpegOtherSpec.v
theories/JpegOther.v
theories/PropJpegOther.v
theories/QuantSpec.v
theories/QuantMore.v
theories/PropQuant.v
theories/JpegHuffOptSpec.v
theories/JpegHuffOpt.v
theories/JpegHuffOptTop.v
theories/PropJpegHuffOpt.v
theories/JpegSizeSpec.v
theories/JpegSize.v
theories/PropJpegSize.v
theories/JpegRestartSpec.v
theories/JpegRestartProofs.v
theories/PropJpegRestart.v
theories/JpegOptions.v
theories/PropJpegOptions.v
theories/TrellisCostSpec.v
theories/TrellisOpt.v
theories/PropTrellisCost.v
theories/ProgRefineModel.v
theories/ProgRefineSpec.v
theories/ProgRefineProofs.v
theories/ProgRefineTop.v
theories/PropJpegRefine.v
theories/SimdColorModel.v
theories/SimdColorSpec.v
theories/SimdColorProofs.v
theories/PropSimdColor.v
theories/ThreadsModel.v
theories/ThreadsProofs.v
theories/ThreadsTop.v
theories/PropThreads.v
theories/LanczosSpec.v
theories/LanczosReal.v
theories/LanczosSum.v
theories/LanczosKernel.v
theories/LanczosLine.v
theories/LanczosTop.v
theories/PropLanczos.v
theories/TrellisAdaptModel.v
theories/TrellisAdapt.v
theories/PropTrellisAdapt.v
theories/BitsBytes.v
theories/RunsSpec.v
theories/RunsTokens.v
theories/RunsBits.v
theories/RunsEntropy.v
theories/RunsTop.v
theories/PropRuns.v
theories/WasmSpec.v
theories/WasmProofs.v
theories/PropWasm.v
theories/Crc32cModel.v
theories/Crc32cSpec.v
theories/Crc32cProofs.v
theories/PropCrc32c.v
theories/JpegIdctFModel.v
theories/JpegIdctFSpec.v
theories/JpegIdctFProofs.v
theories/PropIdctF.v
theories/IntQuantProofs.v
theories/PropIntQuant.v
theories/NearestProofs.v
theories/PropNearest.v
theories/GrayRgbSpec.v
theories/GrayRgbProofs.v
theories/PropGrayRgb.v
theories/LanczosLargeSpec.v
theories/LanczosLarge.v
theories/PropLanczosLarge.v
theories/BilinearGridSpec.v
theories/BilinearGrid.v
theories/PropBilinearGrid.v
theories/ResizeMono.v
theories/PropResizeMono.v
theories/JpegLocalSpec.v
theories/JpegLocal.v
theories/PropJpegLocal.v
theories/JpegShiftSpec.v
theories/JpegShift.v
theories/PropJpegShift.v
theories/PropJpegGrayProg.v
theories/NearestMoreSpec.v
theories/NearestMore.v
theories/PropNearestMore.v
theories/BilinearTurn.v
theories/PropBilinearTurn.v
theories/ResizePlaneSpec.v
theories/ResizePlane.v
theories/PropResizePlane.v
theories/NearestMirrorSpec.v
theories/NearestMirror.v
theories/PropNearestMirror.v
theories/NearestReduce.v
