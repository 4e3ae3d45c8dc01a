-Q theories Verif
theories/Base.v
theories/Prob.v
theories/EntropyModel.v
theories/EntropyProofs.v
theories/BitModel.v
theories/BitProofs.v
theories/PropsBits.v
theories/PropsEntropy.v
theories/CodesModel.v
theories/CodesProofs.v
theories/LehmerModel.v
theories/LehmerProofs.v
theories/PropsCodes.v
theories/ProgLogic.v
theories/HistModel.v
theories/HistProofs.v
theories/PropsHist.v
theories/Tables.v
theories/JpegModel.v
theories/QuantModel.v
theories/QuantProofs.v
theories/PropsQuant.v
theories/Stream.v
theories/InternalsModel.v
theories/InternalsProofs.v
theories/InternalsProofs2.v
theories/InternalsProofs3.v
theories/InternalsProofs4.v
theories/PropsInternals.v
theories/MetaModel.v
theories/MetaProofs.v
theories/MetaShape.v
theories/PropsMeta.v
theories/HeaderModel.v
theories/HeaderProofs.v
theories/PropsHeader.v
theories/BitSteady.v
theories/SectionSteady.v
theories/Machine.v
theories/ContainerModel.v
theories/DriverModel.v
theories/DriverProofs.v
theories/GrammarProofs.v
theories/OutputModel.v
theories/OutputProofs.v
theories/PropsStream.v
theories/BypassModel.v
theories/PropsBypass.v
theories/CtxTables.v
theories/CoefModel.v
theories/CoefProofs.v
theories/DCProofs.v
theories/ACProofs.v
theories/PropsCoef.v
theories/ClusterModel.v
theories/ClusterProofs.v
theories/PropsCluster.v
theories/JBitModel.v
theories/JWriteProofs.v
theories/JReadProofs.v
theories/PropsJpegBits.v
theories/JHuffModel.v
theories/JHuffProofs.v
theories/JHuffPair.v
theories/PropsJpegHuff.v
theories/JScanModel.v
theories/JScanProofs1.v
theories/JScanProofs2.v
theories/JScanProofs3.v
theories/JScanProofs4.v
theories/JScanProofs5.v
theories/JScanProofs6.v
theories/JScanProofs7.v
theories/JScanProofs8.v
theories/JScanProofs9.v
theories/JScanProofs10.v
theories/PropsJpegScan.v
theories/JSegModel.v
theories/JSegProofs1.v
theories/JSegProofs2.v
theories/JFileModel.v
theories/JFileProofs.v
theories/PropsJpegFile.v
theories/HuffModel.v
theories/HuffProofs1.v
theories/HuffProofs2.v
theories/HuffProofs3.v
theories/HuffProofs4.v
theories/HuffProofs5.v
theories/HuffProofs6.v
theories/PropsHuff.v
theories/HTreeModel.v
theories/HTreeProofs1.v
theories/HTreeProofs2.v
theories/HTreeProofs3.v
theories/HTreeProofs4.v
theories/PropsHTree.v
theories/HStoreModel.v
theories/HStoreProofs1.v
theories/HStoreProofs2.v
theories/HStoreProofs3.v
theories/HStoreProofs4.v
theories/HStoreProofs5.v
theories/HStoreProofs6.v
theories/PropsHStore.v
theories/CMapModel.v
theories/CMapProofs1.v
theories/CMapProofs2.v
theories/HSecModel.v
theories/HSecProofs.v
theories/PropsCMap.v
theories/WordModel.v
theories/WordProofs.v
theories/NeedProofs.v
theories/Decoder.v
theories/DecoderProofs1.v
theories/DecoderProofs2.v
theories/Encoder.v
theories/EncoderProofs1.v
theories/EncoderProofs2.v
theories/EncoderProofs3.v
theories/JpegSpec.v
theories/EncoderProofs4.v
theories/ReaderProofs1.v
theories/ReaderProofs2.v
theories/ReaderProofs3.v
theories/ReaderProofs4.v
theories/ReaderProofs5.v
theories/PropsContainer.v
theories/DecodedSpec.v
theories/PropsDecoder.v
theories/WriterProofs1.v
theories/WriterProofs2.v
theories/PropsWriter.v
theories/SizeModel.v
theories/CountProofs.v
theories/PropsSize.v
theories/ReaderProofs6.v
theories/EncodeTotal1.v
theories/EncodeTotal2.v
theories/EncodeSpec.v
theories/SizeBound.v
theories/EncodeTotal3.v
theories/AuxBound.v
theories/PropsEncode.v
theories/SerialModel.v
theories/SerialSpec.v
theories/SerialProofs1.v
theories/SerialProofs2.v
theories/SerialProofs3.v
theories/SerialProofs4.v
theories/PropsSerial.v
theories/ProgressModel.v
theories/ProgressSpec.v
theories/ProgressProofs1.v
theories/ProgressProofs2.v
theories/ProgressProofs3.v
theories/ProgressProofs4.v
theories/ProgressProofs5.v
theories/PropsProgress.v
theories/ProgressProofs6.v
theories/PropsStored.v
theories/PoolModel.v
theories/PoolSpec.v
theories/PoolProofs.v
theories/PoolProofs2.v
theories/PropsPool.v
theories/GroupModel.v
theories/GroupProofs1.v
theories/GroupProofs2.v
theories/GroupProofs3.v
theories/GroupProofs4.v
theories/GroupProofs5.v
theories/GroupProofs6.v
theories/StatusModel.v
theories/StatusProofs.v
theories/PropsGroups.v
theories/GroupProofs7.v
theories/GroupProofs8.v
theories/PropsGroups2.v
theories/EstimateModel.v
theories/EstimateProofs.v
theories/PropsEstimate.v
theories/PropsScript.v
theories/ToolModel.v
theories/PropsTools.v
theories/PropsTools2.v
theories/PropsSize2.v
theories/EstimateEncModel.v
theories/PropsEstimateEnc.v
theories/WrapperModel.v
theories/PropsWrapper.v
