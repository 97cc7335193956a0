-Q theories Verif
theories/AllocModel.v
theories/AllocProps.v
theories/Assoc.v
theories/Base.v
theories/BaseLemmas.v
theories/BatchModel.v
theories/BatchProofs.v
theories/BatchProps.v
theories/BatchSpec.v
theories/Be.v
theories/CacheModel.v
theories/CacheProofs.v
theories/CacheSpec.v
theories/ChainModel.v
theories/ChainProps.v
theories/ChannelModel.v
theories/ChannelProofs.v
theories/ChannelSpec.v
theories/ChunkAnyProps.v
theories/ChunkModel.v
theories/ChunkProps.v
theories/ColorModel.v
theories/ColorProofs.v
theories/ColorProps.v
theories/DequantModel.v
theories/DequantProofs.v
theories/DequantProps.v
theories/DirectModel.v
theories/DirectProofs.v
theories/DirectProps.v
theories/DirectSpec.v
theories/DwtMain.v
theories/DwtModel.v
theories/DwtProofs.v
theories/DwtProps.v
theories/DwtSpec.v
theories/FetchModel.v
theories/FetchMoreProps.v
theories/FetchProps.v
theories/FloatProofs.v
theories/GeoModel.v
theories/GeoProofs.v
theories/GeoProps.v
theories/GeoSpec.v
theories/HeaderItems.v
theories/HeaderProofs.v
theories/HeaderProps.v
theories/HeaderRound.v
theories/HtBits.v
theories/HtBlockModel.v
theories/HtDec1Proofs.v
theories/HtDec2Proofs.v
theories/HtDequantModel.v
theories/HtDequantProps.v
theories/HtEncProofs.v
theories/HtHostileProofs.v
theories/HtMarkProofs.v
theories/HtMelEncProofs.v
theories/HtMelReadProofs.v
theories/HtMsProofs.v
theories/HtProps.v
theories/HtQuadProofs.v
theories/HtReadProofs.v
theories/HtReaders.v
theories/HtRoundProofs.v
theories/HtSizeProofs.v
theories/HtSpec.v
theories/HtStreamModel.v
theories/HtTableProofs.v
theories/HtTables.v
theories/HtVlcProofs.v
theories/HttpModel.v
theories/HttpProps.v
theories/JphModel.v
theories/JphProps.v
theories/JpipProps.v
theories/JppModel.v
theories/JppProps.v
theories/JppSession.v
theories/JppSpec.v
theories/LiftProofs.v
theories/MarkerModel.v
theories/MarkerProps.v
theories/MarkerRound.v
theories/MarkerSafe.v
theories/MarkerSpec.v
theories/MqModel.v
theories/MqProps.v
theories/OrderModel.v
theories/OrderProofs.v
theories/OrderProps.v
theories/OrderRun.v
theories/OrderSpec.v
theories/OutModel.v
theories/OutProofs.v
theories/OutProps.v
theories/OutSpec.v
theories/PacketCode.v
theories/PacketLayerProps.v
theories/PacketLayerSpec.v
theories/PacketLayers.v
theories/PacketModel.v
theories/PacketProofs.v
theories/PacketProps.v
theories/PacketReuse.v
theories/PacketSafe.v
theories/PacketSim.v
theories/PacketSpec.v
theories/PacketTree.v
theories/ParamModel.v
theories/ParamProofs.v
theories/ParamProps.v
theories/ParamSpec.v
theories/ParserProofs.v
theories/PassLow.v
theories/PassModel.v
theories/PassProofs.v
theories/PassProps.v
theories/PassRun.v
theories/PassSafe.v
theories/PassSpec.v
theories/PoolModel.v
theories/PoolProps.v
theories/PrecinctModel.v
theories/PrecinctProofs.v
theories/PrecinctProps.v
theories/PrecinctSpec.v
theories/PyramidModel.v
theories/PyramidProofs.v
theories/QueryCache.v
theories/QueryModel.v
theories/QueryMoreProps.v
theories/QueryProps.v
theories/ReasmModel.v
theories/ReasmProofs.v
theories/ReasmProps.v
theories/ReasmServer.v
theories/ReasmServerProps.v
theories/ReasmSpec.v
theories/RefineModel.v
theories/RefineProofs.v
theories/RefineProps.v
theories/RefineSim.v
theories/RefineSpec.v
theories/ReuseModel.v
theories/ReuseProofs.v
theories/ReuseProps.v
theories/ReuseSpec.v
theories/RowBufGeo.v
theories/RowBufInv.v
theories/RowBufModel.v
theories/RowBufProofs.v
theories/RowBufProps.v
theories/RowBufSpec.v
theories/RtpFrameProps.v
theories/RtpHeaderProps.v
theories/RtpModel.v
theories/SegmentProofs.v
theories/SegmentProps.v
theories/SegmentSpec.v
theories/SinkModel.v
theories/SinkProps.v
theories/SlotModel.v
theories/SlotProps.v
theories/SourceModel.v
theories/SourceProps.v
theories/StreamModel.v
theories/StreamProofs.v
theories/StripModel.v
theories/StripProofs.v
theories/StripProps.v
theories/StripSpec.v
theories/Text.v
theories/TextProofs.v
theories/TileModel.v
theories/TileProofs.v
theories/TileProps.v
theories/TileSafe.v
theories/TileSpec.v
theories/VbasProofs.v
theories/ViewMain.v
theories/ViewModel.v
theories/ViewProofs.v
theories/ViewSpec.v
theories/WalkerModel.v
theories/WalkerProps.v
theories/WalkerSpec.v
theories/WindowMain.v
theories/WindowModel.v
theories/WindowProofs.v
theories/WindowProps.v
theories/WindowSpec.v
