-Q theories Verif
theories/Base/Prelude.v
theories/Base/PreludeFacts.v
theories/Base/Utf8.v
theories/Base/Utf8Facts.v
theories/Base/Base64.v
theories/Base/Sha1.v
theories/Base/Base64Facts.v
theories/Model/Utils.v
theories/Model/Speedups.v
theories/Model/Datastructures.v
theories/Model/Streams.v
theories/Base/PyInt.v
theories/Base/DecimalFacts.v
theories/Model/Http11.v
theories/Model/Frames.v
theories/Model/Connection.v
theories/Spec/Rfc6455.v
theories/Proofs/MaskFacts.v
theories/Spec/FrameSpec.v
theories/Proofs/StreamsFacts.v
theories/Proofs/FramesFacts.v
theories/Spec/Utf8Spec.v
theories/Proofs/Utf8SpecFacts.v
theories/Properties/FrameCodec.v
theories/Proofs/ParserFacts.v
theories/Proofs/AtomicFacts.v
theories/Spec/Messages.v
theories/Spec/History.v
theories/Proofs/ConnectionFacts.v
theories/Proofs/Steps.v
theories/Proofs/MessagesFacts.v
theories/Proofs/Invariants.v
theories/Proofs/SendInvariants.v
theories/Proofs/MoreInvariants.v
theories/Proofs/Receive.v
theories/Properties/Connection.v
theories/Proofs/Failing.v
theories/Properties/Closing.v
theories/Model/Headers.v
theories/Spec/Rfc7230.v
theories/Proofs/HeadersFacts.v
theories/Properties/HeaderGrammar.v
theories/Spec/Multimap.v
theories/Proofs/MultimapFacts.v
theories/Model/HeadersHeap.v
theories/Properties/HeadersObject.v
theories/Spec/Http1.v
theories/Proofs/Http11Facts.v
theories/Properties/Http.v
theories/Model/Handshake.v
theories/Model/Server.v
theories/Model/Client.v
theories/Spec/Handshake.v
theories/Proofs/KeyFacts.v
theories/Proofs/HandshakeFacts.v
theories/Proofs/HandshakeRun.v
theories/Proofs/Phases.v
theories/Proofs/NegotiationFacts.v
theories/Proofs/AcceptFacts.v
theories/Properties/Handshake.v
theories/Model/PermessageDeflate.v
theories/Spec/Deflate.v
theories/Proofs/DeflateFacts.v
theories/Properties/Deflate.v
theories/Proofs/DeflateRun.v
theories/Proofs/StoredZlib.v
theories/Proofs/DeflateLimit.v
theories/Proofs/AgreementFacts.v
theories/Spec/Negotiated.v
theories/Properties/Agreement.v
theories/Model/LegacyHandshake.v
theories/Model/Auth.v
theories/Spec/BasicAuth.v
theories/Proofs/AuthFacts.v
theories/Properties/Auth.v
theories/Properties/LegacyHandshake.v
theories/Model/Uri.v
theories/Spec/Uri.v
theories/Proofs/UriFacts.v
theories/Model/Connect.v
theories/Properties/Uri.v
theories/Properties/Redirects.v
theories/Model/LegacyFraming.v
theories/Model/LegacyProtocol.v
theories/Proofs/LegacyPrims.v
theories/Spec/Asyncio.v
theories/Proofs/LegacyFields.v
theories/Proofs/LegacyShapes.v
theories/Proofs/LegacyUsers.v
theories/Proofs/LegacyClose.v
theories/Properties/AsyncioState.v
theories/Proofs/LegacyQueue.v
theories/Proofs/LegacyMessages.v
theories/Proofs/LegacyWire.v
theories/Properties/AsyncioMessages.v
theories/Proofs/LegacyRecv.v
theories/Properties/AsyncioCalls.v
theories/Proofs/LegacyFragments.v
theories/Proofs/LegacyTiming.v
theories/Properties/AsyncioClosing.v
theories/Proofs/LegacyWriters.v
theories/Proofs/LegacySend.v
theories/Properties/AsyncioSends.v
theories/Proofs/LegacyAuthors.v
theories/Proofs/LegacyGrowth.v
theories/Proofs/LegacyEndToEnd.v
theories/Proofs/WireUnique.v
theories/Properties/AsyncioEndToEnd.v
theories/Proofs/LegacyRead.v
theories/Proofs/LegacyDeflate.v
theories/Model/LegacyServer.v
theories/Proofs/LegacyServerFacts.v
theories/Spec/AsyncioServer.v
theories/Properties/AsyncioServer.v
theories/Proofs/LegacyBridge.v
theories/Spec/AsyncioKeepalive.v
theories/Proofs/LegacyKeepalive.v
theories/Properties/AsyncioKeepalive.v
theories/Proofs/LegacyAnswers.v
theories/Properties/AsyncioPings.v
theories/Spec/AsyncioHang.v
theories/Proofs/LegacyHang.v
theories/Properties/AsyncioHang.v
theories/Proofs/LegacyWaiter.v
theories/Proofs/LegacyTermination.v
theories/Model/LegacyClient.v
theories/Proofs/LegacyClientFacts.v
theories/Spec/AsyncioConnect.v
theories/Properties/AsyncioConnect.v
theories/Model/LegacyIter.v
theories/Spec/AsyncioIter.v
theories/Proofs/LegacyIterFacts.v
theories/Properties/AsyncioIter.v
theories/Model/LegacyDrain.v
theories/Spec/AsyncioFlow.v
theories/Proofs/LegacyDrainFacts.v
theories/Properties/AsyncioFlow.v
theories/Properties/LegacyAgreement.v
theories/Spec/AsyncioCloseCodes.v
theories/Proofs/LegacyCloseOrigin.v
theories/Properties/AsyncioCloseCodes.v
theories/Proofs/LegacyFailures.v
theories/Proofs/LegacyPeer.v
theories/Spec/AsyncioFailures.v
theories/Properties/AsyncioFailures.v
theories/Spec/AsyncioHandshake.v
theories/Proofs/LegacyHandshaking.v
theories/Properties/AsyncioHandshake.v
theories/Model/Exceptions.v
theories/Model/Main.v
theories/Spec/Interactive.v
theories/Proofs/MainFacts.v
theories/Properties/Interactive.v
theories/Proofs/ParserRun.v
theories/Spec/Alike.v
theories/Proofs/Alike.v
theories/Properties/Alike.v
theories/Spec/Endpoints.v
theories/Proofs/SansIoEnds.v
theories/Proofs/SansIoSends.v
theories/Proofs/EndpointsFacts.v
theories/Properties/Endpoints.v
theories/Proofs/DeflateEnds.v
theories/Proofs/DeflatePeer.v
theories/Properties/AsyncioCompressedFailures.v
theories/Spec/AsyncioFromHandshake.v
theories/Properties/AsyncioCompressedHandshake.v
theories/Spec/CompressedEndpoints.v
theories/Properties/CompressedEndpoints.v
theories/Properties/SansIoEndToEnd.v
theories/Model/Compression.v
theories/Properties/CompressionArgument.v
theories/Properties/HeadersEquality.v
theories/Properties/AsyncioFromHandshake.v
theories/Properties/AsyncioOverall.v
theories/Model/Arguments.v
theories/Spec/Requestable.v
theories/Proofs/DefaultHandshake.v
theories/Properties/Arguments.v
theories/Model/Imports.v
theories/Model/ImportTables.v
theories/Spec/PublicNames.v
theories/Proofs/Imports.v
theories/Properties/Imports.v
theories/Properties/VisibleUri.v
theories/Model/ConnectRequest.v
theories/Properties/Credentials.v
theories/Properties/Login.v
theories/Properties/RelativeRedirect.v
theories/Model/Listen.v
theories/Properties/Listen.v
theories/Model/StreamLimit.v
theories/Properties/StreamLimit.v
theories/Model/ReadFlow.v
theories/Properties/ReadFlow.v
theories/Model/WriteFlow.v
theories/Properties/WriteFlow.v
theories/Model/Addresses.v
theories/Properties/Addresses.v
