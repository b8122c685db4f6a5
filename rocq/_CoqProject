-Q theories Verif
theories/Base.v
theories/Bytes.v
theories/Utf8.v
theories/Reader.v
theories/Wire.v
theories/ReaderProofs.v
theories/SpecWire.v
theories/Utf8Proofs.v
theories/WireProofs.v
theories/PropWire.v
theories/Types.v
theories/Text.v
theories/TypeNames.v
theories/Decimal.v
theories/DateTime.v
theories/Values.v
theories/Columns.v
theories/SpecNum.v
theories/TextProofs.v
theories/DecimalProofs.v
theories/PropDecimal.v
theories/PropTime.v
theories/ConcatProofs.v
theories/PropConcat.v
theories/SpecColumns.v
theories/PushProofs.v
theories/PropColumns.v
theories/StringPool.v
theories/StringPoolProofs.v
theories/PropStrings.v
theories/SpecTypes.v
theories/TypeNamesProofs.v
theories/LoadTypeProofs.v
theories/PropTypes.v
theories/SendProofs.v
theories/Casts.v
theories/Block.v
theories/SpecBlock.v
theories/BlockProofs.v
theories/RangeProofs.v
theories/BlockOpsProofs.v
theories/PropBlocks.v
theories/CityHash.v
theories/Compress.v
theories/SpecCompress.v
theories/CompressProofs.v
theories/PropCompress.v
theories/Packets.v
theories/SpecPackets.v
theories/PacketsProofs.v
theories/PropPackets.v
theories/Transport.v
theories/SpecTransport.v
theories/TransportProofs.v
theories/PropTransport.v
theories/Client.v
theories/SpecClient.v
theories/ClientProofs.v
theories/PropClient.v
theories/Pool.v
theories/SpecPool.v
theories/PoolProofs.v
theories/PropPool.v
theories/FromSql.v
theories/SpecFromSql.v
theories/FromSqlProofs.v
theories/PropCells.v
theories/Iter.v
theories/SpecIter.v
theories/IterProofs.v
theories/IterMoreProofs.v
theories/PropIter.v
theories/ToSql.v
theories/SpecToSql.v
theories/ToSqlProofs.v
theories/ColumnFromProofs.v
theories/PropToSql.v
theories/Options.v
theories/SpecOptions.v
theories/OptionsProofs.v
theories/PropOptions.v
theories/SpecCasts.v
theories/CastProofs.v
theories/CastSendProofs.v
theories/CastMainProofs.v
theories/CastBlockProofs.v
theories/CastTotalProofs.v
theories/PropCasts.v
theories/Sharing.v
theories/SpecSharing.v
theories/SharingProofs.v
theories/ShareBlockProofs.v
theories/ShareStepProofs.v
theories/ShareMoreProofs.v
theories/PropSharing.v
theories/Rows.v
theories/SpecRows.v
theories/RowsProofs.v
theories/RowsConcatProofs.v
theories/PropRows.v
theories/SpecNames.v
theories/Utf8SliceProofs.v
theories/NamesProofs.v
theories/LoadPanicProofs.v
theories/PropNames.v
theories/SureProofs.v
theories/Refuse.v
theories/PropRefuse.v
theories/Print.v
theories/SpecPrint.v
theories/PrintProofs.v
theories/ClearProofs.v
theories/TableProofs.v
theories/PropPrint.v
theories/IterLen.v
theories/PropIterLen.v
theories/AppendCastProofs.v
theories/PropAppendCast.v
theories/Connect.v
theories/SpecConnect.v
theories/ConnectProofs.v
theories/PropConnect.v
theories/PoolFree.v
theories/SpecPoolFree.v
theories/PropPoolFree.v
theories/SpecReceived.v
theories/ReceivedProofs.v
theories/PropReceived.v
theories/SpecTable.v
theories/KeepProofs.v
theories/SpecKeep.v
theories/KeepValueProofs.v
theories/PropKeep.v
theories/PropBroken.v
theories/PropSpin.v
theories/SpecPoolMany.v
theories/PropPoolMany.v
theories/PropFrames.v
theories/PropTotals.v
theories/SpecNative.v
theories/ServerNamesProofs.v
theories/NativeProofs.v
theories/PropNative.v
theories/SpecReadable.v
theories/ReadableProofs.v
theories/PropReadable.v
theories/PropHonest.v
theories/PropInsertHonest.v
theories/PropExact.v
theories/Release.v
theories/PropRelease.v
theories/SpecProtocol.v
theories/CastLenProofs.v
theories/PropProtocol.v
theories/PropOutcome.v
theories/Wired.v
theories/SpecWired.v
theories/WiredProofs.v
theories/PropWired.v
theories/Session.v
theories/SpecSession.v
theories/PropSession.v
theories/Hashes.v
theories/SpecEquality.v
theories/EqualityProofs.v
theories/PropEquality.v
theories/SpecPieces.v
theories/PiecesProofs.v
theories/PropPieces.v
theories/SpecFrames.v
theories/FramesProofs.v
theories/PatientProofs.v
theories/PropUnpack.v
theories/Floats.v
theories/SpecFloats.v
theories/FloatsProofs.v
theories/PropFloats.v
theories/SpecRetry.v
theories/PropRetry.v
theories/PropDecimals.v
theories/PropTexts.v
theories/Debugs.v
theories/SpecDebugs.v
theories/PropDebugs.v
theories/PropStored.v
theories/SourceCell.v
theories/Interning.v
theories/SpecInterning.v
theories/PropInterning.v
theories/PropWrapped.v
theories/PropReferences.v
theories/SpecCanonical.v
theories/PropCanonical.v
theories/Messages.v
theories/SpecMessages.v
theories/PropMessages.v
theories/Deadlines.v
theories/SpecDeadlines.v
theories/PropDeadlines.v
theories/RawBuffer.v
theories/SpecRawBuffer.v
theories/PropRawBuffer.v
theories/PropSplit.v
theories/PropNulls.v
theories/PropIdle.v
theories/PropWaiting.v
theories/Copies.v
theories/SpecCopies.v
theories/PropCopies.v
theories/PropPatience.v
theories/SpecAppetite.v
theories/PropAppetite.v
