-Q theories Verif
theories/Base.v
theories/BytePacker.v
theories/BitStream.v
theories/BytePackerProofs.v
theories/BytePackerWhole.v
theories/BytePackerTop.v
theories/PropBytePacker.v
theories/Floats.v
theories/FloatLemmas.v
theories/Dictionary.v
theories/DictSpec.v
theories/DictionaryProofs.v
theories/PropDictionary.v
theories/StochasticEncoder.v
theories/EncSpec.v
theories/StochasticEncoderProofs.v
theories/DitherProofs.v
theories/EncoderTables.v
theories/InvCumulativeProofs.v
theories/InvAccuracy.v
theories/NormalSpec.v
theories/NormalProofs.v
theories/NormalExists.v
theories/GaussianInv.v
theories/EncoderCtorProofs.v
theories/PropEncoder.v
theories/UVector.v
theories/UVectorSpec.v
theories/UVectorProofs.v
theories/PropUVector.v
theories/Weights.v
theories/WeightProofs.v
theories/BaseLemmas.v
theories/WeightSpec.v
theories/WeightBlockProofs.v
theories/WeightMoreProofs.v
theories/PropWeights.v
theories/File.v
theories/FileProofs.v
theories/StMan.v
theories/StManSpec.v
theories/HeaderProofs.v
theories/StManProofs.v
theories/SpecRecord.v
theories/SpecProofs.v
theories/PropStMan.v
theories/TimeBlockBuffer.v
theories/TbbSpec.v
theories/TbbProofs.v
theories/PropTbb.v
theories/Column.v
theories/ColumnSpec.v
theories/ColumnProofs.v
theories/ColumnInv.v
theories/ColumnReach.v
theories/ColumnTerm.v
theories/ColumnData.v
theories/ColumnOrder.v
theories/ColumnWhole.v
theories/ColumnRead.v
theories/ColumnMore.v
theories/ColumnTraces.v
theories/PropColumn.v
theories/Dscompress.v
theories/DsSpec.v
theories/DsProofs.v
theories/DsMore.v
theories/DsColumn.v
theories/DsExamples.v
theories/PropDs.v
theories/TimeBlockEncoders.v
theories/TbeSpec.v
theories/TableSpec.v
theories/TableProofs.v
theories/GaussianTable.v
theories/StudentTable.v
theories/UniformTable.v
theories/TableMore.v
theories/PropTables.v
theories/TbeLoops.v
theories/TbeRowRf.v
theories/TbeReal.v
theories/TbeErr.v
theories/TbeRowRfProofs.v
theories/TbeMore.v
theories/TbeExamples.v
theories/PropTbe.v
theories/AfForm.v
theories/AfFit.v
theories/AfSpec.v
theories/AfCode.v
theories/AfErr.v
theories/AfBound.v
theories/AfMore.v
theories/AfInfl.v
theories/AfZero.v
theories/AfExamples.v
theories/PropAf.v
theories/PackPrefix.v
theories/Block.v
theories/BlockSpec.v
theories/BlockProofs.v
theories/BlockEnc.v
theories/BlockGood.v
theories/PropBlock.v
theories/StoredColumn.v
theories/StoredProofs.v
theories/StoredTraces.v
theories/PropStored.v
theories/ColumnAmong.v
theories/System.v
theories/SystemSpec.v
theories/SystemLow.v
theories/SystemCols.v
theories/SystemInv.v
theories/SystemOrder.v
theories/SystemEnd.v
theories/SystemRead.v
theories/SystemGood.v
theories/SystemFinal.v
theories/SystemTotal.v
theories/SystemWrite.v
theories/SystemTerm.v
theories/SystemPuts.v
theories/SystemAll.v
theories/SystemTraces.v
theories/PropSystem.v
theories/Production.v
theories/ProductionSpec.v
theories/ProductionProofs.v
theories/ProductionTool.v
theories/ProductionExamples.v
theories/PropProduction.v
theories/UpdateSpec.v
theories/RewriteSpec.v
theories/ColumnUpdate.v
theories/ColumnRewrite.v
theories/AppendSpec.v
theories/SessionSpec.v
theories/UpdateBlock.v
theories/SystemHeld.v
theories/SystemUpdate.v
theories/ColumnAppend.v
theories/SystemAppend.v
theories/SystemRewrite.v
theories/ColumnSession.v
theories/SystemSame.v
theories/SystemSessions.v
theories/UpdateTraces.v
theories/AppendTraces.v
theories/RewriteTraces.v
theories/PropUpdate.v
theories/PropRewrite.v
theories/PropAppend.v
theories/SameTraces.v
theories/PropSame.v
theories/DamageSpec.v
theories/SystemDamage.v
theories/DamageTraces.v
theories/PropDamage.v
theories/Removal.v
theories/SystemRemove.v
theories/RemovalTraces.v
theories/PropRemove.v
theories/Copy.v
theories/CopySpec.v
theories/SystemCopy.v
theories/CopyTraces.v
theories/CopyWeights.v
theories/ProductionCopy.v
theories/PropCopy.v
theories/Stopwatch.v
theories/StopwatchSpec.v
theories/StopwatchProofs.v
theories/PropStopwatch.v
theories/Accesses.v
theories/RaceSpec.v
theories/Races.v
theories/RaceTraces.v
theories/PropRace.v
theories/HistorySpec.v
theories/SystemHistory.v
theories/HistoryTraces.v
theories/PropHistory.v
theories/EncRange.v
theories/PropRange.v
theories/AfNormalize.v
theories/AfNormalizeProofs.v
theories/PropNormalize.v
theories/SpecExact.v
theories/PropSpec.v
theories/TbbMore.v
theories/DsMove.v
theories/PropMove.v
