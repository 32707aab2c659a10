-Q theories Verif

theories/Model/Arena.v
theories/Model/Arrow.v
theories/Model/Base.v
theories/Model/Batch.v
theories/Model/Bsi.v
theories/Model/Calendar.v
theories/Model/Codec.v
theories/Model/Collapse.v
theories/Model/ColumnCache.v
theories/Model/Compile.v
theories/Model/Concurrent.v
theories/Model/ConcurrentFind.v
theories/Model/Dataframe.v
theories/Model/Duration.v
theories/Model/Errors.v
theories/Model/Flatten.v
theories/Model/Home.v
theories/Model/HomeWindows.v
theories/Model/KV.v
theories/Model/KeySpace.v
theories/Model/Labels.v
theories/Model/LogLevel.v
theories/Model/MessageSize.v
theories/Model/OpenShards.v
theories/Model/Otlp.v
theories/Model/Pool.v
theories/Model/ProgramCache.v
theories/Model/Query.v
theories/Model/Quote.v
theories/Model/Render.v
theories/Model/Retention.v
theories/Model/Retry.v
theories/Model/RowHeap.v
theories/Model/RowJson.v
theories/Model/RowTable.v
theories/Model/Rows.v
theories/Model/ScanBuilder.v
theories/Model/Script.v
theories/Model/SelfMetrics.v
theories/Model/SelfTrace.v
theories/Model/Sequence.v
theories/Model/Server.v
theories/Model/Service.v
theories/Model/Shards.v
theories/Model/Slice.v
theories/Model/Store.v
theories/Model/Table.v
theories/Model/Transform.v
theories/Model/Translate.v
theories/Model/View.v
theories/Model/Visit.v
theories/Model/Wiring.v
theories/Model/XxHash.v
theories/Model/Zone.v
theories/Model/ZoneScript.v
theories/Proofs/ArenaFacts.v
theories/Proofs/ArrowFacts.v
theories/Proofs/ArrowTable.v
theories/Proofs/BaseFacts.v
theories/Proofs/BatchFacts.v
theories/Proofs/BsiFacts.v
theories/Proofs/BuilderFacts.v
theories/Proofs/CalendarFacts.v
theories/Proofs/CodecFacts.v
theories/Proofs/CollapseFacts.v
theories/Proofs/ColumnCacheFacts.v
theories/Proofs/ConcurrentFacts.v
theories/Proofs/ConcurrentShards.v
theories/Proofs/DataframeFacts.v
theories/Proofs/DoubleFacts.v
theories/Proofs/DurationFacts.v
theories/Proofs/DurationLoop.v
theories/Proofs/FlattenFacts.v
theories/Proofs/FloatFacts.v
theories/Proofs/JsonFacts.v
theories/Proofs/KeySpaceFacts.v
theories/Proofs/LabelsFacts.v
theories/Proofs/LabelsOfRows.v
theories/Proofs/ListTranslator.v
theories/Proofs/ManyLabels.v
theories/Proofs/OnceFacts.v
theories/Proofs/PoolFacts.v
theories/Proofs/QuoteFacts.v
theories/Proofs/QuotingFacts.v
theories/Proofs/RenderFacts.v
theories/Proofs/RowHeapFacts.v
theories/Proofs/RowHeapInv.v
theories/Proofs/RowTableFacts.v
theories/Proofs/RowsFacts.v
theories/Proofs/ScanBuilderFacts.v
theories/Proofs/ScanFacts.v
theories/Proofs/SelfMetricsFacts.v
theories/Proofs/SelfTraceFacts.v
theories/Proofs/SequenceFacts.v
theories/Proofs/ServiceFacts.v
theories/Proofs/ShardsFacts.v
theories/Proofs/Simulation.v
theories/Proofs/StoreFacts.v
theories/Proofs/TableFacts.v
theories/Proofs/TransformFacts.v
theories/Proofs/TransformLaws.v
theories/Proofs/TranslateFacts.v
theories/Proofs/TranslatorFacts.v
theories/Proofs/ViewFacts.v
theories/Proofs/VisitCrash.v
theories/Proofs/VisitFacts.v
theories/Proofs/WiredStore.v
theories/Proofs/WiringFacts.v
theories/Proofs/ZoneFacts.v
theories/Props/P_Arena.v
theories/Props/P_Arrow.v
theories/Props/P_AsBuilt.v
theories/Props/P_Asked.v
theories/Props/P_Batch.v
theories/Props/P_Bsi.v
theories/Props/P_Cache.v
theories/Props/P_Codec.v
theories/Props/P_Collapse.v
theories/Props/P_Compile.v
theories/Props/P_Concurrent.v
theories/Props/P_Dataframe.v
theories/Props/P_Displaced.v
theories/Props/P_Duration.v
theories/Props/P_EndToEnd.v
theories/Props/P_Errors.v
theories/Props/P_Find.v
theories/Props/P_Flatten.v
theories/Props/P_Hash.v
theories/Props/P_Home.v
theories/Props/P_Instant.v
theories/Props/P_Labels.v
theories/Props/P_LogLevel.v
theories/Props/P_Many.v
theories/Props/P_MessageSize.v
theories/Props/P_Minutes.v
theories/Props/P_Once.v
theories/Props/P_OpenShards.v
theories/Props/P_Own.v
theories/Props/P_Pool.v
theories/Props/P_Query.v
theories/Props/P_Render.v
theories/Props/P_Restart.v
theories/Props/P_Retention.v
theories/Props/P_Retry.v
theories/Props/P_RowHeap.v
theories/Props/P_RowJson.v
theories/Props/P_RowTable.v
theories/Props/P_Rows.v
theories/Props/P_Script.v
theories/Props/P_Self.v
theories/Props/P_SelfMetrics.v
theories/Props/P_Sequence.v
theories/Props/P_Server.v
theories/Props/P_Service.v
theories/Props/P_Serving.v
theories/Props/P_Shards.v
theories/Props/P_Store.v
theories/Props/P_Table.v
theories/Props/P_Time.v
theories/Props/P_Transform.v
theories/Props/P_Translate.v
theories/Props/P_Visit.v
theories/Props/P_WindowsHome.v
theories/Props/P_Wiring.v
theories/Props/P_Zone.v
theories/Props/P_ZonedScript.v
theories/Spec/Asked.v
theories/Spec/BitSlices.v
theories/Spec/Buffers.v
theories/Spec/Bundles.v
theories/Spec/Codecs.v
theories/Spec/Collections.v
theories/Spec/Doubles.v
theories/Spec/Durations.v
theories/Spec/Flat.v
theories/Spec/Frames.v
theories/Spec/Gregorian.v
theories/Spec/Groups.v
theories/Spec/Indexing.v
theories/Spec/Instants.v
theories/Spec/Json.v
theories/Spec/Lifecycles.v
theories/Spec/Limits.v
theories/Spec/LogLevels.v
theories/Spec/Merge.v
theories/Spec/Messages.v
theories/Spec/Own.v
theories/Spec/Places.v
theories/Spec/Queries.v
theories/Spec/Quoting.v
theories/Spec/Requests.v
theories/Spec/Retries.v
theories/Spec/RowPrograms.v
theories/Spec/Saves.v
theories/Spec/Scripts.v
theories/Spec/Serving.v
theories/Spec/Sets.v
theories/Spec/Tables.v
theories/Spec/Texts.v
theories/Spec/Translator.v
theories/Spec/Trim.v
theories/Spec/WindowsHome.v
theories/Spec/ZonedScripts.v
theories/Spec/Zones.v
