-Q theories Verif
theories/Go/Outcome.v
theories/Go/Int64.v
theories/Go/Slice.v
theories/Go/Sort.v
theories/Go/Float64.v
theories/Go/FloatOrder.v
theories/Go/Text.v
theories/Go/Num.v
theories/Model/OrderBook.v
theories/Model/Candle.v
theories/Model/CandleFile.v
theories/Model/Asset.v
theories/Model/Pair.v
theories/Model/PairMappings.v
theories/Model/Entities.v
theories/Model/Indicators.v
theories/Model/Strategy.v
theories/Model/Date.v
theories/Go/FloatReal.v
theories/Proofs/Lists.v
theories/Proofs/StableSort.v
theories/Proofs/SortOrder.v
theories/Spec/OrderBookSpec.v
theories/Spec/WholeSpec.v
theories/Proofs/OrderBook.v
theories/Proofs/Keyed.v
theories/Proofs/Updates.v
theories/Proofs/UpdateThms.v
theories/Proofs/NewBook.v
theories/Proofs/DepthOverlap.v
theories/Proofs/WholeOverlap.v
theories/Props/OrderBookProps.v
theories/Proofs/DecNum.v
theories/Proofs/Lex.v
theories/Proofs/RoundTrip.v
theories/Spec/CandleSpec.v
theories/Proofs/Candle.v
theories/Proofs/CandleThms.v
theories/Proofs/CandleRegular.v
theories/Proofs/CandleMore.v
theories/Props/CandleProps.v
theories/Spec/FileSpec.v
theories/Proofs/FileText.v
theories/Proofs/CandleFile.v
theories/Props/FileProps.v
theories/Spec/EntitySpec.v
theories/Proofs/Entities.v
theories/Props/EntityProps.v
theories/Proofs/Pairs.v
theories/Props/PairProps.v
theories/Spec/IndicatorSpec.v
theories/Proofs/MovingAverage.v
theories/Proofs/RSI.v
theories/Proofs/Fractals.v
theories/Props/IndicatorProps.v
theories/Props/FractalProps.v
theories/Spec/DateSpec.v
theories/Proofs/Date.v
theories/Proofs/Actions.v
theories/Props/StrategyProps.v
theories/Model/Strings.v
theories/Spec/PrintSpec.v
theories/Proofs/Printing.v
theories/Proofs/PrintText.v
theories/Props/PrintProps.v
theories/Go/Heap.v
theories/Model/OrderBookHeap.v
theories/Model/PositionHeap.v
theories/Spec/HeapSpec.v
theories/Proofs/Heap.v
theories/Proofs/OrderBookHeap.v
theories/Proofs/PositionHeap.v
theories/Props/HeapProps.v
theories/Spec/HistorySpec.v
theories/Proofs/History.v
theories/Props/HistoryProps.v
theories/Go/FloatError.v
theories/Spec/AccuracySpec.v
theories/Proofs/Accuracy.v
theories/Props/AccuracyProps.v
theories/Spec/SortSpec.v
theories/Props/SortProps.v
theories/Spec/SymmetrySpec.v
theories/Proofs/Symmetry.v
theories/Proofs/FractalSymmetry.v
theories/Proofs/DepthRelabel.v
theories/Props/SymmetryProps.v
theories/Spec/RsiSpec.v
theories/Proofs/RSIError.v
theories/Props/RsiProps.v
theories/Spec/MonotoneSpec.v
theories/Proofs/Monotone.v
theories/Proofs/SmoothedMonotone.v
theories/Props/MonotoneProps.v
theories/Spec/MoneySpec.v
theories/Proofs/MoneyError.v
theories/Props/MoneyProps.v
theories/Go/Json.v
theories/Spec/JsonSpec.v
theories/Spec/StoredSpec.v
theories/Model/Stored.v
theories/Proofs/JsonTime.v
theories/Proofs/JsonText.v
theories/Proofs/JsonTree.v
theories/Proofs/JsonValue.v
theories/Proofs/Stored.v
theories/Props/JsonProps.v
theories/Tests/RepoTests.v
theories/Spec/ResampleSpec.v
theories/Proofs/CandleSymmetry.v
theories/Props/ResampleProps.v
theories/Proofs/FileParts.v
theories/Props/FilePartsProps.v
theories/Go/FloatScale.v
theories/Spec/ScaleSpec.v
theories/Proofs/Scaling.v
theories/Props/ScaleProps.v
theories/Spec/MirrorSpec.v
theories/Proofs/Mirror.v
theories/Props/MirrorProps.v
theories/Spec/DecimalSpec.v
theories/Proofs/Decimal.v
theories/Proofs/DecimalFile.v
theories/Props/DecimalProps.v
theories/Spec/JsonReadSpec.v
theories/Proofs/JsonRead.v
theories/Proofs/JsonGrammar.v
theories/Proofs/JsonMoment.v
theories/Proofs/JsonNesting.v
theories/Proofs/JsonDenote.v
theories/Props/JsonReadProps.v
theories/Proofs/JsonStrict.v
theories/Props/JsonStrictProps.v
theories/Proofs/Replay.v
theories/Props/ReplayProps.v
theories/Model/Concurrent.v
theories/Spec/ConcurrentSpec.v
theories/Proofs/Concurrent.v
theories/Proofs/Locked.v
theories/Proofs/Readers.v
theories/Props/ConcurrentProps.v
theories/Spec/LedgerSpec.v
theories/Proofs/Ledger.v
theories/Props/LedgerProps.v
theories/Model/Fused.v
theories/Spec/FusedSpec.v
theories/Proofs/Fma.v
theories/Proofs/FusedIndicators.v
theories/Proofs/FusedMonotone.v
theories/Proofs/FusedOverlap.v
theories/Proofs/FusedLedger.v
theories/Proofs/FusedMoney.v
theories/Props/FusedProps.v
theories/Spec/OverlapSpec.v
theories/Proofs/OverlapError.v
theories/Props/OverlapProps.v
theories/Spec/DepthSpec.v
theories/Proofs/DepthFree.v
theories/Props/DepthProps.v
theories/Proofs/ResampleVolume.v
theories/Props/ResampleVolumeProps.v
theories/Spec/ForgetSpec.v
theories/Proofs/Forget.v
theories/Props/ForgetProps.v
theories/Go/JsonInto.v
theories/Spec/IntoSpec.v
theories/Proofs/Into.v
theories/Proofs/IntoRead.v
theories/Proofs/IntoParts.v
theories/Props/IntoProps.v
theories/Spec/PersistSpec.v
theories/Proofs/Persist.v
theories/Props/PersistProps.v
theories/Spec/HorizonSpec.v
theories/Proofs/Horizon.v
theories/Props/HorizonProps.v
theories/Spec/RsiMonotoneSpec.v
theories/Proofs/RsiMonotone.v
theories/Props/RsiMonotoneProps.v
theories/Spec/RebuildSpec.v
theories/Proofs/Rebuild.v
theories/Props/RebuildProps.v
theories/Spec/LevelSpec.v
theories/Proofs/Level.v
theories/Props/LevelProps.v
theories/Proofs/Lookback.v
theories/Props/LookbackProps.v
theories/Spec/TradeOrderSpec.v
theories/Proofs/TradeOrder.v
theories/Props/TradeOrderProps.v
theories/Spec/FieldsSpec.v
theories/Proofs/Fields.v
theories/Props/FieldsProps.v
theories/Model/Pointers.v
theories/Spec/PanicSpec.v
theories/Proofs/Panics.v
theories/Props/PanicProps.v
theories/Props/PointerProps.v
theories/Spec/FrameSpec.v
theories/Proofs/Frame.v
theories/Props/FrameProps.v
theories/Spec/ShortestSpec.v
theories/Proofs/Shortest.v
theories/Proofs/ShortestText.v
theories/Props/ShortestProps.v
theories/Spec/RsiShapeSpec.v
theories/Proofs/RsiShape.v
theories/Props/RsiShapeProps.v
theories/Spec/NanSpec.v
theories/Proofs/Nan.v
theories/Props/NanProps.v
theories/Spec/NumberSpec.v
theories/Proofs/Number.v
theories/Props/NumberProps.v
theories/Spec/FaultSpec.v
theories/Proofs/Faults.v
theories/Props/FaultProps.v
theories/Model/ActionsHeap.v
theories/Spec/SharedSpec.v
theories/Proofs/Shared.v
theories/Props/SharedProps.v
theories/Model/CandleHeap.v
theories/Proofs/CandleHeap.v
theories/Props/CandleHeapProps.v
theories/Spec/ArbitrageSpec.v
theories/Proofs/Arbitrage.v
theories/Props/ArbitrageProps.v
theories/Spec/TurningSpec.v
theories/Proofs/Turning.v
theories/Props/TurningProps.v
theories/Spec/ThinSpec.v
theories/Proofs/Thin.v
theories/Props/ThinProps.v
theories/Model/ActionsConcurrent.v
theories/Spec/SharedActionsSpec.v
theories/Proofs/SharedActions.v
theories/Props/SharedActionsProps.v
theories/Model/BookInto.v
theories/Spec/BookIntoSpec.v
theories/Proofs/BookInto.v
theories/Proofs/BookIntoRows.v
theories/Proofs/BookIntoStored.v
theories/Props/BookIntoProps.v
theories/Model/PositionConcurrent.v
theories/Spec/SharedPositionSpec.v
theories/Proofs/SharedPosition.v
theories/Proofs/SharedPositionRaces.v
theories/Props/SharedPositionProps.v
theories/Spec/TickSpec.v
theories/Proofs/Ticks.v
theories/Props/TickProps.v
theories/Spec/LotSpec.v
theories/Proofs/Lots.v
theories/Props/LotProps.v
theories/Props/OrderTypeProps.v
theories/Model/PositionReaders.v
theories/Spec/PositionReadSpec.v
theories/Proofs/PositionReaders.v
theories/Props/PositionReadProps.v
theories/Spec/GridBookSpec.v
theories/Proofs/GridOverlap.v
theories/Props/GridBookProps.v
theories/Spec/LotVolumeSpec.v
theories/Proofs/LotVolumes.v
theories/Props/LotVolumeProps.v
theories/Props/GridRequestProps.v
theories/Props/GridFeeProps.v
