-Q theories Verif
theories/Base.v
theories/Parser.v
theories/Dialect.v
theories/SpecLayout.v
theories/SpecParse.v
theories/ParserFacts.v
theories/LayoutFacts.v
theories/LayoutTotal.v
theories/ParserProps.v
theories/ParserLift.v
theories/CsvLib.v
theories/Reader.v
theories/Writer.v
theories/RoundTrip.v
theories/RoundTripPlain.v
theories/SpecHistory.v
theories/SpecWriter.v
theories/ReaderFacts.v
theories/WriterFacts.v
theories/SpecParams.v
theories/ParamFacts.v
theories/ParserLimit.v
theories/LayoutLimit.v
theories/SpecText.v
theories/LayoutMore.v
theories/StrictFacts.v
theories/ParserLift2.v
theories/CellFacts.v
theories/Files.v
theories/Wrappers.v
theories/Standardize.v
theories/SpecFiles.v
theories/FilesFacts.v
theories/StandardizeFacts.v
theories/TableFacts.v
theories/PropsParser.v
theories/PropsReader.v
theories/PropsFiles.v
theories/Dict.v
theories/SpecDict.v
theories/DictFacts.v
theories/DictWriteFacts.v
theories/PropsDict.v
theories/Abstraction.v
theories/SpecAbstraction.v
theories/AbstractionFacts.v
theories/FillFacts.v
theories/ShapeFacts.v
theories/PropsAbstraction.v
theories/Potential.v
theories/SpecPotential.v
theories/PotentialFacts.v
theories/MaskedFacts.v
theories/PropsPotential.v
theories/Floats.v
theories/Ties.v
theories/Consistency.v
theories/FloatFacts.v
theories/SpecConsistency.v
theories/ScoreFacts.v
theories/TypeFacts.v
theories/TieFacts.v
theories/DetectFacts.v
theories/DetectCases.v
theories/TieMember.v
theories/PropsConsistency.v
theories/SpecTies.v
theories/TieRules.v
theories/TieMore.v
theories/TieCases.v
theories/PropsTies.v
theories/NormalForm.v
theories/SpecNormal.v
theories/NormalFacts.v
theories/NormalRows.v
theories/NormalForms.v
theories/NormalParse.v
theories/NormalParse2.v
theories/NormalCases.v
theories/PropsNormal.v
theories/Detect.v
theories/SpecDetect.v
theories/DetectorFacts.v
theories/HeaderFacts.v
theories/BareCR.v
theories/DetectorCases.v
theories/PropsDetect.v
theories/Limit.v
theories/SpecLimit.v
theories/LimitFacts.v
theories/PropsLimit.v
theories/Json.v
theories/SpecJson.v
theories/JsonFacts.v
theories/PropsJson.v
theories/Codegen.v
theories/SpecCodegen.v
theories/CodegenFacts.v
theories/CodegenRun.v
theories/PropsCodegen.v
theories/JsonScan.v
theories/Regex.v
theories/RegexFacts.v
theories/Types.v
theories/SpecTypes.v
theories/TypesFacts.v
theories/TypesText.v
theories/TypesNumber.v
theories/TypesDate.v
theories/TypesUrl.v
theories/TypesAll.v
theories/CellChars.v
theories/TypesJson.v
theories/TypesDetect.v
theories/TypesCases.v
theories/PropsTypes.v
theories/TableScores.v
theories/SpecTables.v
theories/TablesFacts.v
theories/TablesCases.v
theories/PropsTables.v
theories/TablesNormal.v
theories/TablesFiles.v
theories/AutoCases.v
theories/FilesCases.v
theories/PropsAuto.v
theories/Console.v
theories/SpecConsole.v
theories/ConsoleText.v
theories/ConsoleFacts.v
theories/ConsoleCases.v
theories/PropsConsole.v
theories/SpecQuoted.v
theories/QuotedScores.v
theories/QuotedLayout.v
theories/QuotedFacts.v
theories/QuotedDetect.v
theories/QuotedWords.v
theories/QuotedCases.v
theories/PropsQuoted.v
theories/QuotedNormal.v
theories/QuotedFiles.v
theories/QuotedFilesCases.v
theories/PropsQuotedFiles.v
theories/Simple.v
theories/SimpleFiles.v
theories/SimpleCases.v
theories/PropsSimple.v
theories/SpecDictTables.v
theories/DictTables.v
theories/DictSimple.v
theories/PropsDictTables.v
theories/SpecHeader.v
theories/HeaderTables.v
theories/HeaderCases.v
theories/PropsHeader.v
theories/SpecColumn.v
theories/Columns.v
theories/ColumnFiles.v
theories/ColumnCases.v
theories/PropsColumn.v
theories/SpecExcel.v
theories/ExcelText.v
theories/PropsExcel.v
theories/SpecDocument.v
theories/Documents.v
theories/DocumentsTwice.v
theories/DocumentCases.v
theories/PropsDocument.v
theories/SpecLines.v
theories/UrlLines.v
theories/LineLayout.v
theories/LineEnds.v
theories/LineDetect.v
theories/LineNormal.v
theories/LineCases.v
theories/PropsLines.v
theories/LineFiles.v
theories/LineFilesCases.v
theories/PropsLineFiles.v
theories/SpecEncoding.v
theories/Encodings.v
theories/PropsEncodings.v
theories/CsvReader.v
theories/SpecCsvReader.v
theories/CsvReaderFacts.v
theories/CsvReaderMore.v
theories/CsvReaderApi.v
theories/PropsCsvReader.v
theories/SpecRename.v
theories/Rename.v
theories/RenameTies.v
theories/PropsRename.v
theories/SpecJsonText.v
theories/JsonText.v
theories/JsonValues.v
theories/JsonCells.v
theories/PropsJsonText.v
theories/SpecWriteErrors.v
theories/WriteErrors.v
theories/PropsWriteErrors.v
theories/SpecBatch.v
theories/Batch.v
theories/PropsBatch.v
theories/Verbose.v
theories/SpecVerbose.v
theories/VerboseFacts.v
theories/VerboseScores.v
theories/VerboseCommands.v
theories/VerboseCases.v
theories/VerboseReasons.v
theories/PropsVerbose.v
theories/SpecWritten.v
theories/Written.v
theories/WrittenFiles.v
theories/PropsWritten.v
theories/SpecCsvLayout.v
theories/CsvLayoutFacts.v
theories/CsvAgree.v
theories/PropsCsvLayout.v
theories/TypesOptions.v
theories/SpecTypesOptions.v
theories/TypesOptionsFacts.v
theories/PropsTypesOptions.v
theories/SpecSample.v
theories/Sample.v
theories/SampleCases.v
theories/PropsSample.v
theories/SpecOrder.v
theories/LineOrder.v
theories/OrderNormal.v
theories/OrderCases.v
theories/PropsOrder.v
theories/SpecPieces.v
theories/Pieces.v
theories/PiecesCases.v
theories/PropsPieces.v
theories/SpecRefuse.v
theories/Refuse.v
theories/PropsRefuse.v
theories/ArgParse.v
theories/SpecArgs.v
theories/ArgLoop.v
theories/ArgWords.v
theories/ArgDashed.v
theories/ArgLines.v
theories/ArgMeaning.v
theories/ArgSound.v
theories/ArgCommands.v
theories/ArgCases.v
theories/ArgErrors.v
theories/PropsArgs.v
theories/ArgMain.v
theories/SpecMain.v
theories/ArgOrigin.v
theories/MainFacts.v
theories/MainCases.v
theories/ArgErrorCases.v
theories/PropsMain.v
theories/ArgMainMore.v
theories/MainMore.v
theories/MainMoreCases.v
theories/MainMoreErrors.v
theories/PropsMainMore.v
