-Q theories Verif
theories/GoStr.v
theories/Unicode.v
theories/UnicodeFacts.v
theories/UnicodeCase.v
theories/GoNum.v
theories/Types.v
theories/Lexer.v
theories/VBase.v
theories/Words.v
theories/VSqlite.v
theories/VPostgres.v
theories/VMysql.v
theories/Converter.v
theories/Parse.v
theories/RepoTests.v
theories/Exec.v
theories/Grammar.v
theories/GrammarFacts.v
theories/Ast.v
theories/GSqlite.v
theories/GPostgres.v
theories/GMysql.v
theories/Equiv.v
theories/ESqlite.v
theories/EPostgres.v
theories/EMysql.v
theories/Accept.v
theories/Fuel.v
theories/Scan.v
theories/Utf8.v
theories/ParseFacts.v
theories/Spec.v
theories/Pipe.v
theories/Safe.v
theories/Seen.v
theories/Emit.v
theories/Conv.v
theories/Odd.v
theories/Exact.v
theories/Derive.v
theories/DSqlite.v
theories/DPostgres.v
theories/DMysql.v
theories/Tokens.v
theories/Read.v
theories/Meaning.v
theories/Closed.v
theories/NoPanic.v
theories/Total.v
theories/Decide.v
theories/Witness.v
theories/Reported.v
theories/Text.v
theories/Origin.v
theories/Force.v
theories/Local.v
theories/Compose.v
theories/Viable.v
theories/ErrorAt.v
theories/Layout.v
theories/LayoutFacts.v
theories/Quoted.v
theories/Unquote.v
theories/Unknown.v
theories/Sources.v
theories/SourcesFacts.v
theories/Enclosed.v
theories/Names.v
theories/NamesFacts.v
theories/Parts.v
theories/PartsFacts.v
theories/Numbers.v
theories/NumbersFacts.v
theories/Stops.v
theories/Floats.v
theories/FloatsFacts.v
theories/GoFloats.v
theories/GoFloatsFacts.v
theories/GoFloatsRead.v
theories/Values.v
theories/ValuesFacts.v
theories/Properties.v
theories/PropertiesLex.v
theories/PropertiesNames.v
theories/PropertiesParts.v
theories/Recase.v
theories/RecaseFacts.v
theories/Cased.v
theories/Respell.v
theories/CasedConvert.v
theories/MarkRead.v
theories/PropertiesCase.v
theories/Refuted.v
theories/NotNull.v
theories/NotNullFacts.v
theories/Columns.v
theories/ColumnsFacts.v
theories/Exclude.v
theories/ExcludeFacts.v
theories/PropertiesColumns.v
theories/Follow.v
theories/Listed.v
theories/ListedFacts.v
theories/PropertiesTokens.v
theories/PropertiesExact.v
theories/ErrorText.v
theories/ErrorTextFacts.v
theories/Skipped.v
theories/SkippedFacts.v
theories/Extend.v
theories/PropertiesMore.v
theories/Build.v
theories/Print.v
theories/PrintText.v
theories/PrintFloat.v
theories/PrintItems.v
theories/PrintTypes.v
theories/PrintColumn.v
theories/PrintFacts.v
theories/PropertiesPrint.v
theories/Portable.v
theories/PortableFacts.v
theories/PortableMysql.v
theories/Alike.v
theories/PropertiesPortable.v
theories/TypeNames.v
theories/TypeFacts.v
theories/Flags.v
theories/FlagsFacts.v
theories/PropertiesTypes.v
theories/Resp.v
theories/RespText.v
theories/Rename.v
theories/RenameTokens.v
theories/RenameVerdict.v
theories/RenameFacts.v
theories/RenameConvert.v
theories/PropertiesRename.v
theories/Hang.v
theories/HangFacts.v
theories/PropertiesHang.v
theories/DocWords.v
theories/DocFacts.v
theories/PropertiesWords.v
theories/Lexical.v
theories/LexicalFacts.v
theories/PropertiesLexical.v
theories/ForceFacts.v
theories/PropertiesForce.v
theories/Readme.v
theories/ReadmeSqlite.v
theories/ReadmePostgres.v
theories/ReadmeMysql.v
theories/ReadmeFacts.v
theories/ReadmeSqliteFacts.v
theories/ReadmePostgresFacts.v
theories/ReadmeMysqlFacts.v
theories/ReadmeNarrow.v
theories/PropertiesReadme.v
theories/JsonGrammar.v
theories/Json.v
theories/JsonFacts.v
theories/JsonResult.v
theories/JsonPlain.v
theories/JsonShape.v
theories/JsonPaths.v
theories/JsonPathsFacts.v
theories/PropertiesJson.v
theories/Order.v
theories/OrderFacts.v
theories/OrderResult.v
theories/PropertiesOrder.v
theories/Clauses.v
theories/ClausesFacts.v
theories/PropertiesClauses.v
theories/Header.v
theories/HeaderFacts.v
theories/PropertiesHeader.v
theories/Sum.v
theories/SumFacts.v
theories/PropertiesSum.v
theories/BracketsFacts.v
theories/PropertiesBrackets.v
theories/Size.v
theories/SizeFacts.v
theories/SizeRead.v
theories/PropertiesSize.v
theories/Inside.v
theories/InsideFacts.v
theories/PropertiesInside.v
theories/StepsFacts.v
theories/PropertiesSteps.v
theories/CompleteFacts.v
theories/PropertiesComplete.v
theories/Lines.v
theories/LineFacts.v
theories/PropertiesLine.v
theories/Upper.v
theories/UpperFacts.v
theories/PropertiesUpper.v
theories/Literal.v
theories/LiteralFacts.v
theories/LiteralConvert.v
theories/LiteralRead.v
theories/LiteralText.v
theories/PropertiesLiteral.v
theories/Number.v
theories/NumberFacts.v
theories/NumberConvert.v
theories/NumberRead.v
theories/NumberText.v
theories/PropertiesNumber.v
theories/PropertiesConsistent.v
theories/Place.v
theories/PlaceFacts.v
theories/PropertiesPlace.v
theories/CutFacts.v
theories/CutError.v
theories/PropertiesCut.v
theories/Decodes.v
theories/DecodesFacts.v
theories/PropertiesDecodes.v
theories/Shift.v
theories/PropertiesShift.v
theories/OneLine.v
theories/OneLineFacts.v
theories/PropertiesOneLine.v
theories/Named.v
theories/PropertiesNamed.v
theories/Lengths.v
theories/PropertiesLengths.v
theories/Bracketed.v
theories/ExprClosed.v
theories/PropertiesBracketed.v
theories/Keys.v
theories/KeysSqlite.v
theories/KeysPostgres.v
theories/KeysMysql.v
theories/KeysFacts.v
theories/PropertiesKeys.v
