-Q theories Verif
theories/Base.v
theories/Types.v
theories/SpecBase.v
theories/BaseProofs.v
theories/CommentModel.v
theories/MergeModel.v
theories/MergeSpec.v
theories/MergeProofs.v
theories/MergePending.v
theories/MergeApply.v
theories/MergeBuild.v
theories/MergeClosed.v
theories/MergeClaims.v
theories/MergeLemmas.v
theories/MergePlaces.v
theories/MergeLaws.v
theories/MergeLaws2.v
theories/MergeLaws3.v
theories/MergeLaws4.v
theories/MergeReplay.v
theories/MergeLaws5.v
theories/MergeExamples.v
theories/PropsMergeProofs.v
theories/PropsMerge.v
theories/StrProofs.v
theories/CommentClaims.v
theories/CommentProofs.v
theories/CommentLaws.v
theories/CommentExamples.v
theories/PropsComment.v
theories/TestsComment.v
theories/Sha1.v
theories/FingerprintModel.v
theories/NwCsvModel.v
theories/TzModel.v
theories/PaypalModel.v
theories/TestsImport.v
theories/FingerprintClaims.v
theories/FingerprintProofs.v
theories/FingerprintLaws.v
theories/NsClaims.v
theories/NsLaws.v
theories/PropsFingerprint.v
theories/ImportClaims.v
theories/ImportProofs.v
theories/ImportRows.v
theories/ImportLaws.v
theories/ImportMoney.v
theories/ImportPaypal.v
theories/TzLaws.v
theories/ImportExamples.v
theories/PropsImport.v
theories/CmdModel.v
theories/CmdClaims.v
theories/CmdProofs.v
theories/CmdMerge.v
theories/CmdMerge2.v
theories/CmdIdem.v
theories/CmdFp.v
theories/CmdExamples.v
theories/PropsCmd.v
theories/RulesModel.v
theories/RulesClaims.v
theories/RulesProofs.v
theories/RulesLaws.v
theories/RulesLoad.v
theories/RulesCmd.v
theories/RulesExamples.v
theories/PropsRules.v
theories/TestsRules.v
theories/OcrModel.v
theories/OcrClaims.v
theories/OcrProofs.v
theories/PdfModel.v
theories/PdfClaims.v
theories/PdfTable.v
theories/PdfFold.v
theories/PdfLaws.v
theories/PdfLaws2.v
theories/PdfExamples.v
theories/PropsOcr.v
theories/PropsPdf.v
theories/EditClaims.v
theories/MergeEdit.v
theories/RulesEdit.v
theories/WindowClaims.v
theories/MergeDays.v
theories/StatementClaims.v
theories/ImportDays.v
theories/PaypalDays.v
theories/WorkflowExamples.v
theories/PropsWorkflow.v
theories/RegexModel.v
theories/RegexClaims.v
theories/RegexLaws.v
theories/RegexEngine.v
theories/RegexDigit.v
theories/PropsRegex.v
theories/CmdOrder.v
theories/MutCellModel.v
theories/MutCellLaws.v
theories/PropsRepeat.v
theories/ResolveClaims.v
theories/MergeResolve.v
theories/ResolveExamples.v
theories/PropsResolve.v
theories/ImporterModel.v
theories/ImporterClaims.v
theories/ImporterLaws.v
theories/ImporterExamples.v
theories/PropsImporter.v
theories/HeaderClaims.v
theories/HeaderLaws.v
theories/CmdPlain.v
theories/WorkCmdClaims.v
theories/WorkCmd.v
theories/WorkCmdExamples.v
theories/PropsWorkCmd.v
theories/CommentTextClaims.v
theories/CommentText.v
theories/DetailClaims.v
theories/ImportDetails.v
theories/PropsText.v
theories/LayoutClaims.v
theories/CommentLayout.v
theories/PropsLayout.v
theories/HistoryClaims.v
theories/History.v
theories/HistoryStep.v
theories/HistoryOrder.v
theories/PropsHistory.v
theories/ReRun.v
theories/PartsClaims.v
theories/ReRunExamples.v
theories/PropsReRun.v
theories/Renum.v
theories/RenumInit.v
theories/Parts.v
theories/PropsParts.v
theories/PipeClaims.v
theories/Pipe.v
theories/PipeExamples.v
theories/PropsPipe.v
theories/PdfI32Model.v
theories/PdfI32Claims.v
theories/PdfI32.v
theories/PdfI32Examples.v
theories/PropsI32.v
theories/PiecesClaims.v
theories/Pieces.v
theories/PiecesOrder.v
theories/PiecesExamples.v
theories/PropsPieces.v
theories/ResolveAllClaims.v
theories/ResolveAll.v
theories/ResolveAllCmd.v
theories/ResolveAllExamples.v
theories/PropsResolveAll.v
theories/TwinClaims.v
theories/Twin.v
theories/TwinExamples.v
theories/PropsTwin.v
theories/StmtTwinClaims.v
theories/StmtTwin.v
theories/StmtTwinExamples.v
theories/PropsStmtTwin.v
theories/PdfDaysClaims.v
theories/PdfDays.v
theories/PdfDaysExamples.v
theories/PropsPdfDays.v
theories/PostClaims.v
theories/PostLaws.v
theories/PropsPost.v
theories/CommentTags.v
theories/RereadClaims.v
theories/Reread.v
theories/PropsReread.v
theories/TimeClaims.v
theories/TimeProofs.v
theories/PropsTime.v
theories/HandClaims.v
theories/Hand.v
theories/HandExamples.v
theories/PropsHand.v
theories/RewriteClaims.v
theories/Rewrite.v
theories/BlankValues.v
theories/PropsRewrite.v
theories/RearrangeClaims.v
theories/Rearrange.v
theories/RearrangeExamples.v
theories/PropsRearrange.v
theories/AccountedClaims.v
theories/Accounted.v
theories/Accounted2.v
theories/PropsAccounted.v
theories/PdfWorkClaims.v
theories/PdfWork.v
theories/PdfWorkExamples.v
theories/PipePdf.v
theories/PipePdfExamples.v
theories/PropsPdfWork.v
theories/LibClaims.v
theories/Lib.v
theories/PropsLib.v
theories/ExampleRulesModel.v
theories/ExampleRulesClaims.v
theories/ExampleRules.v
theories/ExampleRulesUse.v
theories/ExampleRulesExamples.v
theories/PropsExampleRules.v
theories/RulesOrderClaims.v
theories/RulesOrder.v
theories/RulesOrderExamples.v
theories/PropsRulesOrder.v
theories/AgainClaims.v
theories/Again.v
theories/AgainCmd.v
theories/PropsAgain.v
theories/ExactClaims.v
theories/Exact.v
theories/ExactFile.v
theories/PropsExact.v
theories/PaypalPeers.v
theories/PropsPeers.v
theories/SameFpClaims.v
theories/SameFp.v
theories/SameFpExamples.v
theories/PropsSameFp.v
theories/CutClaims.v
theories/Cut.v
theories/PropsCut.v
theories/MatchIterModel.v
theories/MatchIterClaims.v
theories/MatchIter.v
theories/PropsMatchIter.v
theories/FreeOrderModel.v
theories/FreeClaims.v
theories/FreeOrder.v
theories/FreeCmd.v
theories/PropsFree.v
theories/NsUseClaims.v
theories/NsUse.v
theories/PropsNsUse.v
theories/NwI64Model.v
theories/NwI64Claims.v
theories/NwI64.v
theories/NwI64Examples.v
theories/PropsI64.v
theories/DatesClaims.v
theories/Dates.v
theories/DatesExamples.v
theories/PropsDates.v
theories/Settle.v
theories/PropsSettle.v
theories/RetryClaims.v
theories/Retry.v
theories/PropsRetry.v
theories/FpTypesModel.v
theories/FpTypesClaims.v
theories/FpTypes.v
theories/PropsFpTypes.v
theories/ScriptClaims.v
theories/Script.v
theories/PropsScript.v
theories/StmtTwinCmdClaims.v
theories/StmtTwinCmd.v
theories/StmtTwinCmdExamples.v
theories/PropsStmtTwinCmd.v
theories/TwinCmd.v
theories/PropsTwinCmd.v
theories/BooksClaims.v
theories/Books.v
theories/BooksCmd.v
theories/PropsBooks.v
theories/AssertClaims.v
theories/Assert.v
theories/Assert2.v
theories/AssertExamples.v
theories/PropsAssert.v
theories/AccountsClaims.v
theories/Accounts.v
theories/Accounts2.v
theories/Accounts3.v
theories/AccountsExamples.v
theories/PropsAccounts.v
theories/YearClaims.v
theories/Year.v
theories/Year2.v
theories/YearExamples.v
theories/PropsYear.v
theories/PdfMoneyClaims.v
theories/PdfMoney.v
theories/PdfMoneyExamples.v
theories/PropsPdfMoney.v
theories/DateOrder.v
theories/PropsDate.v
theories/KeptClaims.v
theories/Kept.v
theories/KeptCmd.v
theories/KeptExamples.v
theories/KeptCmdExamples.v
theories/PropsKept.v
theories/KeptImports.v
theories/PropsKeptImports.v
theories/LivedClaims.v
theories/Lived.v
theories/LivedCmd.v
theories/LivedExamples.v
theories/PropsLived.v
theories/ReturnClaims.v
theories/Return.v
theories/ReturnExamples.v
theories/PropsReturn.v
theories/LastAgain.v
theories/PropsLastAgain.v
theories/AsideClaims.v
theories/Aside.v
theories/Aside2.v
theories/AsideExamples.v
theories/PropsAside.v
theories/AnyOrderClaims.v
theories/AnyOrder.v
theories/PropsAnyOrder.v
theories/RelLaws.v
theories/RenameClaims.v
theories/Rename.v
theories/PropsRename.v
theories/PlaceClaims.v
theories/Place.v
theories/PropsPlace.v
theories/HandedClaims.v
theories/Handed.v
theories/PropsHanded.v
theories/RetagClaims.v
theories/Retag.v
theories/RetagCmd.v
theories/PropsRetag.v
theories/RedateClaims.v
theories/Redate.v
theories/RedateCmd.v
theories/PropsRedate.v
theories/FigureClaims.v
theories/Figures.v
theories/PropsFigures.v
theories/DivideClaims.v
theories/Divide.v
theories/PropsDivide.v
theories/SeenClaims.v
theories/Seen.v
theories/PropsSeen.v
theories/LegacyClaims.v
theories/Legacy.v
theories/PropsLegacy.v
theories/ZoneClaims.v
theories/Zone.v
theories/PropsZone.v
theories/FewerClaims.v
theories/Fewer.v
theories/Upgrade.v
theories/PropsUpgrade.v
theories/UpgradeCmd.v
theories/PropsUpgradeCmd.v
theories/DrawnClaims.v
theories/Drawn.v
theories/PropsDrawn.v
theories/DrawnCmd.v
theories/PropsDrawnCmd.v
theories/CopiesClaims.v
theories/Copies.v
theories/PropsCopies.v
theories/CopiesCmd.v
theories/PropsCopiesCmd.v
theories/TidyClaims.v
theories/Tidy.v
theories/PropsTidy.v
theories/TidyFail.v
theories/PropsTidyFail.v
