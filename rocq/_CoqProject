-Q theories Verif
theories/Base.v
theories/Stream.v
theories/Framing.v
theories/StreamProofs.v
theories/FramingBasics.v
theories/FramingRuns.v
theories/FramingTop.v
theories/FramingSpec.v
theories/FramingWire.v
theories/FramingMessages.v
theories/FramingConv.v
theories/FramingOrigin.v
theories/FramingEnds.v
theories/ChunkSizes.v
theories/Earley.v
theories/EarleySpec.v
theories/EarleyChart.v
theories/EarleyItems.v
theories/EarleyTerm.v
theories/EarleySearch.v
theories/EarleyTop.v
theories/EarleyMain.v
theories/Parse.v
theories/P_FramingRuns.v
theories/P_FramingWire.v
theories/P_FramingBodies.v
theories/P_Earley.v
theories/P_Parse.v
theories/Grammar.v
theories/GrammarSem.v
theories/GrammarLang.v
theories/GrammarWF.v
theories/GrammarVals.v
theories/GrammarExcl.v
theories/GrammarCalc.v
theories/Syntax.v
theories/Actions.v
theories/Reading.v
theories/HttpText.v
theories/SyntaxVals.v
theories/SyntaxLists.v
theories/GrammarRend.v
theories/HttpDate.v
theories/Calendar.v
theories/SyntaxDates.v
theories/SyntaxTags.v
theories/DateUnique.v
theories/P_Grammar.v
theories/Blackboard.v
theories/P_Blackboard.v
theories/Text.v
theories/Structure.v
theories/P_Util.v
theories/Inputs.v
theories/InputsProofs.v
theories/P_Inputs.v
theories/Known.v
theories/Header.v
theories/HeaderProofs.v
theories/P_Header.v
theories/Types.v
theories/Nested.v
theories/NestedTypes.v
theories/P_Types.v
theories/P_Views.v
theories/Tables.v
theories/Values.v
theories/ChecksBase.v
theories/ChecksMessage.v
theories/ChecksRequest.v
theories/ChecksResponse.v
theories/Complaints.v
theories/Catalogue.v
theories/ChecksLogic.v
theories/Notices.v
theories/ChecksSays.v
theories/ChecksTop.v
theories/ChecksViews.v
theories/ChecksExchange.v
theories/ChecksExample.v
theories/P_Exchange.v
theories/P_Early.v
theories/Reports.v
theories/P_Catalogue.v
theories/P_Bodies.v
theories/Titles.v
theories/TextReport.v
theories/P_Reports.v
theories/Cli.v
theories/P_Cli.v
theories/ViewFacts.v
theories/ChecksFacts.v
theories/ChecksSafe.v
theories/SafeMessage.v
theories/SafeRequest.v
theories/SafeResponse.v
theories/P_Safe.v
theories/HeaderValue.v
theories/RulesLogic.v
theories/Rules.v
theories/RulesBase.v
theories/RulesMessage.v
theories/RulesPayload.v
theories/RulesAny.v
theories/RulesRequest.v
theories/RulesOfResponse.v
theories/RulesResponse.v
theories/RulesContext.v
theories/P_Rules.v
theories/Har.v
theories/P_Har.v
theories/P_Looks.v
theories/Annotated.v
theories/Verbatim.v
theories/P_Annotated.v
theories/Citation.v
theories/Templates.v
theories/Links.v
theories/Html.v
theories/P_Html.v
theories/HtmlData.v
theories/P_HtmlData.v
theories/P_Markup.v
theories/P_Display.v
theories/P_Refs.v
theories/P_Same.v
theories/P_Links.v
theories/Alike.v
theories/AlikeViews.v
theories/AlikeChecks.v
theories/AlikeTop.v
theories/P_Order.v
theories/Details.v
theories/P_Details.v
theories/P_Values.v
theories/Joined.v
theories/FramingIds.v
theories/P_Joined.v
theories/P_Framed.v
theories/FramingParts.v
theories/P_FramingParts.v
theories/P_FramingShown.v
theories/HttpValues.v
theories/SyntaxDen.v
theories/SyntaxParts.v
theories/SyntaxKit.v
theories/SyntaxMore.v
theories/P_Syntax.v
theories/SyntaxFields.v
theories/SyntaxAgents.v
theories/P_Fields.v
theories/UriText.v
theories/SyntaxUri.v
theories/P_Uri.v
theories/MoreValues.v
theories/SyntaxLang.v
theories/Utf8.v
theories/SyntaxExt.v
theories/SyntaxRest.v
theories/P_More.v
theories/AgainValues.v
theories/SyntaxAgain.v
theories/P_Again.v
theories/P_LinkRaises.v
theories/P_Whole.v
theories/P_Argued.v
theories/P_Known.v
