-Q theories Verif
theories/Base.v
theories/PathExp.v
theories/SpecPath.v
theories/PathExpProofs.v
theories/PathExpProofs2.v
theories/PropPath.v
theories/Json.v
theories/MatchingRules.v
theories/SpecRules.v
theories/RulesProofs.v
theories/RulesProofs2.v
theories/RulesProofs3.v
theories/RulesProofs4.v
theories/PropRules.v
theories/Matchers.v
theories/JsonCompare.v
theories/SpecMatch.v
theories/CompareProofs.v
theories/CompareProofs2.v
theories/CompareProofs3.v
theories/PropMatch.v
theories/Text.v
theories/TextProofs.v
theories/QueryString.v
theories/SpecQuery.v
theories/QueryProofs.v
theories/PropQuery.v
theories/Headers.v
theories/SpecHeaders.v
theories/HeaderProofs.v
theories/HeaderProofs2.v
theories/PropHeaders.v
theories/SpecValues.v
theories/PropValues.v
theories/SpecBody.v
theories/BodyProofs.v
theories/PropBody.v
theories/Query.v
theories/ContentType.v
theories/Http.v
theories/SpecHttp.v
theories/PropHttp.v
theories/PropGovern.v
theories/PropHttp2.v
theories/PropMessage.v
theories/Merge.v
theories/SpecMerge.v
theories/MergeProofs.v
theories/PropMerge.v
theories/PropMerge2.v
theories/PropMerge3.v
theories/Store.v
theories/SpecStore.v
theories/PropStore.v
theories/PropStore2.v
theories/PropHttp3.v
theories/CBuf.v
theories/PropCBuf.v
theories/Handles.v
theories/SpecHandles.v
theories/PropHandles.v
theories/PropHandles2.v
theories/PropHandles3.v
theories/Expr.v
theories/SpecExpr.v
theories/PropExpr.v
theories/FloatProofs.v
theories/PropExpr2.v
theories/FloatExact.v
theories/PropExpr3.v
theories/Generators.v
theories/SpecGenerators.v
theories/PropGenerators.v
theories/GenApply.v
theories/SpecGenApply.v
theories/GenApplyProofs.v
theories/PropGenApply.v
theories/GenRequest.v
theories/SpecGenRequest.v
theories/PropGenRequest.v
theories/PropGenMessages.v
theories/GenValues.v
theories/SpecGenValues.v
theories/PropGenValues.v
theories/PropGenValues2.v
theories/PropGenValues3.v
theories/RuleExpr.v
theories/SpecRuleExpr.v
theories/RuleExprProofs.v
theories/RuleExprProofs2.v
theories/RuleExprProofs3.v
theories/PropRuleExpr.v
theories/Integration.v
theories/SpecIntegration.v
theories/PropIntegration.v
theories/IntegrationValues.v
theories/SpecIntegrationValues.v
theories/PropIntegrationValues.v
theories/VerifierClient.v
theories/Verifier.v
theories/SpecVerifierClient.v
theories/SpecVerifier.v
theories/PropVerifierClient.v
theories/PropVerifier.v
theories/PropVerifier2.v
theories/PropVerifier3.v
theories/Broker.v
theories/SpecBroker.v
theories/PropBroker.v
theories/PropBroker2.v
theories/PropBroker3.v
theories/PropBroker4.v
theories/PropBroker5.v
theories/PropBroker6.v
theories/StateChange.v
theories/SpecStateChange.v
theories/PropStateChange.v
theories/Report.v
theories/SpecReport.v
theories/PropReport.v
theories/Xml.v
theories/SpecXml.v
theories/PropXml.v
theories/Pattern.v
theories/SpecPattern.v
theories/PatternProofs.v
theories/PropPattern.v
theories/PropPattern2.v
theories/PropPattern3.v
theories/Calendar.v
theories/CalendarProofs.v
theories/CalendarProofs2.v
theories/DateExpr.v
theories/DateEval.v
theories/SpecDate.v
theories/DateProofs.v
theories/PropDate.v
theories/PropDate2.v
theories/PropTime.v
theories/SpecDateText.v
theories/DateTextProofs.v
theories/PropDateText.v
theories/PropTimeText.v
theories/PropDate3.v
theories/PropDateText2.v
theories/PropVerifierClient2.v
theories/TimeFormat.v
theories/SpecTimeFormat.v
theories/TimeFormatProofs.v
theories/TimeFormatProofs2.v
theories/PropTimeFormat.v
theories/PropTimeFormat2.v
theories/SpecTimeGen.v
theories/PropTimeGen.v
theories/PropReport2.v
theories/Base64.v
theories/PactFile.v
theories/SpecPactFile.v
theories/PactFileProofs.v
theories/PactFileProofs2.v
theories/PropPactFile.v
theories/PropPactFile2.v
theories/SpecRulesV2.v
theories/RulesV2.v
theories/PropRulesV2.v
theories/OldFile.v
theories/SpecOldFile.v
theories/OldFileProofs.v
theories/OldFileProofs2.v
theories/PropOldFile.v
theories/PropOldFile2.v
theories/SpecConvert.v
theories/PropConvert.v
theories/PropConvert2.v
theories/PropConvert3.v
theories/Engine.v
theories/EnginePlan.v
theories/EngineRuns.v
theories/EngineProofs.v
theories/SpecEngine.v
theories/EngineJson.v
theories/PropEngine.v
theories/EngineJudge.v
theories/EngineParts.v
theories/EngineRules.v
theories/EngineRequest.v
theories/EngineHeaders.v
theories/EngineBody.v
theories/EngineWhole.v
theories/PropEngine2.v
theories/PropEngine3.v
theories/SpecReadSafe.v
theories/PropReadSafe.v
theories/Multipart.v
theories/SpecMultipart.v
theories/PropMultipart.v
theories/PropMultipart2.v
theories/SpecParams.v
theories/PropParams.v
theories/PropParams2.v
theories/Builder.v
theories/SpecBuilder.v
theories/BuilderProofs.v
theories/BuilderProofs2.v
theories/BuilderProofs3.v
theories/BuilderProofs4.v
theories/PropBuilder.v
theories/PropBuilder2.v
theories/PropBuilder3.v
theories/XmlPath.v
theories/SpecXmlPath.v
theories/PropXmlPath.v
theories/PropXmlPath2.v
theories/PropXmlPath3.v
theories/FormJson.v
theories/SpecFormJson.v
theories/PropForm.v
theories/PropFormJson.v
theories/XmlJson.v
theories/SpecXmlJson.v
theories/PropXmlJson.v
theories/PropXmlJson2.v
theories/VerifierHandle.v
theories/SpecVerifierHandle.v
theories/PropVerifierHandle.v
theories/PropVerifierHandle2.v
theories/PropVerifierHandle3.v
theories/MessageBuilder.v
theories/SpecMessageBuilder.v
theories/PropMessageBuilder.v
theories/PropMessageBuilder2.v
theories/PropMessageBuilder3.v
theories/PropMessageBuilder4.v
theories/PropMessageBuilder5.v
theories/SpecReading.v
theories/PropReading.v
theories/PropReading2.v
theories/FfiBody.v
theories/SpecFfiBody.v
theories/PropFfiBody.v
theories/PropFfiBody2.v
theories/PropFfiBody3.v
theories/PropFfiBody4.v
theories/PropFfiBody5.v
theories/FfiRead.v
theories/SpecFfiRead.v
theories/PropFfiRead.v
theories/PropFfiRead2.v
theories/FfiMessage.v
theories/SpecFfiMessage.v
theories/PropFfiMessage.v
theories/PropFfiMessage2.v
theories/PropFfiMessage3.v
theories/FileCheck.v
theories/SpecFileCheck.v
theories/PropFileCheck.v
theories/PropFileCheck2.v
theories/PropFileCheck3.v
theories/CliArgs.v
theories/SpecCliArgs.v
theories/PropCliArgs.v
theories/PropCliArgs2.v
theories/Logging.v
theories/SpecLogging.v
theories/PropLogging.v
theories/PropLogging2.v
theories/PropLogging3.v
theories/PropLogging4.v
theories/DefFfi.v
theories/SpecDefFfi.v
theories/PropDefFfi.v
theories/PropDefFfi2.v
theories/MatchFfi.v
theories/SpecMatchFfi.v
theories/PropMatchFfi.v
theories/KindOf.v
theories/SpecKindOf.v
theories/PropKindOf.v
