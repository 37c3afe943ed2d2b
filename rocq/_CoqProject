-Q theories Verif
theories/Base.v
theories/UtilModel.v
theories/UtilSpec.v
theories/UtilProofs.v
theories/UtilProps.v
theories/HpackTables.v
theories/HpackModel.v
theories/HpackSpec.v
theories/HpackIntProofs.v
theories/HuffmanProofs.v
theories/DynTableProofs.v
theories/HpackCodecProofs.v
theories/HpackConnProofs.v
theories/HpackProps.v
theories/H2Model.v
theories/H2Spec.v
theories/H2Proofs.v
theories/H2FramerProofs.v
theories/H2Props.v
theories/H2FieldModel.v
theories/H2FieldSpec.v
theories/H2FieldProps.v
theories/H2ServerModel.v
theories/H2ServerSpec.v
theories/H2ServerSteps.v
theories/H2ServerRefine.v
theories/H2ServerHandlers.v
theories/H2ServerInv.v
theories/H2ServerInv2.v
theories/H2ServerInv3.v
theories/H2ServerProps.v
theories/H2ClientModel.v
theories/H2ClientSpec.v
theories/H2ClientSteps.v
theories/H2ClientAgree.v
theories/H2ClientHandlers.v
theories/H2ClientFrames.v
theories/H2ClientRun.v
theories/H2ClientInv.v
theories/H2ClientLedger.v
theories/H2ClientSend.v
theories/H2ClientLimits.v
theories/H2ClientActive.v
theories/H2ClientProps.v
theories/H2ClientErrors.v
theories/WsSpec.v
theories/WsModel.v
theories/WsProofs.v
theories/WsParser.v
theories/WsParser2.v
theories/WsSession.v
theories/WsDrive.v
theories/WsProps.v
theories/WsHandshake.v
theories/RouteSpec.v
theories/RouteModel.v
theories/RouteProofs.v
theories/RouteTree.v
theories/RouteProps.v
theories/RouterProps.v
theories/CtxModel.v
theories/CtxProofs.v
theories/CtxProps.v
theories/RateModel.v
theories/RateSpec.v
theories/RateProofs.v
theories/RateProps.v
theories/StaticModel.v
theories/StaticSpec.v
theories/StaticFs.v
theories/StaticProofs.v
theories/StaticProps.v
theories/DateModel.v
theories/DateSpec.v
theories/DateProofs.v
theories/DateProps.v
theories/CookieModel.v
theories/CookieSpec.v
theories/CookieProofs.v
theories/CookieProps.v
theories/Http1Model.v
theories/Http1Spec.v
theories/Http1Proofs.v
theories/Http1Props.v
theories/RecvModel.v
theories/RecvProofs.v
theories/RecvSpec.v
theories/RecvInv.v
theories/RecvProps.v
theories/RecvFrame.v
theories/HdrModel.v
theories/HdrSpec.v
theories/HdrProofs.v
theories/HdrProps.v
theories/CliModel.v
theories/CliSpec.v
theories/CliProofs.v
theories/CliMoves.v
theories/CliInv.v
theories/CliBatch.v
theories/CliBatch2.v
theories/CliProps.v
theories/CliConn.v
theories/CliCorr.v
theories/CliDisc.v
theories/CliClose.v
theories/CliProps2.v
theories/MpModel.v
theories/MpSpec.v
theories/MpAuto.v
theories/MpRefine.v
theories/MpRefine2.v
theories/MpDoc.v
theories/MpSafe.v
theories/MpReader.v
theories/MpProps.v
theories/MpProps2.v
theories/MpExamples.v
theories/HeaderOps.v
theories/CorsModel.v
theories/CorsSpec.v
theories/CorsProps.v
theories/CorsProps2.v
theories/CorsExamples.v
theories/SecModel.v
theories/SecProps.v
theories/CompModel.v
theories/CompSpec.v
theories/CompProps.v
theories/CompProps2.v
theories/CompExamples.v
theories/ValJson.v
theories/ValModel.v
theories/ValSpec.v
theories/ValProps.v
theories/ValProps2.v
theories/ValProps3.v
theories/ValExamples.v
theories/SanModel.v
theories/SanSpec.v
theories/SanProps.v
theories/SanProps2.v
theories/SanProps3.v
theories/ReqModel.v
theories/FloatFacts.v
theories/ReqSpec.v
theories/ReqProps.v
theories/ReqProps2.v
theories/ReqProps3.v
theories/ReqExamples.v
theories/AuthModel.v
theories/AuthSpec.v
theories/AuthProps.v
theories/AuthProps2.v
theories/AuthProps3.v
theories/AuthProps4.v
theories/AuthProps5.v
theories/AuthExamples.v
theories/FormModel.v
theories/FormSpec.v
theories/FormProps.v
theories/RecapModel.v
theories/RecapSpec.v
theories/RecapProps.v
theories/MwModel.v
theories/MwProps.v
theories/CoroModel.v
theories/CoroSpec.v
theories/CoroProofs.v
theories/CoroProofs2.v
theories/CoroKeep.v
theories/CoroProps.v
theories/CoroProps2.v
