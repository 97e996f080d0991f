-Q theories Verif
theories/Bytes.v
theories/ThinTable.v
theories/ByteHelpers.v
theories/Thin.v
theories/Helpers.v
theories/Params.v
theories/ReqGrammar.v
theories/TextSpec.v
theories/ThinClasses.v
theories/ThinProofs.v
theories/ThinFields.v
theories/ThinTop.v
theories/CIProofs.v
theories/HelpersProofs.v
theories/ParamsProofs.v
theories/PropsText.v
theories/PropsParser.v
theories/Conn.v
theories/ConnSpec.v
theories/ConnView.v
theories/ConnText.v
theories/ConnHead.v
theories/ConnInv.v
theories/ConnStep.v
theories/ConnEnd.v
theories/ConnLog.v
theories/PropsConn.v
theories/ConnSend.v
theories/ConnFree.v
theories/ConnLive.v
theories/PropsConn2.v
theories/PropsConn3.v
theories/PropsConn4.v
theories/ConnDrain.v
theories/PropsConn5.v
theories/ConnReinit.v
theories/PropsConn6.v
theories/Router.v
theories/RouterSpec.v
theories/RouterProofs.v
theories/PropsRouter.v
theories/RouterRx.v
theories/Handlers.v
theories/PropsHandlers.v
theories/PropsTransfer.v
theories/Script.v
theories/PropsScript.v
theories/Joyent.v
theories/RespParser.v
theories/RespInv.v
theories/RespSplit.v
theories/RespSpec.v
theories/RespFeed.v
theories/PropsResp.v
theories/RespName.v
theories/RespDecode.v
theories/RespBody.v
theories/RespChunk.v
theories/RespOver.v
theories/RespWhole.v
theories/PropsResp2.v
theories/PropsResp3.v
theories/PropsWire.v
theories/PropsWire2.v
theories/ConnIn.v
theories/Server.v
theories/PropsServer.v
theories/Client.v
theories/ClientSpec.v
theories/ClientInv.v
theories/ClientSim.v
theories/PropsClient.v
theories/ClientRecv.v
theories/PropsClient2.v
theories/PropsClient3.v
theories/ClientBad.v
theories/PropsClient4.v
theories/HeadWalk.v
theories/ClientHead.v
theories/PropsClient5.v
theories/ConnAcct.v
theories/PropsConn7.v
theories/Proxy.v
theories/ProxyInv.v
theories/PropsProxy.v
theories/PropsProxy2.v
theories/Nam.v
theories/NamExt.v
theories/NamSpec.v
theories/NamInv.v
theories/NamServe.v
theories/PropsNam.v
theories/PropsNam2.v
theories/NamJar.v
theories/PropsJar.v
theories/PropsRouter2.v
theories/RespSize.v
theories/PropsRedirect.v
theories/PropsBuffer.v
theories/Gunzip.v
theories/PropsGunzip.v
theories/RespBound.v
theories/PropsBound.v
theories/ScriptHeaders.v
theories/PropsScript2.v
theories/Https.v
theories/PropsHttps.v
theories/PropsResp4.v
theories/LogText.v
theories/PropsLog.v
theories/PropsConn8.v
theories/ConnPhase.v
theories/Getters.v
theories/PropsGetters.v
theories/PropsConn9.v
theories/HeadBuf.v
theories/PropsHeadBuf.v
theories/FieldCopies.v
theories/PropsCopies.v
theories/Upload.v
theories/PropsUpload.v
theories/Writer.v
theories/PropsWriter.v
theories/Serve.v
theories/PropsServe.v
theories/PropsServe2.v
theories/Session.v
theories/SessionServer.v
theories/PropsSession.v
theories/PropsSettle.v
theories/PropsEnds.v
theories/ClientDry.v
theories/PropsSession2.v
theories/Life.v
theories/PropsLife.v
theories/Site.v
theories/PropsSite.v
theories/PropsServe3.v
theories/PropsSite2.v
theories/Files.v
theories/PropsFiles.v
theories/PropsReuse.v
theories/PropsWire3.v
