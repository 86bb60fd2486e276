-Q theories Verif
theories/GoStr.v
theories/GoPath.v
theories/GoTy.v
theories/RouterModel.v
theories/RouterSpec.v
theories/RouterTree.v
theories/RouterRefine.v
theories/RouterMatch.v
theories/RouterTable.v
theories/RouterExact.v
theories/RouterFacts.v
theories/RouterConflict.v
theories/RouterDispatch.v
theories/Props_Router.v
theories/Props_RouterExact.v
theories/Props_RouterCost.v
theories/SliceModel.v
theories/SliceFacts.v
theories/BuilderFacts.v
theories/GoNum.v
theories/ConvModel.v
theories/ConvFacts.v
theories/Props_Action.v
theories/Props_BuilderExact.v
theories/Props_Conv.v
theories/RespModel.v
theories/RespSpec.v
theories/RespFacts.v
theories/Props_Resp.v
theories/Props_RespExact.v
theories/Props_RespBody.v
theories/Props_ConvExact.v
theories/ValueModel.v
theories/Props_Value.v
theories/ChainModel.v
theories/ChainFacts.v
theories/Props_Chain.v
theories/Props_ChainExact.v
theories/AppModel.v
theories/AppsModel.v
theories/Props_App.v
theories/Props_Apps.v
theories/InjectModel.v
theories/InjectFacts.v
theories/InjectWorld.v
theories/InjectSpec.v
theories/InjectHist.v
theories/InjectNear.v
theories/InjectMain.v
theories/Props_Inject.v
theories/Props_InjectExact.v
theories/InjectWalk.v
theories/InjectDone.v
theories/Props_InjectWalk.v
theories/GoEnc.v
theories/SecureModel.v
theories/SecureFacts.v
theories/Props_Secure.v
theories/RandModel.v
theories/Props_Rand.v
theories/Props_SecureExact.v
theories/CacheModel.v
theories/CacheSpec.v
theories/Props_Cache.v
theories/Props_CacheExact.v
theories/Props_CacheVal.v
theories/SessModel.v
theories/Props_Sess.v
theories/Props_SessExact.v
theories/SessConc.v
theories/Props_SessConc.v
theories/RegenConc.v
theories/Props_RegenConc.v
theories/ConfigModel.v
theories/Props_Config.v
theories/Props_ConfigFind.v
theories/Props_ConfigExact.v
theories/ParamsModel.v
theories/ParamsFacts.v
theories/Props_Params.v
theories/Props_ParamsBind.v
theories/Props_ParamsPanic.v
theories/Props_ParamsOrder.v
theories/Props_ParamsExact.v
theories/WorkerModel.v
theories/WorkerFacts.v
theories/WorkerLife.v
theories/WorkerErr.v
theories/WorkerLive.v
theories/Props_Worker.v
theories/Props_WorkerLive.v
theories/Props_WorkerErr.v
theories/Props_WorkerExact.v
theories/LogModel.v
theories/Props_Log.v
theories/Props_LogExact.v
theories/HeadModel.v
theories/ReqLogModel.v
theories/Props_ReqLog.v
theories/Props_ReqLogExact.v
theories/StaticModel.v
theories/Props_Static.v
theories/Props_StaticExact.v
theories/ResultModel.v
theories/Props_Result.v
theories/CtxValModel.v
theories/Props_CtxVal.v
theories/GzipModel.v
theories/Props_Gzip.v
theories/TimeModel.v
theories/Props_Time.v
theories/ParamsReqModel.v
theories/Props_ParamsReq.v
theories/DeclModel.v
theories/Props_Decl.v
theories/CtlModel.v
theories/Props_Ctl.v
theories/InjectConc.v
theories/InjectConcFacts.v
theories/Props_InjectConc.v
theories/ReentModel.v
theories/ReentFacts.v
theories/Props_Reent.v
theories/ReqCtxModel.v
theories/ReqCtxFacts.v
theories/Props_ReqCtx.v
theories/Props_ReqCtxLog.v
theories/StoreModel.v
theories/Props_Store.v
theories/AssertModel.v
theories/Props_Assert.v
theories/SetupModel.v
theories/Props_Setup.v
theories/StackModel.v
theories/Props_Stack.v
theories/CookieModel.v
theories/UserAgent.v
theories/CookieFacts.v
theories/AgentFacts.v
theories/Props_Cookie.v
theories/Props_CookieDomain.v
theories/UrlModel.v
theories/Props_RealURL.v
theories/ListenModel.v
theories/Props_Listen.v
theories/Props_InjectLoop.v
theories/StringsModel.v
theories/Props_Strings.v
theories/Props_Header.v
theories/BaseModel.v
theories/Props_Base.v
theories/EmbedModel.v
theories/Props_Embed.v
theories/Props_Assign.v
theories/Props_Texts.v
