-Q theories Verif
theories/Base.v
theories/Sorting.v
theories/F32.v
theories/M_Utils.v
theories/M_Types.v
theories/M_Engine.v
theories/S_Base.v
theories/S_Engine.v
theories/P_Base.v
theories/P_F32.v
theories/P_Engine.v
theories/Demo.v
theories/Properties_Engine.v
theories/M_Det.v
theories/Demo_Utils.v
theories/M_Lookup.v
theories/S_Utils.v
theories/S_Det.v
theories/P_Utils.v
theories/P_Det.v
theories/P_Demo.v
theories/Properties_Utils.v
theories/S_Rank.v
theories/S_Rules.v
theories/P_Rank.v
theories/P_Rules.v
theories/Demo_Rules.v
theories/Properties_Rules.v
theories/M_Feat.v
theories/M_Prob.v
theories/S_Prob.v
theories/S_Feat.v
theories/P_Logit.v
theories/P_Prob.v
theories/P_Count.v
theories/P_Feat.v
theories/Demo_Prob.v
theories/Demo_Feat.v
theories/Properties_Prob.v
theories/Properties_Feat.v
theories/M_Crf.v
theories/S_Crf.v
theories/P_Crf.v
theories/M_Features.v
theories/M_Filler.v
theories/S_Filler.v
theories/P_Encode.v
theories/P_Features.v
theories/P_Filler.v
theories/Demo_Crf.v
theories/Properties_Crf.v
theories/Properties_Filler.v
theories/M_Cache.v
theories/S_Cache.v
theories/P_Cache.v
theories/P_Threads.v
theories/P_Custom.v
theories/Demo_Cache.v
theories/Properties_Cache.v
theories/M_Res.v
theories/S_Res.v
theories/P_Res.v
theories/P_Clusters.v
theories/Demo_Res.v
theories/Properties_Res.v
theories/M_Fs.v
theories/M_Json.v
theories/M_Load.v
theories/S_Load.v
theories/P_Load.v
theories/P_Names.v
theories/Demo_Load.v
theories/Properties_Load.v
theories/M_Inject.v
theories/S_Inject.v
theories/P_Inject.v
theories/P_Effects.v
theories/P_Injection.v
theories/Demo_Inject.v
theories/Properties_Inject.v
theories/P_Move.v
theories/M_Zip.v
theories/S_Zip.v
theories/P_Zip.v
theories/P_Pack.v
theories/Demo_Zip.v
theories/Properties_Zip.v
theories/M_Ffi.v
theories/S_Ffi.v
theories/P_Ffi.v
theories/Demo_Ffi.v
theories/Properties_Ffi.v
theories/S_Match.v
theories/P_Weight.v
theories/P_Match.v
theories/P_MatchDet.v
theories/Demo_Match.v
theories/Properties_Match.v
theories/S_Answer.v
theories/P_Answer.v
theories/Demo_Home.v
theories/Properties_Answer.v
theories/S_Safe.v
theories/P_Norm.v
theories/P_Safe.v
theories/P_SafeLoad.v
theories/Demo_Safe.v
theories/Demo_SafeLoad.v
theories/S_Host.v
theories/P_Host.v
theories/Demo_Host.v
theories/Properties_Safe.v
theories/M_Memory.v
theories/S_Memory.v
theories/P_Memory.v
theories/M_Wrap.v
theories/M_Python.v
theories/M_Kotlin.v
theories/M_Swift.v
theories/S_Wrap.v
theories/P_Wrap.v
theories/P_Python.v
theories/P_Kotlin.v
theories/P_Swift.v
theories/Demo_Wrap.v
theories/Properties_Memory.v
theories/Properties_Wrap.v
theories/S_Meaning.v
theories/P_Meaning.v
theories/Properties_Meaning.v
theories/S_Format.v
theories/P_Format.v
theories/Demo_Format.v
theories/Properties_Format.v
theories/S_Made.v
theories/P_Made.v
theories/Demo_Made.v
theories/Properties_Made.v
theories/M_Structs.v
theories/S_Structs.v
theories/P_Structs.v
theories/Demo_Structs.v
theories/Properties_Structs.v
theories/M_Share.v
theories/S_Share.v
theories/P_Share.v
theories/Demo_Share.v
theories/Properties_Share.v
theories/M_Threads.v
theories/S_Threads.v
theories/P_Arc.v
theories/Demo_Threads.v
theories/P_Asks.v
theories/Properties_Threads.v
theories/Tests_Base.v
theories/Tests_Crf.v
theories/Tests_Slots.v
theories/Tests_Lookup.v
theories/Tests_Det.v
theories/Tests_Res.v
theories/Tests_Features.v
theories/Tests_Classifier.v
theories/Tests_Engine.v
theories/Tests_Files.v
theories/Tests_Beverage.v
theories/Demo_Shipped.v
theories/Properties_Shipped.v
theories/S_Reload.v
theories/P_Reload.v
theories/Demo_Reload.v
theories/Properties_Reload.v
theories/S_Seeds.v
theories/P_Seeds.v
theories/P_SeedsRules.v
theories/P_SeedsEngine.v
theories/P_SeedsIntents.v
theories/P_SeedsAll.v
theories/Demo_Seeds.v
theories/Properties_Seeds.v
theories/S_Case.v
theories/P_Case.v
theories/P_CaseFeat.v
theories/P_CaseEngine.v
theories/Demo_Case.v
theories/Properties_Case.v
theories/S_Narrow.v
theories/P_Narrow.v
theories/Demo_Narrow.v
theories/Properties_Narrow.v
theories/S_Linear.v
theories/P_Linear.v
theories/Demo_Linear.v
theories/Properties_Linear.v
theories/S_Intents.v
theories/P_Intents.v
theories/Demo_Intents.v
theories/Properties_Intents.v
theories/S_History.v
theories/P_History.v
theories/Demo_History.v
theories/Properties_History.v
theories/S_Best.v
theories/P_Best.v
theories/Demo_Best.v
theories/Properties_Best.v
theories/S_Pad.v
theories/P_Pad.v
theories/P_PadDet.v
theories/P_PadFeat.v
theories/P_PadEngine.v
theories/Demo_Pad.v
theories/Properties_Pad.v
theories/P_Filters.v
theories/Demo_Filters.v
theories/Properties_Filters.v
theories/S_Injections.v
theories/P_Injections.v
theories/Demo_Injections.v
theories/Properties_Injections.v
theories/P_NarrowAlts.v
theories/Demo_NarrowAlts.v
theories/Properties_NarrowAlts.v
theories/M_Overlap.v
theories/S_Overlap.v
theories/P_Overlap.v
theories/Demo_Overlap.v
theories/Properties_Overlap.v
theories/S_Declared.v
theories/P_Declared.v
theories/Demo_Declared.v
theories/Properties_Declared.v
theories/S_Alternatives.v
theories/P_Alternatives.v
theories/Demo_Alternatives.v
theories/Properties_Alternatives.v
theories/S_Complete.v
theories/P_Complete.v
theories/Demo_Complete.v
theories/Properties_Complete.v
theories/S_Permits.v
theories/P_Permits.v
theories/Demo_Permits.v
theories/Properties_Permits.v
theories/S_Append.v
theories/P_Append.v
theories/P_AppendLoad.v
theories/Demo_Append.v
theories/Properties_Append.v
