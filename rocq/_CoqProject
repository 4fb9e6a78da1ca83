-Q theories Verif
theories/Access_model.v
theories/Access_proofs.v
theories/Access_props.v
theories/Access_spec.v
theories/Atomicable_model.v
theories/Atomicable_proofs.v
theories/Atomicable_props.v
theories/Atomicable_spec.v
theories/Base64_model.v
theories/Base64_proofs.v
theories/Base64_props.v
theories/Base64_spec.v
theories/Builder_model.v
theories/Builder_proofs.v
theories/Builder_props.v
theories/Builder_spec.v
theories/Bytes_model.v
theories/Bytes_proofs.v
theories/Bytes_props.v
theories/Bytes_spec.v
theories/Clock_model.v
theories/Clock_proofs.v
theories/Clock_props.v
theories/Clock_spec.v
theories/CmakeCpp_model.v
theories/CmakeCpp_proofs.v
theories/CmakeCpp_props.v
theories/CmakeCpp_spec.v
theories/CmakeInstall_model.v
theories/CmakeInstall_proofs.v
theories/CmakeInstall_props.v
theories/CmakeInstall_spec.v
theories/CmakeOpt_model.v
theories/CmakeOpt_proofs.v
theories/CmakeOpt_props.v
theories/CmakeOpt_spec.v
theories/CmakePack_model.v
theories/CmakePack_proofs.v
theories/CmakePack_props.v
theories/CmakePack_spec.v
theories/CmakeParts_model.v
theories/CmakeParts_proofs.v
theories/CmakeParts_props.v
theories/CmakeParts_spec.v
theories/CmakeProj_model.v
theories/CmakeProj_proofs.v
theories/CmakeProj_props.v
theories/CmakeProj_spec.v
theories/CmakeSetMore_proofs.v
theories/CmakeSetMore_props.v
theories/CmakeSetMore_spec.v
theories/CmakeSet_model.v
theories/CmakeSet_proofs.v
theories/CmakeSet_props.v
theories/CmakeSet_spec.v
theories/CmakeSrc_model.v
theories/CmakeSrc_proofs.v
theories/CmakeSrc_props.v
theories/CmakeSrc_spec.v
theories/CmakeTest_model.v
theories/CmakeTest_proofs.v
theories/CmakeTest_props.v
theories/CmakeTest_spec.v
theories/CmakeWin_model.v
theories/CmakeWin_proofs.v
theories/CmakeWin_props.v
theories/CmakeWin_spec.v
theories/CmakeXfail_model.v
theories/CmakeXfail_proofs.v
theories/CmakeXfail_props.v
theories/Cmake_model.v
theories/Cmake_proofs.v
theories/Cmake_props.v
theories/Cmake_spec.v
theories/Commands_model.v
theories/Commands_proofs.v
theories/Commands_props.v
theories/Commands_spec.v
theories/ConsumerRest_proofs.v
theories/ConsumerRest_props.v
theories/ConsumerRest_spec.v
theories/Consumer_model.v
theories/Consumer_proofs.v
theories/Consumer_props.v
theories/Consumer_spec.v
theories/Convert_model.v
theories/Convert_proofs.v
theories/Convert_props.v
theories/Convert_spec.v
theories/Copy_model.v
theories/Copy_proofs.v
theories/Copy_props.v
theories/Copy_spec.v
theories/DBQueue_model.v
theories/DBQueue_proofs.v
theories/DBQueue_props.v
theories/DBQueue_spec.v
theories/Database_model.v
theories/Database_proofs.v
theories/Database_props.v
theories/Database_spec.v
theories/Dll_model.v
theories/Dll_proofs.v
theories/Dll_props.v
theories/Dll_spec.v
theories/Editor_model.v
theories/Editor_proofs.v
theories/Editor_props.v
theories/Editor_spec.v
theories/EnumGen_model.v
theories/EnumGen_proofs.v
theories/EnumGen_props.v
theories/EnumGen_spec.v
theories/EnumText_proofs.v
theories/EnumValues_model.v
theories/EnumValues_proofs.v
theories/EnumValues_props.v
theories/EnumValues_spec.v
theories/Event_model.v
theories/Event_proofs.v
theories/Event_props.v
theories/Event_spec.v
theories/Exception_model.v
theories/Exception_proofs.v
theories/Exception_props.v
theories/Float_model.v
theories/Float_proofs.v
theories/Fuzzy_model.v
theories/Fuzzy_proofs.v
theories/Fuzzy_props.v
theories/Fuzzy_spec.v
theories/Glob_model.v
theories/Glob_proofs.v
theories/Glob_props.v
theories/Glob_spec.v
theories/Heritable_model.v
theories/Heritable_proofs.v
theories/Heritable_props.v
theories/Heritable_spec.v
theories/History_model.v
theories/History_proofs.v
theories/History_props.v
theories/History_spec.v
theories/Lin_spec.v
theories/LocalTime_model.v
theories/LocalTime_proofs.v
theories/LocalTime_props.v
theories/LocalTime_spec.v
theories/LogEvent_model.v
theories/LogEvent_proofs.v
theories/LogEvent_props.v
theories/LogEvent_spec.v
theories/LogMacro_model.v
theories/LogMacro_proofs.v
theories/LogMacro_props.v
theories/LogMacro_spec.v
theories/LogMessage_model.v
theories/LogMessage_proofs.v
theories/LogMessage_props.v
theories/LogMessage_spec.v
theories/Logging_model.v
theories/Logging_proofs.v
theories/Logging_props.v
theories/Logging_spec.v
theories/Macro_model.v
theories/Macro_proofs.v
theories/Macro_props.v
theories/Macro_spec.v
theories/Math_model.v
theories/Math_proofs.v
theories/Math_props.v
theories/Math_spec.v
theories/ObjPool_model.v
theories/ObjPool_proofs.v
theories/ObjPool_props.v
theories/ObjPool_spec.v
theories/OptParser_model.v
theories/OptParser_proofs.v
theories/OptParser_props.v
theories/OptParser_spec.v
theories/OptStats_proofs.v
theories/OptStore_proofs.v
theories/OptUse_proofs.v
theories/Outcome.v
theories/Owner_model.v
theories/Owner_proofs.v
theories/Owner_props.v
theories/Owner_spec.v
theories/PeriodicRest_proofs.v
theories/PeriodicRest_props.v
theories/PeriodicRest_spec.v
theories/Periodic_model.v
theories/Periodic_proofs.v
theories/Periodic_props.v
theories/Periodic_spec.v
theories/PoolDown_proofs.v
theories/PoolDown_props.v
theories/PoolDown_spec.v
theories/PoolRuns_proofs.v
theories/PoolRuns_props.v
theories/PoolStop_proofs.v
theories/PoolStop_props.v
theories/PoolStop_spec.v
theories/PoolTask_proofs.v
theories/PoolTask_props.v
theories/PoolTask_spec.v
theories/Pool_model.v
theories/Pool_proofs.v
theories/Pool_props.v
theories/Pool_spec.v
theories/Printing_model.v
theories/Printing_proofs.v
theories/Printing_props.v
theories/Printing_spec.v
theories/PyLog_model.v
theories/PyLog_proofs.v
theories/PyLog_props.v
theories/PyLog_spec.v
theories/PyTools_model.v
theories/PyTools_proofs.v
theories/PyTools_props.v
theories/PyTools_spec.v
theories/PyWait_model.v
theories/PyWait_proofs.v
theories/PyWait_props.v
theories/PyWait_spec.v
theories/Random_model.v
theories/Random_proofs.v
theories/Random_props.v
theories/Random_spec.v
theories/Reader_model.v
theories/Reader_proofs.v
theories/Reader_props.v
theories/Reader_spec.v
theories/ReturnCode_model.v
theories/ReturnCode_proofs.v
theories/ReturnCode_props.v
theories/ReturnCode_spec.v
theories/Ros2_model.v
theories/Ros2_proofs.v
theories/Ros2_props.v
theories/Ros2_spec.v
theories/Screen_model.v
theories/Screen_proofs.v
theories/Screen_props.v
theories/Screen_spec.v
theories/SignalHandler_proofs.v
theories/SignalRest_proofs.v
theories/SignalRest_props.v
theories/SignalRest_spec.v
theories/Signal_model.v
theories/Signal_proofs.v
theories/Signal_props.v
theories/Signal_spec.v
theories/Singleton_model.v
theories/Singleton_proofs.v
theories/Singleton_props.v
theories/Singleton_spec.v
theories/Stdin_model.v
theories/Stdin_proofs.v
theories/Stdin_props.v
theories/Stdin_spec.v
theories/Str.v
theories/StrUtils_model.v
theories/StrUtils_proofs.v
theories/StrUtils_props.v
theories/StrUtils_spec.v
theories/Str_proofs.v
theories/Str_spec.v
theories/TaskId_model.v
theories/TaskId_proofs.v
theories/TaskId_props.v
theories/TaskId_spec.v
theories/Threads.v
theories/Time_model.v
theories/Time_proofs.v
theories/Time_props.v
theories/Time_read_proofs.v
theories/Time_spec.v
theories/Timer_model.v
theories/Timer_proofs.v
theories/Timer_props.v
theories/Timer_spec.v
theories/Tree_model.v
theories/Tree_proofs.v
theories/Tree_props.v
theories/Tree_spec.v
theories/UsageFit_proofs.v
theories/UsageIter_proofs.v
theories/UsageLines_proofs.v
theories/UsagePrint_proofs.v
theories/UsageUtf_proofs.v
theories/UsageWidth_proofs.v
theories/UsageWrap_proofs.v
theories/Usage_model.v
theories/Usage_props.v
theories/Usage_spec.v
theories/Wait_model.v
theories/Wait_proofs.v
theories/Wait_props.v
theories/Wait_return_proofs.v
theories/Wait_spec.v
theories/WatcherRest_proofs.v
theories/WatcherRest_props.v
theories/WatcherRest_spec.v
theories/Watcher_model.v
theories/Watcher_proofs.v
theories/Watcher_props.v
theories/Watcher_spec.v
