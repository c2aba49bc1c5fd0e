-Q theories Verif
theories/Prelude.v
theories/Prelude_Proofs.v
theories/Logger_Model.v
theories/Logger_Spec.v
theories/Logger_Proofs.v
theories/Logger_Props.v
theories/FileLogger_Model.v
theories/FileLogger_Spec.v
theories/FileLogger_Proofs.v
theories/FileLogger_Props.v
theories/Core_Model.v
theories/Core_Spec.v
theories/Core_Proofs.v
theories/Core_Props.v
theories/Checkers_Model.v
theories/Checkers_Spec.v
theories/Checkers_Proofs.v
theories/Checkers_Props.v
theories/Hunters_Model.v
theories/HuntersR_Model.v
theories/Hunters_Spec.v
theories/Hunters_Proofs.v
theories/Hunters_Props.v
theories/Selectors_Model.v
theories/Selectors_Spec.v
theories/Selectors_Proofs.v
theories/Selectors_Props.v
theories/Queue_Model.v
theories/Queue_Spec.v
theories/Queue_Proofs.v
theories/Queue_Props.v
theories/Manager_Model.v
theories/Manager_Spec.v
theories/Manager_Proofs.v
theories/Manager_Trace.v
theories/Manager_Safe.v
theories/Manager_Methods.v
theories/Manager_Props.v
theories/Manager_Props2.v
theories/ChkNames_Model.v
theories/ChkNames_Spec.v
theories/ChkNames_Proofs.v
theories/ChkNames_Props.v
theories/ChkFiles_Model.v
theories/ChkFiles_Props.v
theories/Restart_Model.v
theories/Restart_Spec.v
theories/Restart_Proofs.v
theories/Restart_Props.v
theories/Optimizer_Model.v
theories/Optimizer_Spec.v
theories/Optimizer_Proofs.v
theories/Optimizer_Props.v
theories/Helpers_Model.v
theories/Helpers_Spec.v
theories/Helpers_Proofs.v
theories/Helpers_Props.v
theories/Generators_Model.v
theories/Generators_Spec.v
theories/Generators_Proofs.v
theories/Generators_Props.v
theories/Scope_Model.v
theories/Scope_Spec.v
theories/Scope_Proofs.v
theories/Scope_Props.v
theories/Params_Model.v
theories/Params_Spec.v
theories/Params_Proofs.v
theories/Params_Props.v
theories/Bench_Model.v
theories/Bench_Spec.v
theories/Bench_Proofs.v
theories/BenchNum_Proofs.v
theories/Lennard_Proofs.v
theories/Bench_Props.v
theories/Sync_Model.v
theories/Sync_Spec.v
theories/Sync_Proofs.v
theories/SyncData_Proofs.v
theories/SyncLive_Proofs.v
theories/Sync_Props.v
theories/Ending_Model.v
theories/Ending_Spec.v
theories/Ending_Proofs.v
theories/Ending_Props.v
theories/Setup_Model.v
theories/Setup_Spec.v
theories/Setup_Proofs.v
theories/Setup_Props.v
theories/Session_Model.v
theories/Session_Spec.v
theories/Session_Proofs.v
theories/Session_Props.v
theories/Reload_Model.v
theories/Reload_Spec.v
theories/Reload_Props.v
theories/Wrappers_Model.v
theories/Wrappers_Spec.v
theories/Wrappers_Proofs.v
theories/Wrappers_Props.v
theories/Streams_Model.v
theories/Streams_Spec.v
theories/Streams_Proofs.v
theories/Streams_Props.v
theories/Guard_Model.v
theories/Guard_Spec.v
theories/Guard_Proofs.v
theories/GuardRun_Proofs.v
theories/Guard_Props.v
theories/Finish_Model.v
theories/Finish_Spec.v
theories/Finish_Proofs.v
theories/Finish_Props.v
theories/Extras_Model.v
theories/Extras_Spec.v
theories/Extras_Proofs.v
theories/Extras_Props.v
theories/Hang_Model.v
theories/Hang_Spec.v
theories/Hang_Proofs.v
theories/Hang_Props.v
theories/Plot_Model.v
theories/Plot_Spec.v
theories/Plot_Proofs.v
theories/Plot_Props.v
theories/Kwargs_Model.v
theories/Kwargs_Spec.v
theories/Kwargs_Proofs.v
theories/Kwargs_Props.v
theories/Usage_Model.v
theories/Usage_Spec.v
theories/Usage_Proofs.v
theories/Usage_Props.v
theories/Summary_Model.v
theories/Summary_Spec.v
theories/Summary_Proofs.v
theories/Summary_Props.v
theories/Options_Model.v
theories/Options_Spec.v
theories/Options_Proofs.v
theories/Options_Props.v
theories/Ends_Spec.v
theories/Ends_Intr.v
theories/Ends_Proofs.v
theories/Ends_Props.v
theories/Due_Spec.v
theories/Due_Proofs.v
theories/Due_Props.v
theories/Resumed_Model.v
theories/Resumed_Spec.v
theories/Resumed_Proofs.v
theories/Logged_Proofs.v
theories/Always_Proofs.v
theories/Resumed_Props.v
theories/Crash_Spec.v
theories/Crash_Props.v
theories/Wired_Spec.v
theories/Wired_Proofs.v
theories/Wired_Props.v
theories/Wired_Props2.v
theories/NoCrash_Spec.v
theories/Filled_Proofs.v
theories/Wired_Props3.v
theories/NoCrash_Props.v
theories/Over_Proofs.v
theories/Over_Props.v
theories/Budget_Proofs.v
theories/Budget_Props.v
