-Q theories Verif
theories/Base.v
theories/M_Util.v
theories/M_Effector.v
theories/M_RoleManager.v
theories/M_Model.v
theories/M_Persist.v
theories/M_Eval.v
theories/M_Evaluator.v
theories/M_Enforcer.v
theories/M_Matcher.v
theories/P_Base.v
theories/S_Effect.v
theories/P_Effect.v
theories/S_Enforce.v
theories/P_Enforce.v
theories/P_Decide.v
theories/E_Examples.v
theories/P_Index.v
theories/T_Enforce.v
theories/T_Index.v
theories/S_Policy.v
theories/P_Store.v
theories/P_Api.v
theories/S_History.v
theories/P_History.v
theories/P_Nodup.v
theories/P_Group.v
theories/T_Policy.v
theories/S_Roles.v
theories/P_Roles.v
theories/T_Roles.v
theories/S_Sync.v
theories/P_Sync.v
theories/P_Implicit.v
theories/T_Rbac.v
theories/S_Rbac.v
theories/P_Ready.v
theories/T_Users.v
theories/S_Text.v
theories/P_Text.v
theories/S_Eval.v
theories/P_Eval.v
theories/T_Text.v
theories/S_Persist.v
theories/P_Persist.v
theories/P_Save.v
theories/P_Crash.v
theories/T_Persist.v
theories/S_Notify.v
theories/P_Notify.v
theories/T_Notify.v
theories/M_Config.v
theories/M_Load.v
theories/S_Config.v
theories/S_Load.v
theories/P_Config.v
theories/P_Load.v
theories/T_Config.v
theories/T_Load.v
theories/M_BuiltIn.v
theories/S_BuiltIn.v
theories/P_BuiltIn.v
theories/T_BuiltIn.v
theories/M_Ip.v
theories/S_Ip.v
theories/P_Ip.v
theories/T_Ip.v
theories/M_Cached.v
theories/S_Cached.v
theories/P_Cached.v
theories/T_Cached.v
theories/M_Synced.v
theories/S_Synced.v
theories/P_Synced.v
theories/P_SyncedState.v
theories/P_SyncedStuck.v
theories/T_Synced.v
theories/M_Ticker.v
theories/S_Ticker.v
theories/P_Ticker.v
theories/T_Ticker.v
theories/S_Safe.v
theories/P_Safe.v
theories/P_SafeMore.v
theories/T_Safe.v
theories/S_Standard.v
theories/P_Standard.v
theories/T_Standard.v
theories/S_RoleApi.v
theories/T_RoleApi.v
theories/S_Calls.v
theories/T_Calls.v
theories/M_Regex.v
theories/S_Regex.v
theories/P_Regex.v
theories/M_Functions.v
theories/S_Functions.v
theories/P_Functions.v
theories/T_Functions.v
theories/S_Models.v
theories/T_Models.v
theories/M_Init.v
theories/S_Files.v
theories/P_Files.v
theories/T_Files.v
theories/S_Options.v
theories/P_Options.v
theories/T_Options.v
theories/T_CachedMore.v
theories/S_Switch.v
theories/P_Switch.v
theories/T_Switch.v
theories/S_Pattern.v
theories/P_Pattern.v
theories/P_SyncPattern.v
theories/T_Pattern.v
theories/T_MatchRole.v
theories/M_OwnEffector.v
theories/S_OwnEffector.v
theories/P_OwnEffector.v
theories/T_OwnEffector.v
theories/T_Replace.v
theories/M_Log.v
theories/P_Log.v
theories/T_Log.v
theories/M_IpText.v
theories/T_IpText.v
theories/S_MapRequest.v
theories/P_MapRequest.v
theories/T_MapRequest.v
theories/M_Copies.v
theories/S_Copies.v
theories/P_Copies.v
theories/T_Copies.v
theories/S_Refuse.v
theories/T_Refuse.v
theories/S_Fleet.v
theories/T_Fleet.v
theories/M_CachedThreads.v
theories/S_CachedThreads.v
theories/P_CachedThreads.v
theories/T_CachedThreads.v
theories/T_IpEqual.v
theories/S_Cluster.v
theories/P_Cluster.v
theories/T_Cluster.v
theories/M_OwnRoles.v
theories/S_OwnRoles.v
theories/P_OwnRoles.v
theories/T_OwnRoles.v
theories/M_OwnWatcher.v
theories/S_OwnWatcher.v
theories/P_OwnWatcher.v
theories/T_OwnWatcher.v
theories/M_Wiring.v
theories/S_Wiring.v
theories/P_Wiring.v
theories/T_Wiring.v
theories/S_Agree.v
theories/P_Agree.v
theories/T_Agree.v
theories/M_Pool.v
theories/S_Pool.v
theories/P_Pool.v
theories/T_Pool.v
theories/M_Memory.v
theories/S_Memory.v
theories/P_Memory.v
theories/T_Memory.v
theories/T_Occurrences.v
theories/P_Presence.v
theories/T_Parts.v
theories/P_Change.v
theories/T_Change.v
theories/M_CachedCopies.v
theories/S_CachedCopies.v
theories/P_CachedCopies.v
theories/T_CachedCopies.v
theories/M_OwnEvaluator.v
theories/S_OwnEvaluator.v
theories/P_OwnEvaluator.v
theories/T_OwnEvaluator.v
theories/M_OwnQueries.v
theories/S_OwnQueries.v
theories/P_OwnQueries.v
theories/T_OwnQueries.v
theories/S_Select.v
theories/P_Select.v
theories/T_Select.v
theories/M_Direct.v
theories/S_Direct.v
theories/P_Direct.v
theories/T_Direct.v
theories/S_Json.v
theories/P_Json.v
theories/T_Json.v
theories/S_Reload.v
theories/P_Reload.v
theories/T_Reload.v
theories/S_Short.v
theories/P_Short.v
theories/T_Short.v
theories/M_Case.v
theories/S_Case.v
theories/P_Case.v
theories/T_Case.v
theories/S_Rename.v
theories/P_Rename.v
theories/T_Rename.v
theories/M_Rewrite.v
theories/S_Rewrite.v
theories/P_Rewrite.v
theories/T_Rewrite.v
theories/E_UnitTests.v
theories/S_Restart.v
theories/T_Restart.v
theories/S_Table.v
theories/P_Table.v
theories/T_Table.v
theories/S_Unlinked.v
theories/T_Unlinked.v
theories/T_Late.v
theories/Z_Assumptions.v
