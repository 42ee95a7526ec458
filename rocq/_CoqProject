-Q theories Verif
theories/Prelude.v
theories/Map_Spec.v
theories/Map_Model.v
theories/Map_Proofs.v
theories/Map_Props.v
theories/Dependency_Spec.v
theories/Dependency_Model.v
theories/Dependency_Proofs.v
theories/Dependency_Props.v
theories/Sched_Trace.v
theories/Sched_Spec.v
theories/Sched_Model.v
theories/Sched_Env.v
theories/Sched_Base.v
theories/Sched_Traverse.v
theories/Sched_Safety.v
theories/Sched_Load.v
theories/Sched_Retry.v
theories/Sched_Frame.v
theories/Sched_Once.v
theories/Sched_Life.v
theories/Sched_Strand.v
theories/Sched_Fifo.v
theories/Sched_Blame.v
theories/Sched_Witness.v
theories/Sched_Props.v
theories/Sched_Term.v
theories/Sched_Term_Props.v
theories/Chooser_Spec.v
theories/Chooser_Model.v
theories/Chooser_Proofs.v
theories/Chooser_Props.v
theories/PyValue.v
theories/DictDB_Spec.v
theories/DictDB_Model.v
theories/DictDB_Proofs.v
theories/DictDB_Store.v
theories/DictDB_History.v
theories/DictDB_Props.v
theories/Serialize_Spec.v
theories/Serialize_Model.v
theories/Serialize_Proofs.v
theories/Serialize_Props.v
theories/Heart_Spec.v
theories/Heart_Model.v
theories/Heart_Proofs.v
theories/Heart_Props.v
theories/Broadcast_Spec.v
theories/Broadcast_Model.v
theories/Broadcast_Proofs.v
theories/Broadcast_Coalesce.v
theories/Broadcast_Props.v
theories/Hub_Spec.v
theories/Hub_Model.v
theories/Hub_Reg.v
theories/Hub_Tasks.v
theories/Hub_Steps.v
theories/Hub_Life.v
theories/Hub_Answers.v
theories/Hub_Props.v
theories/Async_Spec.v
theories/Async_Model.v
theories/Async_Proofs.v
theories/Async_Props.v
theories/Imap_Spec.v
theories/Imap_Model.v
theories/Imap_Proofs.v
theories/Imap_Props.v
theories/View_Model.v
theories/View_Spec.v
theories/View_Proofs.v
theories/View_Hist.v
theories/View_Props.v
theories/Engine_Model.v
theories/Engine_Spec.v
theories/Engine_Proofs.v
theories/Engine_Props.v
theories/RDict_Model.v
theories/RDict_Spec.v
theories/RDict_Props.v
theories/Client_Model.v
theories/Client_Spec.v
theories/Client_Proofs.v
theories/Client_Steps.v
theories/Client_Props.v
theories/Result_Model.v
theories/Result_Spec.v
theories/Result_Proofs.v
theories/Result_Props.v
theories/GetRes_Spec.v
theories/GetRes_Model.v
theories/GetRes_Proofs.v
theories/GetRes_Props.v
theories/Resub_Spec.v
theories/Resub_Model.v
theories/Resub_Props.v
theories/DbQuery_Spec.v
theories/DbQuery_Model.v
theories/DbQuery_Props.v
theories/Sqlite_Spec.v
theories/Sqlite_Model.v
theories/Sqlite_Proofs.v
theories/Sqlite_Props.v
theories/SqlStore_Spec.v
theories/SqlStore_Model.v
theories/SqlStore_Proofs.v
theories/SqlStore_Props.v
theories/Purge_Spec.v
theories/Purge_Model.v
theories/Purge_Proofs.v
theories/Purge_Props.v
theories/Rec_Spec.v
theories/Rec_Model.v
theories/Rec_Proofs.v
theories/Rec_Props.v
theories/Out_Spec.v
theories/Out_Model.v
theories/Out_Proofs.v
theories/Out_Props.v
theories/Str_Spec.v
theories/Str_Model.v
theories/Str_Proofs.v
theories/Str_Proofs2.v
theories/Str_Proofs3.v
theories/Str_Props.v
theories/Ctl_Spec.v
theories/Ctl_Model.v
theories/Ctl_Proofs.v
theories/Ctl_Props.v
theories/Clu_Spec.v
theories/Clu_Model.v
theories/Clu_Proofs.v
theories/Clu_Proofs2.v
theories/Clu_Props.v
theories/Targets_Spec.v
theories/Targets_Model.v
theories/Targets_Proofs.v
theories/Targets_Props.v
theories/Sched_Idle_Spec.v
theories/Sched_Idle_Inv.v
theories/Sched_Idle.v
theories/Sched_Idle_Steps.v
theories/Sched_Idle_Top.v
theories/Sched_Idle_Props.v
theories/Sys_Model.v
theories/Sys_Spec.v
theories/Sys_Log.v
theories/Sys_Trace.v
theories/Sys_Core.v
theories/Sys_Hist.v
theories/Sys_Client.v
theories/Sys_Result.v
theories/Sys_Facts.v
theories/Sys_Exec.v
theories/Sys_Measure.v
theories/Sys_Live.v
theories/Sys_Quiet.v
theories/Sys_Rest.v
theories/Sys_Witness.v
theories/Sys_Props.v
theories/Beat_Spec.v
theories/Beat_Model.v
theories/Beat_Proofs.v
theories/Beat_Props.v
theories/Ns_Spec.v
theories/Ns_Model.v
theories/Ns_Proofs.v
theories/Ns_Proofs2.v
theories/Ns_Proofs3.v
theories/Ns_Proofs4.v
theories/Ns_Proofs5.v
theories/Ns_Props.v
theories/Wire_Spec.v
theories/Wire_Model.v
theories/Wire_Proofs.v
theories/Wire_Tree.v
theories/Wire_Ports.v
theories/Wire_Props.v
theories/Await_Spec.v
theories/Await_Model.v
theories/Await_Proofs.v
theories/Await_Proofs2.v
theories/Await_Props.v
theories/Imports_Spec.v
theories/Imports_Model.v
theories/Imports_Proofs.v
theories/Imports_Props.v
theories/Magic_Model.v
theories/Magic_Spec.v
theories/Magic_Proofs.v
theories/Magic_Auto.v
theories/Magic_Props.v
theories/Conn_Spec.v
theories/Conn_Model.v
theories/Conn_Proofs.v
theories/Conn_Props.v
theories/Wait_Spec.v
theories/Wait_Model.v
theories/Wait_Proofs.v
theories/Wait_Props.v
theories/Exec_Model.v
theories/Exec_Proofs.v
theories/Exec_Props.v
theories/Enrol_Spec.v
theories/Enrol_Model.v
theories/Enrol_Proofs.v
theories/Enrol_Props.v
theories/Batch_Spec.v
theories/Batch_Model.v
theories/Batch_Proofs.v
theories/Batch_Props.v
theories/Remote_Spec.v
theories/Remote_Model.v
theories/Remote_Proofs.v
theories/Remote_Props.v
theories/Hosts_Spec.v
theories/Hosts_Model.v
theories/Hosts_Proofs.v
theories/Hosts_Props.v
theories/Manager_Spec.v
theories/Manager_Model.v
theories/Manager_Notions.v
theories/Manager_Proofs.v
theories/Manager_Proofs2.v
theories/Manager_Proofs3.v
theories/Manager_Props.v
theories/Watch_Model.v
theories/Watch_Proofs.v
theories/Watch_Props.v
theories/Addr_Spec.v
theories/Addr_Model.v
theories/Addr_Proofs.v
theories/Addr_Props.v
theories/Web_Spec.v
theories/Web_Model.v
theories/Web_Proofs.v
theories/Web_Props.v
theories/Reuse_Spec.v
theories/Reuse_Model.v
theories/Reuse_Props.v
theories/Sync_Spec.v
theories/Sync_Model.v
theories/Sync_Proofs.v
theories/Sync_Props.v
theories/Find_Spec.v
theories/Find_Model.v
theories/Find_Props.v
theories/Joblib_Spec.v
theories/Joblib_Model.v
theories/Joblib_Props.v
theories/CanClass_Spec.v
theories/CanClass_Model.v
theories/CanClass_Props.v
theories/CanClass_Linear.v
