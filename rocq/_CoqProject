-Q theories Verif
theories/AccMon_Model.v
theories/AccMon_Proofs.v
theories/AccMon_Props.v
theories/AccMon_Spec.v
theories/Aq_Model.v
theories/Aq_Proofs.v
theories/Aq_Props.v
theories/Aq_Spec.v
theories/Audit_Model.v
theories/Audit_Proofs.v
theories/Audit_Props.v
theories/Audit_Spec.v
theories/Backup_Model.v
theories/Backup_Proofs.v
theories/Backup_Props.v
theories/Backup_Spec.v
theories/Base.v
theories/Batch_Model.v
theories/Batch_Props.v
theories/Bits_Model.v
theories/Bits_Proofs.v
theories/Bls_Model.v
theories/Bls_Proofs.v
theories/Bls_Props.v
theories/Bls_Spec.v
theories/Bus_Model.v
theories/Bus_Props.v
theories/Bus_Spec.v
theories/CatchupReq_Model.v
theories/CatchupReq_Props.v
theories/Catchup_Model.v
theories/Catchup_Proofs.v
theories/Catchup_Props.v
theories/Catchup_Spec.v
theories/Checkpoint_Model.v
theories/Checkpoint_Proofs.v
theories/Checkpoint_Props.v
theories/ClientLimit_Model.v
theories/ClientLimit_Props.v
theories/ClientLimit_Spec.v
theories/ClientMsg_Model.v
theories/ClientMsg_Proofs.v
theories/ClientMsg_Props.v
theories/ClientMsg_Spec.v
theories/ClientStore_Model.v
theories/ClientStore_Proofs.v
theories/ClientStore_Props.v
theories/ClientStore_Spec.v
theories/Codec.v
theories/Compact_Model.v
theories/Compact_Props.v
theories/Compact_Spec.v
theories/ConnMon_Model.v
theories/ConnMon_Proofs.v
theories/ConnMon_Props.v
theories/ConnMon_Spec.v
theories/Conn_Model.v
theories/Conn_Proofs.v
theories/Conn_Props.v
theories/Conn_Spec.v
theories/ConsProof_Model.v
theories/ConsProof_Proofs.v
theories/ConsProof_Props.v
theories/ConsProof_Spec.v
theories/Dict.v
theories/Did_Model.v
theories/Did_Proofs.v
theories/Did_Props.v
theories/Did_Spec.v
theories/Drain_Model.v
theories/Drain_Props.v
theories/Drain_Spec.v
theories/Early_Model.v
theories/Early_Proofs.v
theories/Early_Props.v
theories/Early_Spec.v
theories/Exec_Model.v
theories/Exec_Proofs.v
theories/Exec_Proofs2.v
theories/Exec_Props.v
theories/Exec_Spec.v
theories/FileDir_Proofs.v
theories/File_Model.v
theories/File_Proofs.v
theories/File_Props.v
theories/File_Spec.v
theories/Freeze_Model.v
theories/Freeze_Proofs.v
theories/Freeze_Props.v
theories/Freeze_Spec.v
theories/Genesis_Model.v
theories/Genesis_Proofs.v
theories/Genesis_Props.v
theories/Genesis_Spec.v
theories/Intake_Model.v
theories/Intake_Proofs.v
theories/Intake_Props.v
theories/Intake_Spec.v
theories/Interval_Model.v
theories/Interval_Props.v
theories/Keys_Model.v
theories/Keys_Props.v
theories/Keys_Spec.v
theories/Ledger_Model.v
theories/Ledger_Proofs.v
theories/Ledger_Proofs2.v
theories/Ledger_Props.v
theories/Ledger_Spec.v
theories/Links_Model.v
theories/Links_Proofs.v
theories/Links_Props.v
theories/Links_Spec.v
theories/Listing_Model.v
theories/Listing_Proofs.v
theories/Listing_Props.v
theories/Listing_Spec.v
theories/Looper_Model.v
theories/Looper_Props.v
theories/Looper_Spec.v
theories/Merkle_Ledger.v
theories/Merkle_Model.v
theories/Merkle_Proofs.v
theories/Merkle_Props.v
theories/Merkle_Spec.v
theories/Merkle_Store.v
theories/Merkle_Verify.v
theories/Metrics_Model.v
theories/Metrics_Proofs.v
theories/Metrics_Props.v
theories/Metrics_Spec.v
theories/Monitor_Model.v
theories/Monitor_Proofs.v
theories/Monitor_Props.v
theories/Monitor_Spec.v
theories/MsgReq_Model.v
theories/MsgReq_Props.v
theories/NewView_Model.v
theories/NewView_Props.v
theories/NodeLeecher_Model.v
theories/NodeLeecher_Proofs.v
theories/NodeLeecher_Props.v
theories/NodeLeecher_Spec.v
theories/NodeReg_Model.v
theories/NodeReg_Proofs.v
theories/NodeReg_Props.v
theories/NodeReg_Spec.v
theories/Number_Model.v
theories/Number_Proofs.v
theories/Number_Props.v
theories/Number_Spec.v
theories/Nym_Model.v
theories/Nym_Proofs.v
theories/Nym_Props.v
theories/Nym_Spec.v
theories/Observable_Model.v
theories/Observable_Proofs.v
theories/Observable_Props.v
theories/Observable_Spec.v
theories/Observer_Model.v
theories/Observer_Proofs.v
theories/Observer_Props.v
theories/Observer_Spec.v
theories/OptKV_Model.v
theories/OptKV_Props.v
theories/Outbox_Model.v
theories/Outbox_Proofs.v
theories/Outbox_Props.v
theories/Outbox_Spec.v
theories/Pool_Model.v
theories/Pool_Proofs.v
theories/Pool_Props.v
theories/Pool_Spec.v
theories/PpTime_Model.v
theories/PpTime_Props.v
theories/PpTime_Spec.v
theories/Primary_Model.v
theories/Primary_Props.v
theories/Propagate_Model.v
theories/Propagate_Props.v
theories/Quorum_Model.v
theories/Quorum_Props.v
theories/Read_Model.v
theories/Read_Proofs.v
theories/Read_Props.v
theories/Read_Spec.v
theories/Reapply_Model.v
theories/Reapply_Proofs.v
theories/Reapply_Props.v
theories/Reapply_Spec.v
theories/Record_Model.v
theories/Record_Proofs.v
theories/Record_Props.v
theories/Record_Spec.v
theories/Recorder_Model.v
theories/Recorder_Proofs.v
theories/Recorder_Props.v
theories/Recorder_Spec.v
theories/Recover_Model.v
theories/Recover_Proofs.v
theories/Recover_Props.v
theories/Recover_Spec.v
theories/Reply_Model.v
theories/Reply_Props.v
theories/Rlp_Model.v
theories/Rlp_Props.v
theories/Rotate_Model.v
theories/Rotate_Proofs.v
theories/Rotate_Props.v
theories/Rotate_Spec.v
theories/Route_Model.v
theories/Route_Proofs.v
theories/Route_Props.v
theories/Route_Spec.v
theories/Schema_Model.v
theories/Schema_Proofs.v
theories/Schema_Props.v
theories/Schema_Spec.v
theories/Seeder_Model.v
theories/Seeder_Props.v
theories/Send_Model.v
theories/Send_Proofs.v
theories/Send_Props.v
theories/Signer_Model.v
theories/Signer_Proofs.v
theories/Signer_Props.v
theories/Signer_Spec.v
theories/Signing_Model.v
theories/Signing_Props.v
theories/Spike_Model.v
theories/Spike_Props.v
theories/Stash_Model.v
theories/Stash_Proofs.v
theories/Stash_Props.v
theories/Stash_Spec.v
theories/State_Proofs.v
theories/State_Props.v
theories/Suspect_Model.v
theories/Suspect_Proofs.v
theories/Suspect_Props.v
theories/Suspect_Spec.v
theories/Taa_Model.v
theories/Taa_Props.v
theories/Taa_Spec.v
theories/Throttle_Model.v
theories/Throttle_Props.v
theories/Throttle_Spec.v
theories/Timer_Model.v
theories/Timer_Props.v
theories/Tpc_Model.v
theories/Tpc_Proofs.v
theories/Tpc_Proofs2.v
theories/Tpc_Props.v
theories/Tput_Model.v
theories/Tput_Proofs.v
theories/Tput_Props.v
theories/Tput_Spec.v
theories/Tracker_Model.v
theories/Tracker_Props.v
theories/Tracker_Spec.v
theories/Trie_Abs.v
theories/Trie_Model.v
theories/Trie_Proofs.v
theories/Trie_Spec.v
theories/Trigger_Model.v
theories/Trigger_Props.v
theories/Validator_Model.v
theories/Validator_Props.v
theories/Version_Model.v
theories/Version_Props.v
theories/Version_Spec.v
theories/ViewChange_Model.v
theories/ViewChange_Props.v
theories/Views_Check.v
theories/Views_Model.v
theories/Views_Proofs.v
theories/Views_Props.v
theories/Views_Spec.v
theories/Wire_Model.v
theories/Wire_Proofs.v
theories/Wire_Props.v
theories/Wire_Spec.v
