-Q theories Verif
theories/Accounts_Model.v
theories/Accounts_Proofs.v
theories/Accounts_Props.v
theories/Accounts_Spec.v
theories/BiChannel_Model.v
theories/BiChannel_Props.v
theories/Bytes.v
theories/Callback_Model.v
theories/Callback_Props.v
theories/Channel_Model.v
theories/Channel_Proofs.v
theories/Channel_Props.v
theories/Channel_Spec.v
theories/Commit_Proofs.v
theories/Commit_Props.v
theories/Commit_Spec.v
theories/Consensus_Model.v
theories/Consensus_Proofs.v
theories/Consensus_Props.v
theories/Consensus_Spec.v
theories/Disconnect_Model.v
theories/Disconnect_Proofs.v
theories/Disconnect_Props.v
theories/Disconnect_Spec.v
theories/GroupServer_Model.v
theories/GroupServer_Proofs.v
theories/GroupServer_Props.v
theories/GroupServer_Spec.v
theories/GroupSession_Model.v
theories/GroupSession_Proofs.v
theories/GroupSession_Props.v
theories/GroupSession_Spec.v
theories/GroupWire_Model.v
theories/GroupWire_Props.v
theories/Hierarchy_Model.v
theories/Hierarchy_Proofs.v
theories/Hierarchy_Props.v
theories/Hierarchy_Spec.v
theories/InternalService_Model.v
theories/InternalService_Props.v
theories/KeepAlive_Model.v
theories/KeepAlive_Props.v
theories/KeepAlive_Spec.v
theories/Kernel_Model.v
theories/Kernel_Proofs.v
theories/Kernel_Props.v
theories/Kernel_Spec.v
theories/KeySched_Model.v
theories/KeySched_Proofs.v
theories/KeySched_Props.v
theories/KeySched_Spec.v
theories/KvStore_Model.v
theories/KvStore_Props.v
theories/KvStore_Spec.v
theories/Login_Model.v
theories/Login_Proofs.v
theories/Login_Props.v
theories/Login_Spec.v
theories/Multiplex_Model.v
theories/Multiplex_Proofs.v
theories/Multiplex_Props.v
theories/Multiplex_Spec.v
theories/NetMutex_Model.v
theories/NetMutex_Proofs.v
theories/NetMutex_Props.v
theories/NetMutex_Spec.v
theories/Nonce_Model.v
theories/Nonce_Props.v
theories/Ordered_Model.v
theories/Ordered_Proofs.v
theories/Ordered_Props.v
theories/Ordered_Spec.v
theories/Packet_Model.v
theories/Packet_Proofs.v
theories/Packet_Props.v
theories/PeerClient_Model.v
theories/PeerClient_Pair.v
theories/PeerClient_Proofs.v
theories/PeerClient_Props.v
theories/PeerClient_Spec.v
theories/PeerServer_Model.v
theories/PeerServer_Proofs.v
theories/PeerServer_Props.v
theories/PeerServer_Spec.v
theories/Perfect_Proofs.v
theories/Perfect_Props.v
theories/Perfect_Spec.v
theories/Postings_Model.v
theories/Postings_Proofs.v
theories/Postings_Props.v
theories/Postings_Spec.v
theories/Protect_Model.v
theories/Protect_Proofs.v
theories/Protect_Props.v
theories/Protect_Spec.v
theories/Rekey_Model.v
theories/Rekey_Proofs.v
theories/Rekey_Props.v
theories/Rekey_Spec.v
theories/ReliableConn_Model.v
theories/ReliableConn_Props.v
theories/Replay_Model.v
theories/Replay_Proofs.v
theories/Replay_Props.v
theories/Replay_Spec.v
theories/RwLock_Abs.v
theories/RwLock_Model.v
theories/RwLock_Proofs.v
theories/RwLock_Props.v
theories/RwLock_Spec.v
theories/SecPacket_Model.v
theories/SecPacket_Proofs.v
theories/SecPacket_Props.v
theories/SecPacket_Spec.v
theories/SessionManager_Model.v
theories/SessionManager_Proofs.v
theories/SessionManager_Props.v
theories/SessionManager_Spec.v
theories/SessionQueue_Model.v
theories/SessionQueue_Proofs.v
theories/SessionQueue_Props.v
theories/SessionQueue_Spec.v
theories/Splitter_Host.v
theories/Splitter_Main.v
theories/Splitter_Model.v
theories/Splitter_Proofs.v
theories/Splitter_Props.v
theories/Splitter_Sender.v
theories/Splitter_Spec.v
theories/Splitter_Val.v
theories/SyncStart_Model.v
theories/SyncStart_Props.v
theories/Toolset_Model.v
theories/Toolset_Proofs.v
theories/Toolset_Props.v
theories/Toolset_Spec.v
theories/Transfer_Model.v
theories/Transfer_Proofs.v
theories/Transfer_Props.v
theories/Transfer_Spec.v
theories/TreeApply_Proofs.v
theories/TreeBal_Proofs.v
theories/TreeMath_Proofs.v
theories/TreeMsg_Proofs.v
theories/TreePath_Proofs.v
theories/TreeSym_Proofs.v
theories/TreeSym_Spec.v
theories/TreeUpd_Proofs.v
theories/TreeWorld_Proofs.v
theories/Tree_Model.v
theories/Tree_Proofs.v
theories/Tree_Props.v
theories/Tree_Spec.v
theories/Types_Model.v
theories/Types_Proofs.v
theories/Types_Props.v
theories/Vfs_Model.v
theories/Vfs_Proofs.v
theories/Vfs_Props.v
theories/Vfs_Spec.v
