-Q theories Verif
theories/GoBase.v
theories/Util.v
theories/TxCache_Model.v
theories/TxCache_Spec.v
theories/TxCache_Proofs.v
theories/TxCache_Props.v
theories/Watchdog_Model.v
theories/Watchdog_Spec.v
theories/Watchdog_Proofs.v
theories/Watchdog_Props.v
theories/ErrHandler_Model.v
theories/ErrHandler_Spec.v
theories/ErrHandler_Proofs.v
theories/ErrDecay_Model.v
theories/ErrDecay_Proofs.v
theories/ErrHandler_Props.v
theories/Toggle_Model.v
theories/Toggle_Spec.v
theories/Toggle_Proofs.v
theories/Toggle_Props.v
theories/Gossip_Model.v
theories/GossipLife_Model.v
theories/Gossip_Spec.v
theories/Gossip_Proofs.v
theories/Gossip_Props.v
theories/Applicator_Model.v
theories/Applicator_Spec.v
theories/Applicator_Core.v
theories/Applicator_Sys.v
theories/Applicator_Inv.v
theories/Applicator_Inv2.v
theories/Applicator_Inv3.v
theories/Applicator_Inv4.v
theories/Applicator_Inv5.v
theories/Applicator_Inv6.v
theories/Applicator_Inv7.v
theories/Applicator_Props.v
theories/Applicator_Props2.v
theories/Applicator_Props3.v
theories/PeerConn_Model.v
theories/PeerConn_Spec.v
theories/PeerConn_Proofs.v
theories/PeerConn_Props.v
theories/PeerConn_Props2.v
theories/PeerConn_Sess.v
theories/PeerConn_Props3.v
theories/ConnMgr_Model.v
theories/ConnMgr_Spec.v
theories/ConnMgr_Proofs.v
theories/ConnMgr_Props.v
theories/Version_Model.v
theories/Version_Spec.v
theories/Version_Props.v
theories/EhSys_Model.v
theories/EhSys_Spec.v
theories/EhSys_Proofs.v
theories/EhSys_Props.v
theories/LocalRpc_Model.v
theories/LocalRpc_Spec.v
theories/LocalRpc_Props.v
theories/PeerRpc_Model.v
theories/PeerRpc_Spec.v
theories/PeerRpc_Props.v
theories/Node_Model.v
theories/Node_Spec.v
theories/Node_Props.v
theories/Node_Props2.v
theories/Score_Model.v
theories/Score_Props.v
theories/Main_Model.v
theories/Main_Spec.v
theories/Main_Props.v
theories/Asm_Model.v
theories/Asm_Spec.v
theories/Asm_Proofs.v
theories/Asm_Props.v
theories/Switch_Model.v
theories/Switch_Spec.v
theories/Switch_Proofs.v
theories/Switch_Props.v
theories/Catchup_Spec.v
theories/Catchup_Proofs.v
theories/Catchup_Props.v
theories/Deliver_Spec.v
theories/Deliver_Proofs.v
theories/Deliver_Props.v
theories/Cutoff_Model.v
theories/Cutoff_Spec.v
theories/Cutoff_Proofs.v
theories/Cutoff_Props.v
theories/TwoNodes_Spec.v
theories/TwoNodes_Proofs.v
theories/TwoNodes_Props.v
theories/Rest_Spec.v
theories/Rest_Proofs.v
theories/Rest_Props.v
theories/Honest_Spec.v
theories/Honest_Proofs.v
theories/Honest_Proofs2.v
theories/Honest_Props.v
theories/Boot_Model.v
theories/Boot_Spec.v
theories/Boot_Proofs.v
theories/Boot_Props.v
theories/Round_Spec.v
theories/Round_Proofs.v
theories/Round_Props.v
theories/Follow_Spec.v
theories/Follow_Proofs.v
theories/Follow_Props.v
theories/Relay_Spec.v
theories/Relay_Proofs.v
theories/Relay_Props.v
theories/Flood_Spec.v
theories/Flood_Proofs.v
theories/Flood_Props.v
theories/Both_Spec.v
theories/Both_Proofs.v
theories/Both_Props.v
theories/Early_Spec.v
theories/Early_Proofs.v
theories/Early_Props.v
theories/Stay_Spec.v
theories/Stay_Proofs.v
theories/Stay_Props.v
theories/Often_Spec.v
theories/Often_Proofs.v
theories/Often_Props.v
theories/Rate_Spec.v
theories/Rate_Proofs.v
theories/Rate_Props.v
theories/RateNet_Props.v
theories/Ban_Proofs.v
theories/Ban_Props.v
theories/TxNet_Spec.v
theories/TxNet_Proofs.v
theories/TxNet_Props.v
theories/Prog_Model.v
theories/Prog_Spec.v
theories/Prog_Props.v
theories/Memory_Spec.v
theories/Memory_Props.v
theories/Sessions_Props.v
theories/Serve_Model.v
theories/Serve_Spec.v
theories/Serve_Props.v
theories/Pace_Model.v
theories/Pace_Spec.v
theories/Pace_Props.v
theories/Speed_Spec.v
theories/Speed_Props.v
theories/Window_Spec.v
theories/Window_Props.v
theories/Status_Model.v
theories/Status_Spec.v
theories/Status_Props.v
theories/Punctual_Model.v
theories/Punctual_Spec.v
theories/Punctual_Props.v
theories/Publish_Props.v
theories/Redial_Model.v
theories/Redial_Spec.v
theories/Redial_Props.v
