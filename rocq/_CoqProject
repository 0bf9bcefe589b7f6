-Q theories Verif
theories/Base.v
theories/Types.v
theories/Smr.v
theories/SmrProofs.v
theories/Timer.v
theories/SmrSteps.v
theories/TimerProofs.v
theories/P_Smr.v
theories/Spec.v
theories/Auth.v
theories/AuthProofs.v
theories/P_Auth.v
theories/Collection.v
theories/CollSpec.v
theories/CollProofs.v
theories/P_Coll.v
theories/Rlp.v
theories/Codec.v
theories/CodecProofs.v
theories/CodecSpec.v
theories/CodecRound.v
theories/P_Codec.v
theories/Verify.v
theories/State.v
theories/StateTac.v
theories/StateHist.v
theories/StateProofs.v
theories/StateRun.v
theories/StateSteps.v
theories/StateEx.v
theories/StateQc.v
theories/P_Wal.v
theories/P_Cert.v
theories/P_Round.v
theories/P_Msg.v
theories/Node.v
theories/NodeEx.v
theories/P_Node.v
theories/NodeSafe.v
theories/P_Safe.v
theories/NodeVerify.v
theories/NodeHeld.v
theories/P_Verify.v
theories/NodeVotes.v
theories/VoteOrder.v
theories/P_Votes.v
theories/P_Record.v
theories/LockEv.v
theories/LockRules.v
theories/NodeLock.v
theories/Agree.v
theories/P_Agree.v
theories/NetEx.v
theories/P_AgreeEx.v
theories/NodeLive.v
theories/P_Live.v
theories/P_LiveEx.v
theories/P_Cause.v
theories/P_CauseEx.v
theories/P_Decide.v
theories/P_DecideEx.v
theories/P_Quorum.v
theories/P_QuorumEx.v
theories/P_Accept.v
theories/P_Answer.v
theories/P_AnswerEx.v
theories/P_Leader.v
theories/P_LeaderEx.v
theories/Serde.v
theories/P_Serde.v
theories/P_Choke.v
theories/P_ChokeEx.v
theories/P_Early.v
theories/P_EarlyEx.v
theories/P_Stall.v
theories/P_StallEx.v
theories/P_Together.v
theories/P_TogetherEx.v
theories/P_Deadlock.v
theories/P_Lag.v
theories/P_LagEx.v
theories/P_Locked.v
theories/P_LockedEx.v
theories/NodeBrake.v
theories/P_Waiting.v
theories/P_WaitingEx.v
theories/P_Timely.v
theories/P_TimelyEx.v
theories/P_Commit.v
theories/P_CommitEx.v
theories/P_Tight.v
