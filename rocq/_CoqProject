-Q theories Verif

theories/Base.v
theories/Math.v
theories/State.v
theories/Handlers.v
theories/Token.v
theories/World.v
theories/Instr.v
theories/Exec.v
theories/Merkle.v
theories/Tactics.v
theories/Sums.v
theories/Spec.v
theories/Arith.v
theories/TokenFacts.v
theories/Inv.v
theories/Acct.v
theories/Funs.v
theories/Steps.v
theories/Init.v
theories/Preserve.v
theories/Reach.v
theories/Did.v
theories/Trans.v
theories/Flow.v
theories/Scenario.v
theories/Replay.v
theories/P_Solvency.v
theories/P_State.v
theories/P_Access.v
theories/P_History.v
theories/P_Payout.v
theories/P_Arith.v
theories/P_Ledger.v
theories/P_Deposit.v
theories/P_Config.v
theories/P_Mints.v
theories/P_Limits.v
theories/P_Panic.v
theories/P_Events.v
theories/P_Merkle.v
theories/P_Exit.v
theories/P_Fill.v
theories/Seeds.v
theories/P_Seeds.v
theories/P_Tx.v
theories/P_Fair.v
theories/P_Wind.v
theories/Sha256.v
theories/Layout.v
theories/P_Width.v
theories/P_Layout.v
theories/Borsh.v
theories/P_Borsh.v
theories/Entry.v
theories/P_Entry.v
theories/P_Memo.v
theories/Rent.v
theories/P_Rent.v
theories/P_Immune.v
theories/P_Suggest.v
theories/P_MerkleSize.v
theories/P_Index.v
theories/P_Phase.v
theories/EventWire.v
theories/P_EventWire.v
theories/P_Price.v
theories/P_Fees.v
theories/P_Order.v
theories/P_Mono.v
theories/P_Retry.v
theories/P_NoRun.v
theories/P_Signed.v
theories/P_Hook.v
theories/Epoch.v
theories/P_Epoch.v
theories/P_Fcfs.v
theories/P_Sign.v
theories/P_Local.v
theories/P_Native.v
theories/Withheld.v
theories/P_Withheld.v
theories/Sale.v
theories/P_Sale.v
theories/P_Play.v
theories/P_Pot.v
theories/P_Finish.v
theories/Assumptions.v
