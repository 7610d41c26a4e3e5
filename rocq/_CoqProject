-Q theories Verif
theories/Base.v
theories/Bytes.v
theories/Types.v
theories/Prost.v
theories/Env.v
theories/Prog.v
theories/Fee.v
theories/State.v
theories/Abi.v
theories/Merkle.v
theories/Sparse.v
theories/Aggregation.v
theories/Spec.v
theories/StepSpec.v
theories/History.v
theories/Ledger.v
theories/LedgerStep.v
theories/ClearStep.v
theories/Refine.v
theories/Complete.v
theories/Sim.v
theories/MerkleSpec.v
theories/MerkleFacts.v
theories/MerkleUpdate.v
theories/StfSpec.v
theories/SparseSim.v
theories/LedgerFacts.v
theories/TypedSpec.v
theories/Typed.v
theories/AbiFacts.v
theories/ProstFacts.v
theories/StfFacts.v
theories/EncodingFacts.v
theories/WireSpec.v
theories/WireFacts.v
theories/AggSpec.v
theories/AggFacts.v
theories/Token.v
theories/TokenFacts.v
theories/VApp.v
theories/L1Spec.v
theories/L1Facts.v
theories/L1Solvent.v
theories/L1Live.v
theories/L1Calls.v
theories/Staking.v
theories/StakingSpec.v
theories/StakingBank.v
theories/StakingFacts.v
theories/StakingUnstake.v
theories/StakingLaws.v
theories/StakingValue.v
theories/StakingBacked.v
theories/StakingLive.v
theories/StakingExact.v
theories/StakingRights.v
theories/StakingViews.v
theories/StakingRules.v
theories/StakingRulesFacts.v
theories/StakingRulesLive.v
theories/Shares.v
theories/SharesSpec.v
theories/Prime.v
theories/PrimeFacts.v
theories/Pricing.v
theories/PricingSpec.v
theories/PricingFacts.v
theories/Chars.v
theories/Artifacts.v
theories/ArtifactsSpec.v
theories/ArtifactsFacts.v
theories/Flow.v
theories/Retry.v
theories/RetrySpec.v
theories/RetryFacts.v
theories/Node.v
theories/NodeSpec.v
theories/NodeFacts.v
theories/Toy.v
theories/ToyTree.v
theories/ToyStf.v
theories/ToyTyped.v
theories/ToyL1.v
theories/ToyStaking.v
theories/ToyArtifacts.v
theories/ToyNode.v
theories/Proofs_Ledger.v
theories/Props_Ledger.v
theories/Proofs_Merkle.v
theories/Props_Merkle.v
theories/Proofs_Stf.v
theories/Props_Stf.v
theories/Proofs_Encoding.v
theories/Props_Encoding.v
theories/Proofs_Agg.v
theories/Props_Agg.v
theories/Proofs_Wire.v
theories/Props_Wire.v
theories/Proofs_L1.v
theories/Props_L1.v
theories/Proofs_Staking.v
theories/Props_Staking.v
theories/Proofs_Views.v
theories/Props_Views.v
theories/Proofs_Shares.v
theories/Props_Shares.v
theories/Proofs_Clients.v
theories/Props_Clients.v
theories/Proofs_Artifacts.v
theories/Props_Artifacts.v
theories/ArtifactStore.v
theories/ArtifactStoreSpec.v
theories/ArtifactStoreFacts.v
theories/Proofs_ArtifactStore.v
theories/ToyArtifactStore.v
theories/Props_ArtifactStore.v
theories/Proofs_Node.v
theories/Props_Node.v
theories/Calibrator.v
theories/CalibratorSpec.v
theories/CalibratorFacts.v
theories/Proofs_Calibrator.v
theories/Props_Calibrator.v
theories/NodeSystem.v
theories/NodeSystemSpec.v
theories/Proofs_NodeSystem.v
theories/ToyNodeSystem.v
theories/Props_NodeSystem.v
theories/Amount.v
theories/AmountSpec.v
theories/AmountFacts.v
theories/MarketSpec.v
theories/ToyAmount.v
theories/Proofs_Amount.v
theories/Props_Amount.v
theories/Monitor.v
theories/MonitorSpec.v
theories/Proofs_Monitor.v
theories/Props_Monitor.v
theories/Votes.v
theories/Governor.v
theories/VotesFacts.v
theories/GovernorSpec.v
theories/GovernorFacts.v
theories/GovernorRun.v
theories/Proofs_Governor.v
theories/ToyGovernor.v
theories/Props_Governor.v
theories/Network.v
theories/NetworkSpec.v
theories/NetworkFacts.v
theories/NetworkRun.v
theories/NetworkSettle.v
theories/NetworkStake.v
theories/NetworkOwner.v
theories/NetworkValue.v
theories/Proofs_Network.v
theories/ToyNetwork.v
theories/Props_Network.v
theories/LeaveSpec.v
theories/StakingLeave.v
theories/NetworkLeave.v
theories/RulesSpec.v
theories/GovernedSpec.v
theories/NetworkRules.v
theories/NetworkVotes.v
theories/ToyLeave.v
theories/Props_Leave.v
theories/Props_Rules.v
theories/Props_Governed.v
theories/VAppEvents.v
theories/EventsSpec.v
theories/EventsFacts.v
theories/EventsLedger.v
theories/ToyEvents.v
theories/Proofs_Events.v
theories/Props_Events.v
theories/LiveSpec.v
theories/Looks.v
theories/LiveFacts.v
theories/LiveQueue.v
theories/ToyLive.v
theories/Proofs_Live.v
theories/Props_Live.v
theories/StakingEvents.v
theories/StakingEventsSpec.v
theories/StakingEventsFacts.v
theories/StakingEventsTold.v
theories/Proofs_StakingEvents.v
theories/ToyStakingEvents.v
theories/Props_StakingEvents.v
