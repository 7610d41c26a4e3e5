{
 "claims": [
  {
   "property": "C01",
   "status": "proved",
   "theorems": [
    "C01_funds_conserved"
   ],
   "note": "All histories of the full ledger without panic."
  },
  {
   "property": "C02",
   "status": "proved",
   "theorems": [
    "C02_balances_exact"
   ],
   "note": "Pointwise balance formula in terms of the payments the signed messages ask for."
  },
  {
   "property": "C03",
   "status": "proved",
   "theorems": [
    "C03_message_once"
   ],
   "note": "The second execution panics for any envelope around the same body and signer."
  },
  {
   "property": "C04",
   "status": "proved",
   "theorems": [
    "C04_revert_is_clean"
   ],
   "note": ""
  },
  {
   "property": "C05",
   "status": "proved",
   "theorems": [
    "C05_counter"
   ],
   "note": "Counter modulo 2^64."
  },
  {
   "property": "C06",
   "status": "proved",
   "theorems": [
    "C06_onchain_order"
   ],
   "note": "Ids modulo 2^64."
  },
  {
   "property": "C07",
   "status": "proved",
   "theorems": [
    "C07_authorised"
   ],
   "note": ""
  },
  {
   "property": "C08",
   "status": "proved",
   "theorems": [
    "C08_account_fields"
   ],
   "note": ""
  },
  {
   "property": "C09",
   "status": "proved",
   "theorems": [
    "C09_clear_requires_signatures"
   ],
   "note": ""
  },
  {
   "property": "C10",
   "status": "proved",
   "theorems": [
    "C10_requester_maximum"
   ],
   "note": ""
  },
  {
   "property": "C11",
   "status": "proved",
   "theorems": [
    "C11_fee_split",
    "C11_fee_domain"
   ],
   "note": ""
  },
  {
   "property": "C12",
   "status": "proved",
   "theorems": [
    "C12_receipts",
    "C12_receipt_on_l1"
   ],
   "note": ""
  },
  {
   "property": "C13",
   "status": "proved",
   "theorems": [
    "C13_balances_fit",
    "C13_no_wrap"
   ],
   "note": ""
  },
  {
   "property": "C14",
   "status": "proved",
   "theorems": [
    "C14_signed_message_checked",
    "C14_fulfil_ignored_when_punishing"
   ],
   "note": "The exception (the fulfilment inside a punished clear is never inspected) is part of the statement and shown by a witness."
  },
  {
   "property": "C15",
   "status": "proved",
   "theorems": [
    "C15_panic_commits_nothing",
    "C15_published_is_clean",
    "C15_commit_means_no_panic",
    "C15_execute_atomic_refuted"
   ],
   "note": "The refuted statement records that execute itself is not atomic on panic."
  },
  {
   "property": "C16",
   "status": "proved",
   "theorems": [
    "C16_root_is_textbook",
    "C16_root_order_independent"
   ],
   "note": ""
  },
  {
   "property": "C17",
   "status": "proved",
   "theorems": [
    "C17_proofs_verify",
    "C17_out_of_range"
   ],
   "note": ""
  },
  {
   "property": "C18",
   "status": "proved",
   "theorems": [
    "C18_proofs_bind"
   ],
   "note": "Collision resistance is assumed only for the finitely many strings hashed while checking the two proofs."
  },
  {
   "property": "C19",
   "status": "proved",
   "theorems": [
    "C19_cache_invisible"
   ],
   "note": ""
  },
  {
   "property": "C20",
   "status": "proved",
   "theorems": [
    "C20_incremental_root",
    "C20_incremental_root_sound",
    "C20_rejects"
   ],
   "note": ""
  },
  {
   "property": "C21",
   "status": "proved",
   "theorems": [
    "C21_only_proven",
    "C21_accepts_iff_valid",
    "C21_write_read"
   ],
   "note": ""
  },
  {
   "property": "C22",
   "status": "proved",
   "theorems": [
    "C22_sparse_simulates_full",
    "C22_full_never_misses"
   ],
   "note": ""
  },
  {
   "property": "C23",
   "status": "proved",
   "theorems": [
    "C23_commit_is_true"
   ],
   "note": "The ledger is any one reached from a new ledger. Collision resistance is assumed only for the finitely many strings hashed for this input and ledger."
  },
  {
   "property": "C24",
   "status": "proved",
   "theorems": [
    "C24_honest_commits"
   ],
   "note": ""
  },
  {
   "property": "C25",
   "status": "proved",
   "theorems": [
    "C25_commits_exactly",
    "C25_aggregate_is_true"
   ],
   "note": "Soundness of the step proof system is a hypothesis: a step that verifies was committed by the state-transition program."
  },
  {
   "property": "C26",
   "status": "proved",
   "theorems": [
    "C26_root_binds"
   ],
   "note": "Collision resistance is assumed only for the finitely many strings hashed for the two ledgers."
  },
  {
   "property": "C27",
   "status": "proved",
   "theorems": [
    "C27_marks",
    "C27_blocks",
    "C27_no_other_blocks"
   ],
   "note": ""
  },
  {
   "property": "C28",
   "status": "proved",
   "theorems": [
    "C28_public_values_decode",
    "C28_public_values_injective",
    "C28_receipts_injective",
    "C28_committed_bytes_decode"
   ],
   "note": ""
  },
  {
   "property": "C29",
   "status": "proved",
   "theorems": [
    "C29_same_type_injective",
    "C29_no_cross_type",
    "C29_accepted_fit_roles",
    "C29_signed_bytes_have_one_use",
    "C29_ids_bind",
    "C29_approval_is_no_message"
   ],
   "note": "The JSON signing format (serde_json) is an arbitrary function in the model, so these theorems are about the binary format and the message ids."
  },
  {
   "property": "C30",
   "status": "proved",
   "theorems": [
    "C30_same_data_same_execution",
    "C30_like_a_plain_map",
    "C30_touched_is_all"
   ],
   "note": ""
  },
  {
   "property": "C31",
   "status": "proved",
   "theorems": [
    "C31_queue_faithful",
    "C31_step_effect",
    "C31_other_steps_refused",
    "C31_past_is_fixed"
   ],
   "note": "The proof verifier is arbitrary; the decoder of public values is any function inverting the encoder."
  },
  {
   "property": "C32",
   "status": "proved",
   "theorems": [
    "C32_solvent",
    "C32_payable",
    "C32_payments_exact"
   ],
   "note": "Assumes sound step proofs, and collision resistance only for the finitely many strings hashed along the run. The run starts at deployment with the empty ledger root and contains no fork."
  },
  {
   "property": "C33",
   "status": "proved",
   "theorems": [
    "C33_amount_in_wei",
    "C33_price_per_pgu",
    "C33_tick"
   ],
   "note": ""
  },
  {
   "property": "C34",
   "status": "proved",
   "theorems": [
    "C34_s3",
    "C34_https",
    "C34_whole",
    "C34_schedulable",
    "C34_every_position_once"
   ],
   "note": "Tasks and the channel are modelled by all interleavings of the messages of the tasks; time limits are part of the failure of a request."
  },
  {
   "property": "C35",
   "status": "proved",
   "theorems": [
    "C35_outcome",
    "C35_budget",
    "C35_attempts_bounded",
    "C35_default_limit"
   ],
   "note": "The loop and the waiting times of the backoff crate are modelled as documented, without the rounding of its floating point products."
  },
  {
   "property": "C36",
   "status": "proved",
   "theorems": [
    "C36_bid_justified",
    "C36_one_acknowledged",
    "C36_bids_in_time",
    "C36_round_end",
    "C36_ends"
   ],
   "note": ""
  },
  {
   "property": "C37",
   "status": "proved",
   "theorems": [
    "C37_round",
    "C37_never_both"
   ],
   "note": "The proving task and the registry of unexecutable requests are arbitrary answers."
  },
  {
   "property": "C38",
   "status": "proved",
   "theorems": [
    "C38_decides_primality"
   ],
   "note": ""
  },
  {
   "property": "C39",
   "status": "proved",
   "theorems": [
    "C39_key_determines",
    "C39_extract_key",
    "C39_extract_total"
   ],
   "note": ""
  },
  {
   "property": "C40",
   "status": "proved",
   "theorems": [
    "C40_escrow_held",
    "C40_escrow_accounting",
    "C40_paid_once",
    "C40_request_exact",
    "C40_claims_bounded",
    "C40_finish_exact",
    "C40_slash_exact",
    "C40_slash_once"
   ],
   "note": ""
  },
  {
   "property": "C41",
   "status": "proved",
   "theorems": [
    "C41_dispensed_le_earned",
    "C41_available_exact",
    "C41_dispense_exact"
   ],
   "note": "Block times are assumed not to decrease."
  },
  {
   "property": "C42",
   "status": "proved",
   "theorems": [
    "C42_winner_irrelevant",
    "C42_winner_paid_refuted"
   ],
   "note": "Finding: the guarantee one would expect (the paid prover is the winner named in the settlement) is false of the code; proved are its refutation and the general statement that the winner field has no influence."
  },
  {
   "property": "C43",
   "status": "proved",
   "theorems": [
    "C43_monotone",
    "C43_flags_true"
   ],
   "note": ""
  },
  {
   "property": "C44",
   "status": "proved",
   "theorems": [
    "C44_specification"
   ],
   "note": ""
  },
  {
   "property": "C45",
   "status": "proved",
   "theorems": [
    "C45_cursors_agree",
    "C45_honest_step_accepted"
   ],
   "note": "Receivers that refuse a transfer (zero address, vault without a deployed prover) are excluded by hypothesis: such a receipt makes the step revert."
  },
  {
   "property": "C46",
   "status": "proved",
   "theorems": [
    "C46_only_owner",
    "C46_paused"
   ],
   "note": ""
  },
  {
   "property": "C47",
   "status": "proved",
   "theorems": [
    "C47_stake_keeps_value",
    "C47_stake_exact"
   ],
   "note": ""
  },
  {
   "property": "C48",
   "status": "proved",
   "theorems": [
    "C48_claims_backed",
    "C48_paid_in_full",
    "C48_unslashed_full"
   ],
   "note": ""
  },
  {
   "property": "C49",
   "status": "proved",
   "theorems": [
    "C49_paid_le_escrowed_refuted"
   ],
   "note": "A refutation: the expected property is false of the code. Slashing cannot happen at present, since the settlement contract never calls requestSlash."
  },
  {
   "property": "C50",
   "status": "proved",
   "theorems": [
    "C50_receipts_match"
   ],
   "note": ""
  },
  {
   "property": "C51",
   "status": "proved",
   "theorems": [
    "C51_finish_accepted",
    "C51_request_accepted",
    "C51_cancel_accepted",
    "C51_slash_accepted",
    "C51_dispense_accepted"
   ],
   "note": ""
  },
  {
   "property": "C52",
   "status": "proved",
   "theorems": [
    "C52_pending_slash_freezes"
   ],
   "note": ""
  },
  {
   "property": "C53",
   "status": "proved",
   "theorems": [
    "C53_settings_authorised",
    "C53_slashes_authorised"
   ],
   "note": ""
  },
  {
   "property": "C54",
   "status": "proved",
   "theorems": [
    "C54_one_prover_each",
    "C54_registry_changes",
    "C47_stake_exact"
   ],
   "note": ""
  },
  {
   "property": "C55",
   "status": "proved",
   "theorems": [
    "C55_accepted_is_near",
    "C55_accepts",
    "C55_exact"
   ],
   "note": "Floating point is modelled by exact rationals with rounding to nearest even."
  },
  {
   "property": "C56",
   "status": "proved",
   "theorems": [
    "C56_short_answer_noticed_refuted",
    "C56_no_panic_refuted"
   ],
   "note": "A refutation: the expected property is false of the code."
  },
  {
   "property": "C57",
   "status": "proved",
   "theorems": [
    "C57_first_success"
   ],
   "note": ""
  },
  {
   "property": "C58",
   "status": "proved",
   "theorems": [
    "C58_bid_verifies",
    "C58_fulfilment_verifies"
   ],
   "note": ""
  },
  {
   "property": "C59",
   "status": "proved",
   "theorems": [
    "C59_single_bid_refuted"
   ],
   "note": "A refutation: the expected property is false of the code."
  },
  {
   "property": "C60",
   "status": "proved",
   "theorems": [
    "C60_every_request_resolved_refuted"
   ],
   "note": "A refutation: the expected property is false of the code."
  },
  {
   "property": "C61",
   "status": "proved",
   "theorems": [
    "C61_never_stops_refuted"
   ],
   "note": "A refutation: the expected property is false of the code."
  },
  {
   "property": "C62",
   "status": "proved",
   "theorems": [
    "C62_deposit_exact",
    "C62_deposit_accepted",
    "C62_permit_exact",
    "C62_permit_accepted",
    "C62_create_prover_exact",
    "C62_create_prover_accepted"
   ],
   "note": "Whether a permit signature is valid is an arbitrary input of the call."
  },
  {
   "property": "C63",
   "status": "proved",
   "theorems": [
    "C63_setting_exact",
    "C63_setting_accepted",
    "C63_fork_exact",
    "C63_fork_accepted",
    "C63_deployment"
   ],
   "note": ""
  },
  {
   "property": "C64",
   "status": "proved",
   "theorems": [
    "C64_messages_are_protobuf"
   ],
   "note": ""
  },
  {
   "property": "C65",
   "status": "proved",
   "theorems": [
    "C65_step_bytes",
    "C65_aggregate_bytes"
   ],
   "note": "Hash inputs that do not collide are listed; the digest and the proof check of the aggregation program are arbitrary."
  },
  {
   "property": "C66",
   "status": "proved",
   "theorems": [
    "C66_root_is_commitment"
   ],
   "note": ""
  },
  {
   "property": "C67",
   "status": "proved",
   "theorems": [
    "C67_views_exact",
    "C67_pending_exact",
    "C67_pending_paid",
    "C67_stakes_covered",
    "C67_provers_covered"
   ],
   "note": "The exact answers assume that the vault and the $stPROVE supply fit in 256 bits; the claims that no slash brought the factor of the prover to zero (see C49)."
  },
  {
   "property": "C68",
   "status": "proved",
   "theorems": [
    "C68_rules_followed",
    "C68_rules_accepted"
   ],
   "note": "For acceptance, sums are assumed to fit in machine words (spelled out in `moderate`). CREATE2 addresses and the answer of the settlement contract to createProver are arbitrary."
  },
  {
   "property": "C69",
   "status": "proved",
   "theorems": [
    "C69_only_allowances",
    "C69_staking_undisturbed",
    "C69_vaults_serve_staking",
    "C69_reward_is_deposit"
   ],
   "note": "ERC20 and ERC4626 of OpenZeppelin are modelled after their documentation; whether a permit is valid is an arbitrary input of the call."
  },
  {
   "property": "C70",
   "status": "proved",
   "theorems": [
    "C70_outcome",
    "C70_earns",
    "C70_no_gas"
   ],
   "note": "Multiplication, division and rounding of f64 are modelled after IEEE 754 with exact rationals."
  },
  {
   "property": "C71",
   "status": "proved",
   "theorems": [
    "C71_printed",
    "C71_printed_bid_earns_refuted"
   ],
   "note": "The claim that the printed price earns the cost is refuted by a concrete run; what is printed is proved for all inputs."
  },
  {
   "property": "C72",
   "status": "proved",
   "theorems": [
    "C72_options",
    "C72_bid_unit_refuted"
   ],
   "note": "The conversion of f64 to 256-bit integers is modelled after the documentation of the ruint crate. The claim about the documented unit is refuted."
  },
  {
   "property": "C73",
   "status": "proved",
   "theorems": [
    "C73_rounds",
    "C73_background",
    "C73_registry_answers",
    "C73_never_proved",
    "C73_aborted"
   ],
   "note": "Pauses and waiting for locks are left out: steps may come in any order."
  },
  {
   "property": "C74",
   "status": "proved",
   "theorems": [
    "C74_returned",
    "C74_last",
    "C74_goes_on",
    "C74_failure_reported_refuted"
   ],
   "note": "The claim that a failure of the monitor is reported is refuted by a concrete run."
  },
  {
   "property": "C75",
   "status": "proved",
   "theorems": [
    "C75_amounts",
    "C75_decimal",
    "C75_transfer"
   ],
   "note": "The reading is modelled after the sources of the ruint crate (version 1.17), which are not in /repo; that the ledger uses it is a hypothesis on its environment."
  },
  {
   "property": "C76",
   "status": "proved",
   "theorems": [
    "C76_settled",
    "C76_as_any_other"
   ],
   "note": "Combines the node with the ledger. The signature scheme is arbitrary; that signatures of the node recover to its address is a hypothesis."
  },
  {
   "property": "C77",
   "status": "proved",
   "theorems": [
    "C77_balance",
    "C77_price_read",
    "C77_price_accepts"
   ],
   "note": "The range of times is that of the time crate without its large-dates feature."
  },
  {
   "property": "C78",
   "status": "proved",
   "theorems": [
    "C78_counted",
    "C78_line",
    "C78_quiet",
    "C78_disks",
    "C78_disk_used_refuted",
    "C78_fulfilled_refuted"
   ],
   "note": "humantime is modelled after its sources (version 2.2), which are not in /repo. The claims about the used share and the accepted fulfilments are refuted."
  },
  {
   "property": "C79",
   "status": "proved",
   "theorems": [
    "C79_votes",
    "C79_past",
    "C79_total",
    "C79_unimpeded",
    "C79_delegate"
   ],
   "note": "ERC20Votes of OpenZeppelin is modelled after its documentation. Block times have fewer than 48 bits."
  },
  {
   "property": "C80",
   "status": "proved",
   "theorems": [
    "C80_record",
    "C80_total",
    "C80_propose",
    "C80_cancel",
    "C80_vote",
    "C80_execute",
    "C80_passed",
    "C80_voice"
   ],
   "note": "Governor of OpenZeppelin and its extensions are modelled after their documentation. The number of a proposal is an arbitrary function of actions and description; statements are about proposal numbers."
  },
  {
   "property": "C81",
   "status": "proved",
   "theorems": [
    "C81_only_by_vote",
    "C81_owner",
    "C81_in_time",
    "C81_enforced",
    "C81_in_time_refuted"
   ],
   "note": "Without the condition that delay and period have not become shorter, C81_in_time is refuted by a concrete run."
  },
  {
   "property": "C82",
   "status": "proved",
   "theorems": [
    "C82_deploys",
    "C82_deployed",
    "C82_governance",
    "C82_staking",
    "C82_settlement",
    "C82_accepts"
   ],
   "note": "Addresses of the contracts are given and differ; CREATE2 addresses are arbitrary but none of these. Proposals of the governor that make deposits, steps or provers are not modelled."
  },
  {
   "property": "C83",
   "status": "proved",
   "theorems": [
    "C83_backed"
   ],
   "note": "Assumes sound proofs, no fork of the chain, and that the hash inputs that occur do not collide."
  },
  {
   "property": "C84",
   "status": "proved",
   "theorems": [
    "C84_owners",
    "C84_queue",
    "C84_create"
   ],
   "note": "Assumes sound proofs, no fork, no hash collision, and that the owner of the settlement contract does not replace the staking contract."
  },
  {
   "property": "C85",
   "status": "proved",
   "theorems": [
    "C85_step_pays",
    "C85_reward_value",
    "C85_honest_step"
   ],
   "note": "Assumes for acceptance of an honest step that the vault stays below 2^208 and that no withdrawal is to the zero address (see C45)."
  },
  {
   "property": "C86",
   "status": "proved",
   "theorems": [
    "C86_no_slash",
    "C86_stake_kept"
   ],
   "note": "Proposals of the governor that make deposits, steps or provers are not modelled; the settlement contract has no function that requests a slash."
  },
  {
   "property": "C87",
   "status": "proved",
   "theorems": [
    "C87_request",
    "C87_finish",
    "C87_leave"
   ],
   "note": "Assumes the $stPROVE supply and the vault are below the limits of 256-bit numbers, which the real supply of $PROVE is far from."
  },
  {
   "property": "C88",
   "status": "proved",
   "theorems": [
    "C88_settlement",
    "C88_renounced",
    "C88_locked",
    "C88_staking",
    "C88_staking_renounced"
   ],
   "note": "Upgrades of the proxies by the owner are not modelled. Proposals of the governor that make deposits, steps or provers are not modelled."
  },
  {
   "property": "C89",
   "status": "proved",
   "theorems": [
    "C89_passed",
    "C89_settlement",
    "C89_staking",
    "C89_executable"
   ],
   "note": "Proposals are identified by a hash of their actions and description, as in the contract; no collision freedom is needed. Proposals of the governor that make deposits, steps or provers are not modelled."
  },
  {
   "property": "C90",
   "status": "proved",
   "theorems": [
    "C90_history",
    "C90_settings",
    "C90_blocks",
    "C90_queue",
    "C90_money",
    "C90_holdings",
    "C90_returns"
   ],
   "note": "The times of blocks are not in the events. The data of a settled transaction in its event may be longer than announced (see findings)."
  },
  {
   "property": "C91",
   "status": "proved",
   "theorems": [
    "C91_inwards",
    "C91_outwards"
   ],
   "note": "Assumes sound proofs, no fork, and that the hash inputs that occur do not collide."
  },
  {
   "property": "C92",
   "status": "proved",
   "theorems": [
    "C92_batch_provable",
    "C92_batch_settles",
    "C92_queue_provable",
    "C92_queue_settles",
    "C92_withdrawal_provable",
    "C92_withdrawal_settles"
   ],
   "note": "Assumes that hash inputs that occur do not collide, and that the ids of different messages of one batch differ in the 160 bits used as key (otherwise the program refuses the batch and it must be split). Deposits are within 256 bits since the contract holds less than 2^256 tokens. A withdrawal to the zero address cannot be paid (C45)."
  },
  {
   "property": "C93",
   "status": "proved",
   "theorems": [
    "C93_history",
    "C93_settings",
    "C93_provers",
    "C93_stakers",
    "C93_slashes",
    "C93_held",
    "C93_same_events",
    "C93_money",
    "C93_returns"
   ],
   "note": "The first dispenser is set without an event and is a parameter. A slash event does not tell how much came from escrow, nor the slash factor; only the sum of vault and escrow is told. Times are those of the blocks and not in the events. As for C40, the staking contract and the vault make no calls but those in their code."
  },
  {
   "property": "C94",
   "status": "proved",
   "theorems": [
    "C94_origin",
    "C94_latest",
    "C94_gives_up",
    "C94_only_writers",
    "C94_copy",
    "C94_copy_new",
    "C94_parallel",
    "C94_parallel_untorn_refuted",
    "C94_parallel_empty_refuted",
    "C94_copy_equal_refuted",
    "C94_copy_keeps_refuted",
    "C94_failed_upload_refuted"
   ],
   "note": "The store answers each request from what it holds at that moment (the documented consistency of S3). The refuted theorems show the exceptions named in the property."
  }
 ]
}
