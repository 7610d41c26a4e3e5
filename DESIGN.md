# Design of the formal model

Subject: succinctlabs/network, source in /repo (Rust crates, zkVM programs, Solidity contracts).
Tool: Rocq / Coq 8.16.1, with std++ (finite maps, lists, sorting) and the standard library.

Contents: 1 shape of the model, 2 conventions, 3 hashing, 4 one row per property, 5 trusted base,
6 what is modelled and what is not, 7 findings, 8 tests against wrong programs.

## 1. Shape of the model

Files under `rocq/theories` fall into five kinds.

* *Model* files contain definitions that follow the source function by function. Each definition has a
  comment citing file and lines.
* *Spec* files contain the vocabulary of the theorems. They do not use the functions of the program they
  are about, except for the entry point whose effect is described.
* *Facts* files contain lemmas.
* *Toy* files contain small computable environments and worked cases used by the examples.
* *Props* files contain theorems and examples only. Below each theorem stands `Print Assumptions`, and
  below that an example meeting the hypotheses.

| part | model | vocabulary | lemmas | source |
|---|---|---|---|---|
| words, bytes | `Base`, `Bytes` | | | `crates/vapp/src/u256.rs`, byte slices |
| external functions | `Env` | | | keccak256, ECDSA recovery, U256 parsing, serde_json, proof verifier |
| fee | `Fee` | | | `crates/vapp/src/fee.rs` |
| data types | `Types` | | | `transactions.rs`, `sol.rs`, `errors.rs`, `receipts.rs`, `crates/types` |
| ABI | `Abi` | `WireSpec` | `WireFacts`, `AbiFacts` | alloy encoding of the structs in `sol.rs`, `PublicValues.sol` |
| binary message format | `Prost` | `WireSpec` | `WireFacts`, `ProstFacts`, `EncodingFacts` | prost encoding of the signed bodies, `hash_with_signer` |
| ledger | `Prog`, `State` | `Spec`, `StepSpec` | `Ledger`, `LedgerStep`, `ClearStep`, `Refine`, `Complete`, `History`, `LedgerFacts` | `state.rs`, `signing.rs`, `utils.rs`, `verifier.rs` |
| two storages agree | | | `Sim`, `SparseSim` | `storage.rs` |
| Merkle storage | `Merkle` | `MerkleSpec` | `MerkleFacts`, `MerkleUpdate` | `merkle.rs` |
| sparse storage, zkVM program | `Sparse` | `StfSpec` | `StfFacts` | `sparse.rs`, `programs/vapp/stf/src/main.rs` |
| accepted Rust values | `Typed` | `TypedSpec` | | ranges of the Rust types of a transaction |
| aggregation program | `Aggregation` | `AggSpec` | `AggFacts` | `programs/vapp/aggregation/src/main.rs` |
| $PROVE token | `Token` | | `TokenFacts` | `Succinct.sol` (OpenZeppelin ERC20, permit) |
| settlement contract | `VApp`, `VAppEvents` | `L1Spec`, `EventsSpec` | `L1Facts`, `L1Solvent`, `L1Live`, `L1Calls`, `EventsFacts`, `EventsLedger` | `SuccinctVApp.sol`, `Receipts.sol` |
| staking contract, vaults | `Staking`, `StakingEvents` | `StakingSpec`, `StakingRules`, `StakingEventsSpec` | `StakingBank`, `StakingFacts`, `StakingUnstake`, `StakingLaws`, `StakingExact`, `StakingBacked`, `StakingValue`, `StakingLive`, `StakingRights`, `StakingViews`, `StakingRulesFacts`, `StakingRulesLive`, `StakingEventsFacts`, `StakingEventsTold` | `SuccinctStaking.sol`, `ProverRegistry.sol`, `IntermediateSuccinct.sol`, `SuccinctProver.sol`, `StakedSuccinct.sol` |
| receipt tokens | `Shares` | `SharesSpec` | | the same token contracts, called directly |
| example program | `Prime` | | `PrimeFacts` | `programs/examples/*/src/main.rs` |
| governance | `Votes`, `Governor` | `GovernorSpec` | `VotesFacts`, `GovernorFacts`, `GovernorRun` | `SuccinctGovernor.sol`, `IntermediateSuccinct.sol` (votes), `SuccinctProver.sol` 46-111 |
| contracts together | `Network` | `NetworkSpec` | `NetworkFacts`, `NetworkRun`, `NetworkSettle`, `NetworkStake`, `NetworkOwner`, `NetworkValue` | calls between the contracts, `AtomicDeployer.sol` |
| leaving and rules | | `LeaveSpec`, `RulesSpec`, `GovernedSpec` | `StakingLeave`, `NetworkLeave`, `NetworkRules`, `NetworkVotes` | as above; owners, settings and votes |
| pricing | `Pricing` | `PricingSpec` | `PricingFacts` | `crates/network/pricing` |
| artifacts | `Chars`, `Artifacts` | `ArtifactsSpec` | `ArtifactsFacts` | `crates/network/artifacts` |
| artifact store | `ArtifactStore` | `ArtifactStoreSpec` | `ArtifactStoreFacts` | `crates/network/artifacts` 71-382, 455-475, 727-748 |
| interactive programs | `Flow` | | | (free monad; no source) |
| RPC retries | `Retry` | `RetrySpec` | `RetryFacts` | `crates/network/rpc/src/retry.rs` |
| prover node | `Node` | `NodeSpec` | `NodeFacts` | `crates/node/core/src/serial.rs` |
| running node | `NodeSystem` | `NodeSystemSpec` | | `crates/node/core/src/lib.rs`, background task of `serial.rs` |
| monitor | `Monitor` | `MonitorSpec` | | `SerialMonitor` of `serial.rs`, counters |
| calibrator | `Calibrator` | `CalibratorSpec` | `CalibratorFacts` | `crates/node/calibrator/src/lib.rs`, `bin/node/src/main.rs` |
| amounts as text | `Amount` | `AmountSpec`, `MarketSpec` | `AmountFacts` | ruint's `U256::from_str`, `fetch.rs`, `provider.rs` |

The theorems of the properties are in `Props_*.v`, which contain nothing else; each is closed by `exact` of a
lemma of the facts files or of `Proofs_*.v`. The concrete cases are in `Toy*.v`.

## 2. Conventions

* **One program, several storages.** `execute` is generic over two `Storage` implementations in Rust. In
  the model it is one program in a small free monad whose operations are exactly the calls of the
  `Storage` trait made by the code, plus reads and writes of the scalar fields of `VAppState`.
  Interpreters run that program on the full Merkle storage, on the sparse storage and on a plain map. A
  panic stops the program but keeps the mutations made so far, as `&mut self` does.
* **Numbers.** `U256` and addresses are `N` with explicit range checks in every operation. `u64 +=` wraps
  modulo 2^64, since the workspace sets no `overflow-checks`. Checked Solidity arithmetic reverts.
  `f64` values are exact rationals rounded to nearest even after each operation, with infinities.
* **Contracts.** A contract is a state and one function per external call giving a new state with events,
  or a revert. A history is any list of calls by any callers at any times; a reverted call leaves the
  state unchanged. Calls into other contracts are function calls, in the order of the source.
* **Interactive programs.** The retry helper and the node are programs in a free monad whose operations
  are RPCs, clock readings, waits and calls of the proving task. `runs p trace x` says that program `p`
  can have the observable trace `trace` and end with `x`. Answers are arbitrary, so a theorem about all
  traces is a theorem about all behaviours of servers, clocks and provers. Theorems about `runs` come
  with a totality statement or a liveness theorem where an empty set of traces would make them vacuous.
* **Concurrency.** Tasks that share a channel are modelled by all interleavings of their messages.
* **Refutations.** A property one would expect but which is false of the code is stated as
  `..._refuted : exists ...` with a computed witness, and described in `properties.jsonl` as what the
  code does.

## 3. Hashing

A global injectivity assumption for a 256-bit hash is inconsistent, and "P or a collision exists" is
trivially true by counting. Binding theorems therefore assume `collision_free (keccak E) l`: *no two
different strings of this explicitly computed finite list (the strings hashed in the run at hand) have the
same hash, and none hashes to zero where the code treats zero as absent*. Examples instantiate the
hypothesis with a computable toy hash, for which it is checked by computation.

## 4. Properties

`properties.jsonl` states each property; `MANIFEST.json` lists the theorems. "How" names the main argument.

| id | what is modelled | how it is proved | theorems |
|---|---|---|---|
| C01 | `execute` on the full storage; sum over all accounts | exact step relation (C44), sum lemma per transaction, induction on the history | `C01_funds_conserved` |
| C02 | same | step relation; balances compared pointwise with the list of payments the messages ask for | `C02_balances_exact` |
| C03 | table of processed ids | "an id stays true" invariant plus the replay check, over any history between the two executions | `C03_message_once` |
| C04 | revert branches | inversion of the step relation | `C04_revert_is_clean` |
| C05 | transaction counter | inversion, induction | `C05_counter` |
| C06 | on-chain cursor and block fields | inversion, induction on the history | `C06_onchain_order` |
| C07 | balance decreases | from the payment list of C02 and the signature conditions of each transaction | `C07_authorised` |
| C08 | owner, signer, staker share | inversion per transaction kind | `C08_account_fields` |
| C09 | checks of the Clear branch | inversion to an independent list of signed messages | `C09_clear_requires_signatures` |
| C10 | cost arithmetic | arithmetic from the Clear inversion, price bound signed by the requester | `C10_requester_maximum` |
| C11 | `fee` | arithmetic on all 256-bit inputs, domain characterised exactly | `C11_fee_split`, `C11_fee_domain` |
| C12 | receipts and their ABI form | induction on the history; ABI facts | `C12_receipts`, `C12_receipt_on_l1` |
| C13 | checked arithmetic | invariant "balances fit 256 bits"; every wrapping operation equals the exact one | `C13_balances_fit`, `C13_no_wrap` |
| C14 | domain and variant checks | inversion; the exception has a witness | `C14_signed_message_checked`, `C14_fulfil_ignored_when_punishing` |
| C15 | zkVM program around `execute` | case analysis of the program; non-atomicity by a witness | `C15_panic_commits_nothing`, `C15_published_is_clean`, `C15_commit_means_no_panic`, `C15_execute_atomic_refuted` |
| C16 | bottom-up layered root | equality with the recursive textbook tree, for any order of insertion | `C16_root_is_textbook`, `C16_root_order_independent` |
| C17 | `proof`, `verify_proof` | induction on the height | `C17_proofs_verify`, `C17_out_of_range` |
| C18 | `verify_proof_with_hash` | induction on the path with the collision list | `C18_proofs_bind` |
| C19 | `compute_node` and the cache | cache invariant over all sequences of operations | `C19_cache_invisible` |
| C20 | `calculate_new_root` | invariant on the node table over the processed proofs | `C20_incremental_root`, `C20_incremental_root_sound`, `C20_rejects` |
| C21 | `SparseStorage` | direct, against the set of proven keys | `C21_only_proven`, `C21_accepts_iff_valid`, `C21_write_read` |
| C22 | two interpreters | simulation by induction on the program | `C22_sparse_simulates_full`, `C22_full_never_misses` |
| C23 | zkVM program | C18, C20, C22 composed along the batch | `C23_commit_is_true` |
| C24 | zkVM program, honest witnesses | completeness of C17, C20, C22 | `C24_honest_commits` |
| C25 | aggregation program | induction on the list of steps; composition with C23 | `C25_commits_exactly`, `C25_aggregate_is_true` |
| C26 | root of the whole state | binding of the tree and of the scalar fields | `C26_root_binds` |
| C27 | 20-byte index of ids | arithmetic on byte strings | `C27_marks`, `C27_blocks`, `C27_no_other_blocks` |
| C28 | ABI encoder and decoder | round trip, injectivity | `C28_public_values_decode`, `C28_public_values_injective`, `C28_receipts_injective`, `C28_committed_bytes_decode` |
| C29 | prost encoder | unique decoding of field lists; separation by variant | `C29_same_type_injective`, `C29_no_cross_type`, `C29_accepted_fit_roles`, `C29_signed_bytes_have_one_use`, `C29_ids_bind`, `C29_approval_is_no_message` |
| C30 | interpreters | simulation between any two storages holding the same data | `C30_same_data_same_execution`, `C30_like_a_plain_map`, `C30_touched_is_all` |
| C31 | contract as state machine | invariant over all histories of calls | `C31_queue_faithful`, `C31_step_effect`, `C31_other_steps_refused`, `C31_past_is_fixed` |
| C32 | contract and ledger together | invariant relating token balance, unprocessed deposits and ledger total; uses C12, C23, C25 | `C32_solvent`, `C32_payable`, `C32_payments_exact` |
| C33 | integer price arithmetic | arithmetic | `C33_amount_in_wei`, `C33_price_per_pgu`, `C33_tick` |
| C34 | chunking, tasks, channel, reassembly | induction over every interleaving | `C34_s3`, `C34_https`, `C34_whole`, `C34_schedulable`, `C34_every_position_once` |
| C35 | `retry_operation`, `backoff` loop | induction over attempts; exact outcome | `C35_outcome`, `C35_budget`, `C35_attempts_bounded`, `C35_default_limit` |
| C36 | bidding half of a round | inversion of all traces | `C36_bid_justified`, `C36_one_acknowledged`, `C36_bids_in_time`, `C36_round_end`, `C36_ends` |
| C37 | proving half of a round | inversion of all traces | `C37_round`, `C37_never_both` |
| C38 | `is_prime`, u64 arithmetic | number theory over N; no overflow of the wrapping arithmetic | `C38_decides_primality` |
| C39 | keys and URLs of artifacts | list induction | `C39_key_determines`, `C39_extract_key`, `C39_extract_total` |
| C40 | staking contract | invariants over all histories (escrow held, claims bounded), exact effects | `C40_escrow_held`, `C40_escrow_accounting`, `C40_paid_once`, `C40_request_exact`, `C40_claims_bounded`, `C40_finish_exact`, `C40_slash_exact`, `C40_slash_once` |
| C41 | dispensing | accounting identity over histories with rate changes | `C41_dispensed_le_earned`, `C41_available_exact`, `C41_dispense_exact` |
| C42 | Clear | two runs compared; refutation by a witness | `C42_winner_irrelevant`, `C42_winner_paid_refuted` |
| C43 | tables of the ledger | invariant | `C43_monotone`, `C43_flags_true` |
| C44 | `execute` against a relational specification | both directions: every run satisfies it, everything it allows happens | `C44_specification` |
| C45 | contract cursor against ledger cursor | joint invariant; acceptance of the honest step | `C45_cursors_agree`, `C45_honest_step_accepted` |
| C46 | settings of the contract | case analysis of all calls; paused contract | `C46_only_owner`, `C46_paused` |
| C47 | value of a stake | share price monotone except for slashing; exact effect of each call | `C47_stake_keeps_value`, `C47_stake_exact` |
| C48 | unstake claims | escrow covers the sum of claims; exact payment | `C48_claims_backed`, `C48_paid_in_full`, `C48_unslashed_full` |
| C49 | finish after a complete slash | refutation by a computed history | `C49_paid_le_escrowed_refuted` |
| C50 | receipt token against vault shares | invariant over all histories | `C50_receipts_match` |
| C51 | acceptance of calls | each check discharged from the reachable-state invariant | `C51_finish_accepted`, `C51_request_accepted`, `C51_cancel_accepted`, `C51_slash_accepted`, `C51_dispense_accepted` |
| C52 | pending slash | case analysis of all calls | `C52_pending_slash_freezes` |
| C53 | rights of callers | case analysis of all calls | `C53_settings_authorised`, `C53_slashes_authorised` |
| C54 | prover registry | invariant; exact changes | `C54_one_prover_each`, `C54_registry_changes`, `C47_stake_exact` |
| C55 | reading a price in dollars | rounding error analysis of rational floats | `C55_accepted_is_near`, `C55_accepts`, `C55_exact` |
| C56 | wrong answers to range requests | refutations by computed schedules | `C56_short_answer_noticed_refuted`, `C56_no_panic_refuted` |
| C57 | retried download | induction over attempts | `C57_first_success` |
| C58 | messages signed by the node | composition of the node with the ledger's checks | `C58_bid_verifies`, `C58_fulfilment_verifies` |
| C59 | bids under retries | refutation by a computed trace | `C59_single_bid_refuted` |
| C60 | unreported requests | refutation by a computed trace | `C60_every_request_resolved_refuted` |
| C61 | unknown proof modes | refutation by a computed trace | `C61_never_stops_refuted` |
| C62 | deposit, permitAndDeposit, createProver of the settlement contract | exact effect and acceptance by case analysis of the calls | `C62_deposit_exact`, `C62_deposit_accepted`, `C62_permit_exact`, `C62_permit_accepted`, `C62_create_prover_exact`, `C62_create_prover_accepted` |
| C63 | initialize, fork and the owner's calls | exact effect and acceptance by case analysis of the calls | `C63_setting_exact`, `C63_setting_accepted`, `C63_fork_exact`, `C63_fork_accepted`, `C63_deployment` |
| C64 | prost encoding of the eight signed bodies | round trip through an independent reader of the wire format (`WireSpec`), by induction over bytes and fields | `C64_messages_are_protobuf` |
| C65 | ABI encoding of the committed public values | equality with an independent ABI encoder (`WireSpec`), composed with the soundness of the two programs (C23, C25) | `C65_step_bytes`, `C65_aggregate_bytes` |
| C66 | root of the full ledger with its cached trees | cache invariant over histories (C18), then equality of the two recursions over the tree | `C66_root_is_commitment` |
| C67 | views `staked`, `proverStaked`, `unstakePending`, `previewUnstake` | exact values from the invariant; sums by rounding lemmas; payments one after the other against one payment of all | `C67_views_exact`, `C67_pending_exact`, `C67_pending_paid`, `C67_stakes_covered`, `C67_provers_covered` |
| C68 | all calls of the staking contract | forward: each call inverted to its rule (`StakingRulesFacts`); backward: each rule run without error (`StakingRulesLive`), and rules are deterministic | `C68_rules_followed`, `C68_rules_accepted` |
| C69 | the receipt tokens as contracts anyone can call, with their restrictions | case analysis of all calls; projection of histories; invariant on the allowances of provers | `C69_only_allowances`, `C69_staking_undisturbed`, `C69_vaults_serve_staking`, `C69_reward_is_deposit` |
| C70 | `Calibrator::calibrate`, f64 operations as exact rationals | relative error of each rounding in Q, added up over the whole formula | `C70_outcome`, `C70_earns`, `C70_no_gas` |
| C71 | the calibrate command and its output with two decimals | as C70, with the decimal parser and printer; refuted by a concrete command | `C71_printed`, `C71_printed_bid_earns_refuted` |
| C72 | options of the node, `U256::from(f64)` | parser lemmas of C34, rounding to a whole number; refuted by a concrete option | `C72_options`, `C72_bid_unit_refuted` |
| C73 | the running node: bidder, prover, background task, registry, in any interleaving | invariant over runs; programs as trees: the prover asks the registry before each fulfilment | `C73_rounds`, `C73_background`, `C73_registry_answers`, `C73_never_proved`, `C73_aborted` |
| C74 | `Node::run`: rounds, monitor, return value | inversion of the last step; every question of the tree has a possible answer; refuted by a concrete run | `C74_returned`, `C74_last`, `C74_goes_on`, `C74_failure_reported_refuted` |
| C75 | reading 256-bit integers from text (`U256::from_str` of ruint), in the ledger | induction over the digits; text of a number as a relation; transfers by C44 | `C75_amounts`, `C75_decimal`, `C75_transfer` |
| C76 | a round of bidding of the node, then a clear carrying the bid, executed by the ledger | the bid's contents from the node's tree of runs, decimal digits read back (C75), effect by C44 | `C76_settled`, `C76_as_any_other` |
| C77 | `fetch_balance`, `ProvePrice::parse` | runs of the retry loop (C55), error bound of the price (C54), range of times | `C77_balance`, `C77_price_read`, `C77_price_accepts` |
| C78 | `SerialMonitor::record`, the counters of `NodeMetrics`, `humantime::format_duration` | an automaton over the prover's runs (proof made, counted, sent), all interleavings of its updates with the readings, error bounds of the printed numbers | `C78_counted`, `C78_line`, `C78_quiet`, `C78_disks`, `C78_disk_used_refuted`, `C78_fulfilled_refuted` |
| C79 | votes of $iPROVE (checkpoints, delegation) with staking, $PROVE and the governor in one world | invariant over all runs: checkpoints are ordered, each prover is its own delegate, traces give the vault balances at the end of each second | `C79_votes`, `C79_past`, `C79_total`, `C79_unimpeded`, `C79_delegate` |
| C80 | proposals: propose, cancel, vote, execute, with the states of a proposal | invariant over all runs relating each proposal to the log; exact conditions by case distinction; prefixes of runs | `C80_record`, `C80_total`, `C80_propose`, `C80_cancel`, `C80_vote`, `C80_execute`, `C80_passed`, `C80_voice` |
| C81 | who can change settings and settle slashes when the governor owns the staking contract | inversion of all calls (C53); ownership by induction over runs; refuted by a concrete run | `C81_only_by_vote`, `C81_owner`, `C81_in_time`, `C81_enforced`, `C81_in_time_refuted` |
| C82 | settlement contract, staking, tokens and governor in one state, with the calls between them; the deployment | every run of the whole is projected to a run of each part, by induction over the log, so that the theorems about the parts apply | `C82_deploys`, `C82_deployed`, `C82_governance`, `C82_staking`, `C82_settlement`, `C82_accepts` |
| C83 | the same, with the ledger of the accepted steps | C32 and C67 for the projected runs; staking never touches what the settlement contract holds | `C83_backed` |
| C84 | the same; `createProver` through both contracts | invariant relating registry, queue and log; C45 for the ledger | `C84_owners`, `C84_queue`, `C84_create` |
| C85 | the same; payment of withdrawals, rewards | exact balances by induction over the receipts; bounds of the share price; acceptance by C45 and the limits of the vaults | `C85_step_pays`, `C85_reward_value`, `C85_honest_step` |
| C86 | the same; slash requests | invariant over all runs: the settlement contract makes no request; then C39 and the value of stakes | `C86_no_slash`, `C86_stake_kept` |
| C87 | the same; views of stakes and claims | no claim is younger than now; price of shares never falls without slashes (invariant over histories); acceptance by C68's rules; then sums over payments | `C87_request`, `C87_finish`, `C87_leave` |
| C88 | the same; owners, settings, proposals | induction over the continuation of a log, one call at a time | `C88_settlement`, `C88_renounced`, `C88_locked`, `C88_staking`, `C88_staking_renounced` |
| C89 | the same; votes over the log of all contracts | every run of all contracts has a run of governance with the same states at every time and the same votes and proposals; then C80 and C88 | `C89_passed`, `C89_settlement`, `C89_staking`, `C89_executable` |
| C90 | every event and returned value of the settlement contract, with the state it is emitted in | each kind of event is a list of changes from the old to the new value of a field; induction over histories, call by call; queue by C31's invariant | `C90_history`, `C90_settings`, `C90_blocks`, `C90_queue`, `C90_money`, `C90_holdings`, `C90_returns` |
| C91 | the same, with the ledger behind the accepted steps | receipts of a batch are those of its transactions (C44); induction over histories with the invariant of C32; actions are equal because their encodings are | `C91_inwards`, `C91_outwards` |
| C92 | the input recorded for a batch (proofs of the keys it touches), the transition program on it, and the settlement contract | what a run looks up is what it records (a predicate on programs, proved like the typing of the ledger); the program then agrees with the ledger (C17, C22); acceptance from C45; the queue by induction over the pending transactions | `C92_batch_provable`, `C92_batch_settles`, `C92_queue_provable`, `C92_queue_settles`, `C92_withdrawal_provable`, `C92_withdrawal_settles` |
| C93 | all events of the staking contract, $stPROVE and the rewards, and the returned values | what each call changes and emits is one of twelve effects (proved from the same facts as C40 to C54); each record of readings is kept by every effect, by induction over histories; payments claim by claim | `C93_history`, `C93_settings`, `C93_provers`, `C93_stakers`, `C93_slashes`, `C93_held`, `C93_same_events`, `C93_money`, `C93_returns` |
| C94 | uploads, copies and downloads as programs that make requests to a store, any number of them interleaved and stopped anywhere | what each program asks for, by its steps; where bytes come from, by induction over the history; the last upload by position in the history | `C94_origin`, `C94_latest`, `C94_gives_up`, `C94_only_writers`, `C94_copy`, `C94_copy_new`, `C94_parallel`, `C94_parallel_untorn_refuted`, `C94_parallel_empty_refuted`, `C94_copy_equal_refuted`, `C94_copy_keeps_refuted`, `C94_failed_upload_refuted` |

## 5. Trusted base

* **Coq's kernel** (8.16.1) and its reading of the `.v` files. No kernel check is switched off.
* **Assumptions of the theorems.** Every theorem of the `Props_*` files is followed by `Print Assumptions`,
  and each prints `Closed under the global context`: no axioms. The whole development loads std++, which
  loads ssreflect; `coqchk` therefore lists the seven constants of `Coq.ssr.ssrunder.Under_rel` (a sealed
  module of the standard library). No theorem depends on them.
* **The reading of the source.** That the model files say what the Rust and Solidity files do is checked by
  people only. Every definition cites the lines it models. Section 8 describes tests of the other side:
  that the theorems notice when the model is changed.
* **External code, modelled as documented.** alloy's ABI encoder, prost's encoder, `BTreeMap`, Rust's `f64`
  (parsing, addition, multiplication, division, rounding, conversion), ruint's `U256::from(f64)`
  and `U256::from_str`, the range of `time::OffsetDateTime`, `humantime::format_duration`, the `backoff` crate, `tokio` channels and
  tasks, OpenZeppelin's ERC20, ERC20Permit, ERC4626, ERC20Votes, Governor with its extensions
  (settings, simple counting, votes, quorum fraction), Ownable and Pausable, and the
  EVM's rule that a revert undoes the whole call. Their sources are not in /repo.
* **External code, left arbitrary.** keccak256, ECDSA recovery, parsing of 256-bit integers in the ledger
  (C75 and C76 have ruint's as a hypothesis), serde_json, the
  SP1 verifier inside the ledger (`env`, file `Env.v`), the on-chain proof verifier and ABI decoder
  (`l1_env`, file `VApp.v`), servers, clocks, the proving task and task scheduling. A theorem that needs
  something of them has it as a named hypothesis. These hypotheses are: output ranges (`env_ok`), absence
  of collisions on an explicit finite list (section 3), soundness of step proofs (C25, C32, C45), and a
  decoder inverting the encoder (C31, C32, C45).

## 6. What is modelled and what is not

Modelled, function by function:

* `crates/vapp/src`: `state.rs`, `merkle.rs`, `sparse.rs`, `storage.rs`, `signing.rs`, `receipts.rs`,
  `sol.rs`, `transactions.rs`, `fee.rs`, `u256.rs`, `utils.rs`, `verifier.rs`, `errors.rs`, `input.rs`.
  Left out: log messages and the texts of errors.
* `crates/types/network`: the signed bodies used by the ledger and the node, their binary encoding,
  `hash_with_signer`. Left out: the gRPC client and server code generated from the `.proto` files and the
  messages that neither the ledger nor the node uses.
* `programs/vapp/stf`, `programs/vapp/aggregation`, `programs/examples/is-prime`,
  `programs/examples/fibonacci` (the last two files are identical).
* `contracts/src/SuccinctVApp.sol`, `SuccinctStaking.sol`, `libraries/*`, `tokens/Succinct.sol`, `tokens/IntermediateSuccinct.sol`,
  `SuccinctProver.sol`, `StakedSuccinct.sol`, with what they inherit from ERC20 and ERC4626.
  Left out: gas, the proxies and upgrades, reentrancy by tokens (none of
  the tokens calls back).
* `contracts/src/SuccinctGovernor.sol`, the votes of $iPROVE, and `propose`, `cancel`, `castVote` of a prover. Left out:
  Ether, votes and delegations by signature, reasons of votes, `relay`, and proposals whose actions call the governor's own
  functions for proposals and votes or delegate votes. Proposals may call any other contract, which succeeds or not.
* The contracts together as `contracts/script/utils/AtomicDeployer.sol` deploys them, with the calls between them. Left
  out: the setters of the deployer, and proposals that make deposits, steps or provers (those that call the functions for
  the owner of the settlement contract are modelled).
* `crates/network/pricing/src/math.rs`, `provider.rs`, `crates/network/rpc/src/retry.rs`, `fetch.rs`.
* `crates/network/artifacts/src/lib.rs`: keys, names, uploads, copies and downloads. How items are written as bytes
  (`bincode`) and how a URI is parsed are parameters. Left out: regions, the cache of clients and the repeated attempts
  inside the S3 client.
* `crates/node/core/src/serial.rs`: one round of bidding and one round of proving, with retries; the
  background task that keeps the registry of unexecutable requests. `crates/node/core/src/lib.rs`: `run`, with all
  tasks interleaved. The counters and the disks of the monitor. Left out: pauses, waiting for locks, and what the monitor
  measures of processor, memory and graphics card.
* `crates/node/calibrator/src/lib.rs`; of `bin/node/src/main.rs` the calibrate command and what is made of the
  options of the prove command.

Not modelled: `crates/network/rpc/src/grpc.rs`, `crates/network/utils`, `crates/node/metrics`, the start-up of `bin/node`,
the other deployment scripts, mocks and tests.

## 7. Findings

Behaviour found while modelling that a reader of the interfaces would not expect. Those with a property id
are proved.

* C42: a clear never reads the winner named in the settlement.
* C14: the fulfilment message inside a punished clear is never inspected.
* C15: `execute` is not atomic on a panic; the callers make it so.
* C27: ids of processed messages are looked up by their first 20 bytes.
* C49: after a complete slash the factor of a prover's escrow pool starts again, so a wiped claim can be paid
  from another staker's escrow. Slashing cannot happen at present, since the settlement contract never
  calls `requestSlash`.
* C56: a short answer to a range request is filled up with zeros; a long one panics. A concurrency of 0
  divides by zero.
* C59: a retried bid may reach the server several times.
* C60: after a failed download an assigned request is neither fulfilled nor reported.
* C61: a request with an unspecified proof mode stops the node.
* C45: a withdrawal receipt to an address that refuses it (the zero address, an undeployed vault) makes the
  whole step revert.
* A clear does not check that the signer of the fulfilment is the prover or the bidder.
* Anybody may trigger a withdrawal for a prover account; a prover whose owner is zero counts as a plain
  account. The full-balance withdrawal described in PROTOCOL.md is not implemented.
* `createProver` accepts the zero address; `fork` does not touch the queue of on-chain transactions.
* `programs/examples/fibonacci` tests primality.
* `PriceError::Overflow` cannot be returned.
* C75: the ledger reads an empty amount and "0x" as zero; amounts may be hexadecimal, octal or binary and contain
  underscores.
* C78: the number of fulfilled requests in the log counts proofs made, whether or not the network accepts them; what is
  logged as used disk space is the free space; in the first second of proving the throughput is "inf MHz"; since each
  counter has its own lock, a line may show the cycles of one proof more than the time.
* C81: the time after which anybody may cancel a slash request is computed from the governor's present delay and period, so
  a vote that shortens them lets the slash be cancelled while it is being voted on.
* C79, C80: $iPROVE in escrow has no vote but counts for the quorum; a prover with a pending slash keeps its votes, also on
  this slash; an account without stake can vote, with weight zero; delegating $iPROVE has no effect, since only provers hold
  it and they cannot delegate to others.
* C86: only the settlement contract may request a slash and it has no function that does, so in the deployed system no
  prover can be slashed; only the mock of the settlement contract in the tests makes such requests.
* The deployer makes the given owner, not the governor, the owner of the staking contract.
* C88: `renounceOwnership` of the settlement contract is not blocked while it is paused. Afterwards nobody can unpause
  it, no step or deposit is ever accepted again, and all balances of the ledger stay locked. Provers cannot be created
  either, since that calls the settlement contract. Stakers can still leave (C87).
* C90: the times of blocks are in no event; a completed withdrawal has the event `Withdraw` but no `TransactionCompleted`; the
  data in `TransactionCompleted` are those of the receipt, which may have more bytes than were announced.
* C92: two messages of one batch whose ids agree in the 160 bits used as storage key cannot be recorded in one input, so the
  program refuses such a batch; it has to be split.
* C93: `initialize` sets the first dispenser without a `DispenserUpdate` event; it is told only as the previous value of
  the first update. `Slash` does not tell how much came from escrow and how much from the vault. Rewards are told by no
  event of the staking contract, only by the `Deposit` event of the $iPROVE vault.
* C94: a parallel download does not notice that the artifact is replaced meanwhile and returns a mixture of both; it fails
  for an empty artifact, which a plain download returns. `copy` reports success when the other bucket already has another
  artifact of this name, and replaces that one when the request that looks for it fails. With an `s3:` URI only the bucket is
  taken from the URI; the path is ignored in favour of the type and the name of the artifact.
* The body of a failed fulfilment has neither domain nor variant.
* C71: the calibrate command multiplies the price by the price of $PROVE where it should divide.
* C72: the `--bid` option of the node is documented in $PROVE per billion PGU but used in wei per PGU; a bid below
  one half becomes zero.
* C70: if the execution report has no gas, the calibrated price is infinite.
* C74: when the monitor fails, `run` stops the node and returns `Ok`.
* The background task holds the lock of the registry during its pause of five seconds (`serial.rs` 344-356), so the
  prover waits for it before each request and a proof is aborted up to five seconds late.

## 8. Tests against wrong programs

`seeded/LOG.jsonl` records wrong programs. Each is an edit of the model in a scratch copy, the way a
realistic bug would change the program. The copy is rebuilt with failed proofs skipped, so that one failure
does not hide others.

* `failed` lists the theorems whose statement is false of the wrong program and which indeed no longer
  prove.
* `also_failed` lists theorems that no longer prove because they use a lemma that failed; their own claim may
  still be true.
* `tightened` lists theorems that did still prove although their claim had become false, and were then
  strengthened in /verif.
* Edits of the ledger change the relation `StepSpec` in the same way where the relation is used as a lemma,
  so that the theorems are tested and not the lemma.
