{"id": "C01", "title": "Funds are conserved by every history of transactions", "statement": "Start from any ledger state and execute any sequence of transactions in which none panics. The sum of all account balances afterwards equals the sum before, plus the amounts of the applied deposits, minus the amounts of the applied withdrawals. In particular no transfer, delegation, clear, punishment or revert creates or destroys a token.", "quantifier": "every initial state, every finite sequence of transactions with arbitrary contents, signatures and proofs (including self-transfers and coinciding payer/payee/treasury/prover addresses)", "why_tests_cant": "aliasing between the parties of a transaction and arbitrary interleavings give unboundedly many cases; a test fixes one history", "anchors": ["crates/vapp/src/state.rs:VAppState::execute", "crates/vapp/src/sol.rs:Account::add_balance", "crates/vapp/src/fee.rs:fee"]}
{"id": "C02", "title": "Each applied transaction changes exactly the balances it should", "statement": "When execute applies a deposit, create-prover, delegate, transfer, withdraw or clear, every account's balance after is the balance before plus what that account is owed and minus what it pays by the transaction's terms; every account that is not a party is unchanged. The same formula holds when parties coincide.", "quantifier": "every state, every transaction, every account address", "why_tests_cant": "needs all aliasing patterns of up to six addresses and all 256-bit amounts", "anchors": ["crates/vapp/src/state.rs:execute_inner"]}
{"id": "C03", "title": "A signed message takes effect at most once", "statement": "After a transfer, withdrawal, delegation or proof request has been executed without panic (applied or reverted), every later attempt to execute a transaction carrying the same signed body from the same signer panics, at any later point of any history, no matter how the envelope (signature bytes, message format, accompanying bid/settle/execute/fulfill messages) is varied.", "quantifier": "every state, every signed body and signer, every later history, every re-packaging of the same body", "why_tests_cant": "replay may happen after an arbitrary later history and with arbitrary re-packaging", "anchors": ["crates/vapp/src/state.rs:execute_inner", "crates/types/network/src/lib.rs:HashableWithSender::hash_with_signer", "crates/vapp/src/storage.rs:StorageKey for RequestId"]}
{"id": "C04", "title": "A reverted transaction moves no money and is consumed", "statement": "When execute reports a revert: no account changes in any field, no account record appears or disappears, the on-chain cursor (tx id, block, log index) is unchanged, the transaction counter advances by one, the message id is retired, and the revert names the account that could not pay together with its true balance which is smaller than the reported requirement.", "quantifier": "every state and every transaction whose execution reverts", "why_tests_cant": "must hold for every reverting branch and every state", "anchors": ["crates/vapp/src/state.rs:execute", "crates/vapp/src/errors.rs:VAppRevert"]}
{"id": "C05", "title": "The transaction counter counts exactly the non-panicking transactions", "statement": "Over any history, the transaction counter grows by exactly one for every applied or reverted transaction and does not move for a panicking one.", "quantifier": "every state and history (counter wrap-around at 2^64 made explicit)", "why_tests_cant": "needs induction over histories", "anchors": ["crates/vapp/src/state.rs:execute"]}
{"id": "C06", "title": "On-chain transactions are applied exactly once, in order, with no gaps", "statement": "In any history without panics, the on-chain ids of the applied deposits and create-provers are exactly the consecutive integers starting at the ledger's cursor, and their (block, log index) pairs are strictly increasing lexicographically; off-chain transactions never move the cursor.", "quantifier": "every starting state and every history", "why_tests_cant": "needs induction over histories of arbitrary length", "anchors": ["crates/vapp/src/state.rs:validate_onchain_tx", "crates/vapp/src/state.rs:execute_inner"]}
{"id": "C07", "title": "Nobody's balance goes down without their authorisation", "statement": "If a non-panicking transaction lowers the balance of account A then one of these holds: a message recovered to signer A authorises it (transfer, self-withdraw, withdrawal fee, delegation fee, or A's own proof request inside a clear), or the transaction is a withdrawal out of a registered prover account A (owner non-zero), in which case the withdrawn tokens are paid out on L1 to A itself.", "quantifier": "every state, every transaction, every account", "why_tests_cant": "ranges over all adversarial transactions", "anchors": ["crates/vapp/src/state.rs:execute_inner", "crates/vapp/src/signing.rs:verify_signed_message"]}
{"id": "C08", "title": "Ownership, signer and staker share change only through their own transactions", "statement": "The owner and staker share of an account change only by an applied create-prover for that account; its delegated signer changes only by such a create-prover (to the owner) or by a delegation signed by its current owner (to the named delegate). No other transaction, applied or reverted, changes them.", "quantifier": "every state, every non-panicking transaction, every account", "why_tests_cant": "frame property over all transactions", "anchors": ["crates/vapp/src/state.rs:execute_inner", "crates/vapp/src/sol.rs:Account::set_owner,set_signer,set_staker_fee_bips"]}
{"id": "C09", "title": "A clear only pays when every designated party signed", "statement": "If a clear is applied as a successful execution, then: the bid was signed by the prover's delegated signer, the settlement by the auctioneer named in the request, the execution report by the executor named in the request, all five messages carry this ledger's domain and the right message type and the same request id, the prover is on the request's whitelist if there is one, the execution report says executed, its public values hash equals the request's if the request has one, and either the recursive verifier accepted (vk, public values hash) for a primary-version compressed proof or the verifier named in the request signed the fulfilment.", "quantifier": "every state and every clear transaction", "why_tests_cant": "ranges over all combinations of forged, mismatched or missing messages", "anchors": ["crates/vapp/src/state.rs:execute_inner (Clear)"]}
{"id": "C10", "title": "A requester never pays more than base_fee + max_price_per_pgu * gas_limit", "statement": "Whatever the bid, the execution report and the settlement say, an applied clear (success or punishment) lowers the requester's total payment by at most base_fee + max_price_per_pgu * gas_limit as written in the request they signed; for a success the payment is exactly bid price * pgus + base_fee.", "quantifier": "every state, every clear transaction", "why_tests_cant": "256-bit arithmetic over all values, incl. overflow", "anchors": ["crates/vapp/src/state.rs:execute_inner (Clear)", "PROTOCOL.md:Economic Guarantees"]}
{"id": "C11", "title": "The fee split is exact and fair", "statement": "For every amount and shares in bips, when the split succeeds the three parts sum exactly to the amount; protocol and staker parts are the floor of their (capped) percentage; the owner gets the remainder. It fails exactly when a share exceeds 10000 bips or amount*share exceeds 256 bits.", "quantifier": "every 256-bit amount and pair of shares", "why_tests_cant": "three 256-bit inputs", "anchors": ["crates/vapp/src/fee.rs:fee", "crates/vapp/src/u256.rs"]}
{"id": "C12", "title": "Receipts tell L1 exactly what happened", "statement": "Over any history without panics, the receipts emitted are, in order: one completed deposit / create-prover receipt per applied on-chain transaction carrying its on-chain id and unmodified action, one completed withdraw receipt per applied withdrawal carrying the account debited and amount debited (excluding fee), and nothing for any other or reverted transaction. The L1 encoding marks withdrawals with id 2^64-1.", "quantifier": "every history", "why_tests_cant": "induction over histories", "anchors": ["crates/vapp/src/state.rs:execute_inner", "crates/vapp/src/receipts.rs:VAppReceipt::sol"]}
{"id": "C13", "title": "Arithmetic never wraps", "statement": "Every balance stays below 2^256 in every reachable state and each balance update applied is the exact integer sum or difference; when the exact result would not fit the transaction panics instead.", "quantifier": "every state with balances below 2^256 and every transaction", "why_tests_cant": "all 256-bit values", "anchors": ["crates/vapp/src/u256.rs", "crates/vapp/src/sol.rs:Account::add_balance,deduct_balance"]}
{"id": "C14", "title": "Messages for another network or of another type are never accepted", "statement": "A transaction any of whose signed messages carries a domain different from the ledger's domain, or a type tag other than the one for its role, never completes without panic. The only exception is the fulfilment attached to a clear whose execution report says unexecutable: it is never looked at.", "quantifier": "every state and transaction", "why_tests_cant": "all malformed or cross-network messages", "anchors": ["crates/vapp/src/state.rs:execute_inner", "crates/vapp/src/utils.rs:tx_variant"]}
{"id": "C15", "title": "A panic during execution can never reach a published state", "statement": "If any transaction of a batch panics, the state-transition program commits nothing; consequently a published root always describes a state in which every transaction of the batch either fully applied or reverted. (execute itself is not atomic on panic: the in-memory state may be partially updated.)", "quantifier": "every batch, every panic point", "why_tests_cant": "every crash point of every batch", "anchors": ["programs/vapp/stf/src/main.rs:main", "crates/vapp/src/state.rs:execute"]}
{"id": "C16", "title": "The storage root depends only on the contents", "statement": "The root of a Merkle storage equals the textbook binary Merkle tree hash of its contents (empty leaves hash to zero) and hence is the same for any two sequences of inserts/updates/reads/proof queries that leave the same key-value contents.", "quantifier": "every sequence of storage operations, every tree depth up to 256 bits, every hash function", "why_tests_cant": "all operation histories", "anchors": ["crates/vapp/src/merkle.rs:MerkleStorage::root", "crates/vapp/src/merkle.rs:compute_zero_hashes"]}
{"id": "C17", "title": "Every honest proof verifies, for present and absent keys", "statement": "After any sequence of storage operations and proof queries, a proof produced for any in-range key verifies against the current root and states the key's true value (or its absence).", "quantifier": "every operation history (incl. every cache content reachable), every key", "why_tests_cant": "cache state depends on the whole history", "anchors": ["crates/vapp/src/merkle.rs:proof,compute_node,is_subtree_empty,verify_proof"]}
{"id": "C18", "title": "A verified proof cannot lie", "statement": "If a proof verifies against the root of a storage then the value it states for the key (present with value v, or absent) is the storage's true value, unless two of the explicitly listed byte strings hashed on the two paths collide (or one hashes to zero).", "quantifier": "every storage, every proof supplied by an adversary", "why_tests_cant": "adversarial input space", "anchors": ["crates/vapp/src/merkle.rs:verify_proof_with_hash"]}
{"id": "C19", "title": "The node cache is never stale", "statement": "Interleaving proof queries with inserts, entry updates and mutable gets never changes what root or later proofs return, compared to a storage that has no cache.", "quantifier": "every operation history", "why_tests_cant": "stale caches appear only after particular interleavings", "anchors": ["crates/vapp/src/merkle.rs:compute_node,insert,entry,get_mut"]}
{"id": "C20", "title": "Incremental root recomputation equals full recomputation", "statement": "Given true proofs for a set of keys against the old root and new values for some of those keys, the recomputed root equals the root of the full storage after writing those values; a key updated without proof or an invalid proof is rejected.", "quantifier": "every storage, every list of proofs in any order (with overlapping paths), every set of updates, every depth", "why_tests_cant": "path overlaps grow with tree depth", "anchors": ["crates/vapp/src/merkle.rs:calculate_new_root,calculate_new_root_sparse"]}
{"id": "C21", "title": "The sparse storage only exposes proven data", "statement": "After recovering a sparse storage from proofs against a root: reading or writing a key without a proof fails; reading a key with a proof gives exactly the proven value; duplicate or invalid proofs are rejected; pre-existing (untrusted) contents are discarded.", "quantifier": "every initial sparse contents, every proof list, every key", "why_tests_cant": "adversarial inputs", "anchors": ["crates/vapp/src/sparse.rs:recover,get,insert,entry,get_mut"]}
{"id": "C22", "title": "Running on proven data gives the same result as running on the full ledger", "statement": "If a transaction sequence executes on a sparse state that agrees with a full state on the witnessed keys without a missing-key error, then the full state gives the same receipts, reverts and panics, and afterwards they still agree on all witnessed keys while every unwitnessed key of the full state is untouched.", "quantifier": "every pair of agreeing states and every transaction sequence", "why_tests_cant": "simulation over all programs of storage accesses", "anchors": ["crates/vapp/src/state.rs:VAppState<A, R>", "crates/vapp/src/sparse.rs", "crates/vapp/src/storage.rs:Storage"]}
{"id": "C23", "title": "A committed state transition is a true one (soundness of the zkVM program)", "statement": "If the state-transition program commits (old root, new root, timestamp, receipts) on any input, and a full ledger has root old, then running the batch on that full ledger without panic yields exactly those receipts and a ledger with root new \u2014 unless listed hash inputs collide.", "quantifier": "every program input (witness) an adversarial prover may supply, every full ledger", "why_tests_cant": "adversarial witness space", "anchors": ["programs/vapp/stf/src/main.rs:main"]}
{"id": "C24", "title": "Honest batches can always be proven (completeness)", "statement": "Take any full ledger and any batch that executes on it without panic. If proofs are generated from the old ledger for the keys the execution touched, the state-transition program accepts that input and commits the ledger's old root, the new root and the receipts, provided touched request ids have distinct 160-bit prefixes.", "quantifier": "every ledger and every non-panicking batch", "why_tests_cant": "all batches", "anchors": ["programs/vapp/stf/src/main.rs:main", "crates/vapp/src/merkle.rs:get_touched_keys"]}
{"id": "C25", "title": "Aggregation composes state transitions faithfully", "statement": "The aggregation program commits exactly: old root of the first step, new root of the last, last timestamp, and all receipts in order; it commits only when consecutive roots match, timestamps do not decrease and every step proof verified. Composed with soundness of each step, the aggregated public values describe the execution of the concatenated batches.", "quantifier": "every non-empty list of steps", "why_tests_cant": "unbounded lists", "anchors": ["programs/vapp/aggregation/src/main.rs:main"]}
{"id": "C26", "title": "The state root binds the whole state", "statement": "Two ledgers with equal roots have the same domain, counters, cursors, accounts and processed-message sets, unless listed hash inputs collide.", "quantifier": "every pair of ledgers", "why_tests_cant": "pairs of states", "anchors": ["crates/vapp/src/state.rs:root", "crates/vapp/src/sol.rs:VAppStateContainer"]}
{"id": "C27", "title": "Processed-message lookups identify ids by their first 20 bytes", "statement": "Two messages are confused by the replay check exactly when the first 20 bytes of their 32-byte ids coincide; messages whose ids differ there never block one another.", "quantifier": "every pair of ids", "why_tests_cant": "2^512 pairs", "anchors": ["crates/vapp/src/storage.rs:StorageKey for RequestId"]}
{"id": "C28", "title": "L1 and the program agree on the encoding of public values and receipts", "statement": "The ABI encoding of the step public values, receipts and action payloads decodes back to the same values (hence is injective): a verifier of the encoded bytes learns exactly the roots, timestamp and receipts committed.", "quantifier": "every public value (any number of receipts of any payload length)", "why_tests_cant": "unbounded encodings", "anchors": ["crates/vapp/src/sol.rs:StepPublicValues,Receipt,Deposit,Withdraw,CreateProver", "programs/vapp/stf/src/main.rs:main"]}
{"id": "C29", "title": "Signed message encodings are unambiguous", "statement": "The binary encodings that are signed and hashed are injective: two bodies of the same type with the same bytes are the same body, and a body accepted in one role never has the same bytes as a body acceptable in another role, so a signature cannot be moved to a message of another type.", "quantifier": "all pairs of bodies of all eight message types", "why_tests_cant": "pairs of arbitrary messages", "anchors": ["crates/types/network/src/types.rs", "crates/types/network/src/lib.rs:hash_with_signer"]}
{"id": "C30", "title": "The storage back end does not influence execution", "statement": "The full Merkle storage behaves, for execute, like a plain key-value map: receipts, errors and contents do not depend on caches or key tracking; and every key read or written during execution is recorded as touched.", "quantifier": "every state and transaction", "why_tests_cant": "all executions", "anchors": ["crates/vapp/src/merkle.rs:Storage for MerkleStorage"]}
{"id": "C31", "title": "Settlement contract: on-chain queue is finalised in order, once, and faithfully", "statement": "In any sequence of contract calls, on-chain transactions get consecutive ids; a step finalises them in order without gaps, only with receipts whose variant and contents equal the recorded transaction, never more than were created, and each at most once; root, block number and timestamps advance as specified and any failing check leaves the contract unchanged.", "quantifier": "every sequence of contract calls by any callers", "why_tests_cant": "unbounded call sequences", "anchors": ["contracts/src/SuccinctVApp.sol:step,_handleReceipts,_createTransaction", "contracts/src/libraries/Receipts.sol"]}
{"id": "C32", "title": "Settlement contract stays solvent", "statement": "In any sequence of deposits, prover creations and steps whose public values come from true state transitions starting from the genesis ledger, the contract's $PROVE balance equals (at least) the sum of all ledger balances at the current root plus all deposits not yet finalised; hence every withdrawal receipt can be paid.", "quantifier": "every interleaving of contract calls and batches", "why_tests_cant": "global invariant across two systems", "anchors": ["contracts/src/SuccinctVApp.sol", "programs/vapp/stf/src/main.rs", "crates/vapp/src/state.rs"]}
{"id": "C33", "title": "Price conversion rounds in the consumer's favour", "statement": "The wei amounts computed for a USD target never exceed the target's value, are the largest integers with that property, tick rounding yields the largest multiple not above the input, and an error is reported exactly for a zero price.", "quantifier": "every pair of 64-bit inputs / 256-bit amounts", "why_tests_cant": "all numeric inputs", "anchors": ["crates/network/pricing/src/math.rs"]}
{"id": "C34", "title": "Parallel artifact download reassembles the file under every schedule", "statement": "If every range request that gives data gives the bytes of that range, then whatever the order in which chunks arrive and whatever the limit on concurrent tasks (at least 1), a parallel download returns exactly the bytes of the object if every chunk is served within five attempts, and an error otherwise; it never panics and never returns other bytes. The ranges asked for cover every position exactly once.", "quantifier": "every file size, every chunk arrival order, every concurrency, every failure pattern", "why_tests_cant": "schedules", "anchors": ["crates/network/artifacts/src/lib.rs:download_s3_file_par,download_https_file_par"]}
{"id": "C35", "title": "Bounded retry with correct classification", "statement": "The RPC retry helper tries an operation again exactly after a temporary error (four status codes, or one of eight phrases in the message, ignoring case) and only if the next pause ends within the time limit; pauses are half to one and a half times 1, 1.5, 2.25, ... seconds. It returns the result of the last attempt, never success without a successful attempt. The pauses never exceed the limit; with the default of two minutes there are at most twelve attempts.", "quantifier": "every operation, sequence of outcomes, clock and random number", "why_tests_cant": "all outcome sequences", "anchors": ["crates/network/rpc/src/retry.rs:retry_operation"]}
{"id": "C36", "title": "Reference prover node never over-commits when bidding", "statement": "In each round the bidder sends bids only if nothing is assigned to its owner, only on the one request it was offered, only with its configured price and prover, only if the estimated proving time fits before the deadline (up to a second and a relative error of 2^-51), and never after one that was acknowledged. A request with enough time is bid on. A round always ends, without panic.", "quantifier": "every RPC response, clock value and configuration", "why_tests_cant": "all inputs", "anchors": ["crates/node/core/src/serial.rs:SerialBidder::bid"]}
{"id": "C37", "title": "Reference prover node resolves every assigned request", "statement": "In each round the requests assigned to the node's owner are dealt with in order: one known as unexecutable is reported as failed and not proved; every other is executed and proved in the mode asked for and fulfilled with the proof produced, or reported as failed, with retries. No request is both fulfilled and reported as failed. A round ends early only because of an error in listing requests, or a request that cannot be downloaded, has no mode, or whose proof cannot be serialised.", "quantifier": "every outcome of execution, proving, cancellation and RPC", "why_tests_cant": "all outcome combinations", "anchors": ["crates/node/core/src/serial.rs:SerialProver::prove"]}
{"id": "C38", "title": "The example program decides primality", "statement": "For every 64-bit n, the is-prime guest stops without panic and commits true exactly when n is prime, even for those n where the square of the trial divisor wraps around.", "quantifier": "every u64 input", "why_tests_cant": "2^64 inputs", "anchors": ["programs/examples/is-prime/src/main.rs:is_prime"]}
{"id": "C39", "title": "Artifact ids and storage keys are unambiguous", "statement": "The S3 key derived for an artifact determines its type prefix and id; extracting the artifact name from the URI the client builds gives back the id.", "quantifier": "every artifact id without '/'", "why_tests_cant": "all strings", "anchors": ["crates/network/artifacts/src/lib.rs:extract_artifact_name,get_s3_prefix,get_s3_key"]}
{"id": "C40", "title": "Staking: unstake claims and slashing never pay out more than is escrowed", "statement": "In any sequence of staking calls, the escrow pool never goes negative, the sum redeemed for unstake claims plus the amount slashed from escrow never exceeds what was escrowed, a slash burns exactly min(claim, balance+escrow), each slash claim resolves at most once, and an unstake claim pays only after the waiting period and at most once.", "quantifier": "every sequence of staking calls", "why_tests_cant": "unbounded call sequences", "anchors": ["contracts/src/SuccinctStaking.sol"]}
{"id": "C41", "title": "Staking: dispensing never exceeds what was earned", "statement": "At any time the total dispensed is at most the integral of the dispense rate over time, for any sequence of rate updates and dispenses. What may still be dispensed is exactly the difference, and a dispense moves exactly the requested amount (or, for the marker 2^256-1, exactly that difference) from the contract to the $iPROVE vault and changes nothing else.", "quantifier": "every sequence of rate changes and dispenses", "why_tests_cant": "unbounded call sequences", "anchors": ["contracts/src/SuccinctStaking.sol:maxDispense,dispense,_updateDispenseRate"]}
{"id": "C42", "title": "The winner named in a settlement has no influence on who is paid", "statement": "One would expect: if a clear pays a prover then the auctioneer's signed settlement names that prover as winner. This is false: an accepted clear can pay a prover other than the named winner. In general, replacing the settlement by any other one signed by the same auctioneer for the same request, whatever winner it names, changes neither the result nor the effect of a clear.", "quantifier": "every state, every clear transaction, every replacement settlement", "why_tests_cant": "all message combinations", "anchors": ["crates/vapp/src/state.rs:execute_inner (Clear)", "crates/types/network/src/types.rs:SettleRequestBody.winner"]}
{"id": "C43", "title": "Execution is monotone in what it remembers", "statement": "Across any history, with or without panics: a processed message id stays processed and an account record, once present, is never removed. From the initial state on, every stored processed-flag is true.", "quantifier": "every history", "why_tests_cant": "induction over histories", "anchors": ["crates/vapp/src/state.rs:execute_inner"]}
{"id": "C44", "title": "The transition relation is exactly what execution does", "statement": "A readable transition relation on plain maps (one rule per way a transaction can apply or revert, listing its conditions and its effect) holds between two ledgers exactly when executing the transaction on the full Merkle-backed ledger does not panic and has that result and effect.", "quantifier": "every state, transaction, result and successor", "why_tests_cant": "equivalence of a relation and a program on unbounded states", "anchors": ["crates/vapp/src/state.rs:execute,execute_inner"]}
{"id": "C45", "title": "The ledger and the contract agree on the next on-chain transaction, so honest steps are accepted", "statement": "From deployment on, along every sequence of accepted steps with sound proofs, deposits, prover creations and token transfers, the next on-chain transaction id expected by the ledger is one more than the last one finalised by the contract. A step whose batch takes its on-chain transactions from the contract's queue, whose withdrawals go to receivers that accept tokens, and which passes the caller, root, timestamp and proof checks, is never rejected.", "quantifier": "every deployment, every log of calls of any length, every batch", "why_tests_cant": "unbounded interleavings of calls, and agreement between two programs", "anchors": ["contracts/src/SuccinctVApp.sol:step,_handleReceipts", "crates/vapp/src/state.rs:validate_onchain_tx"]}
{"id": "C46", "title": "Only the owner changes settings, and a paused contract stands still", "statement": "If a call to the settlement contract changes its verification key, auctioneer, staking or verifier address, minimum deposit, owner or pause flag, then the caller is the owner and the call is an administrative one or a fork. While the contract is paused, only such calls of the owner succeed.", "quantifier": "every call, caller and state", "why_tests_cant": "all calls in all states", "anchors": ["contracts/src/SuccinctVApp.sol:fork,updateStaking,updateVerifier,updateAuctioneer,updateMinDepositAmount,pauseVApp,unpauseVApp"]}
{"id": "C47", "title": "A stake loses value only by slashing", "statement": "Staking takes exactly the stated amount of $PROVE from the staker, and the receipts issued are worth no more than that. From then on, whatever calls anyone makes, the $PROVE value of a stake as reported by the contract does not fall as long as its owner requests no unstake and its prover is not slashed.", "quantifier": "every deployment and every sequence of calls of any length", "why_tests_cant": "unbounded sequences of calls; rounding of two nested vaults", "anchors": ["contracts/src/SuccinctStaking.sol:stake,permitAndStake,staked", "contracts/src/tokens/IntermediateSuccinct.sol", "contracts/src/tokens/SuccinctProver.sol"]}
{"id": "C48", "title": "Unstake claims are backed and paid in full", "statement": "As long as no slash reduced a prover's slash factor to zero, all open claims on it together are worth at most its escrow, so every matured claim is paid exactly its value (what was escrowed for it, reduced in proportion to the slashes since), at no worse a $PROVE rate than quoted before the call. If the prover was never slashed, this value is all that was escrowed.", "quantifier": "every deployment and every sequence of calls", "why_tests_cant": "unbounded sequences of requests, slashes and payments with rounding at each step", "anchors": ["contracts/src/SuccinctStaking.sol:requestUnstake,finishUnstake,finishSlash,_finishUnstakeRequest"]}
{"id": "C49", "title": "After a complete slash a claim can be paid from somebody else's escrow", "statement": "One would expect that a claim never pays more than was escrowed for it. This is false: after a prover was slashed by half and then completely, the slash factor is reset when a new staker requests to unstake, and a claim that had been wiped out is paid twice its escrow out of the new staker's escrow.", "quantifier": "one concrete sequence of calls", "why_tests_cant": "needs a specific sequence of two slashes, a new stake and a request", "anchors": ["contracts/src/SuccinctStaking.sol:requestUnstake,finishUnstake,finishSlash"]}
{"id": "C50", "title": "Receipts match the vault shares", "statement": "The vault shares of every prover equal the $stPROVE held by the stakers bound to it; the $stPROVE supply is the sum of all stakes; whoever has a stake or an open claim is bound to a registered prover.", "quantifier": "every deployment and every sequence of calls", "why_tests_cant": "an invariant over unbounded sequences of calls", "anchors": ["contracts/src/SuccinctStaking.sol", "contracts/src/tokens/StakedSuccinct.sol"]}
{"id": "C51", "title": "Unstaking and slashing cannot be blocked", "statement": "Any staker can request to unstake any part of the stake, and anyone can have matured claims paid, unless a slash is pending on the prover (or, for payments, one reduced its factor to zero). Anyone can cancel a slash request whose time is over, the owner can finish every open one, and the dispenser can dispense whatever was earned and not yet dispensed, if the contract holds it. Sums are assumed to fit in 256 bits.", "quantifier": "every reachable state", "why_tests_cant": "absence of reverts over all reachable states", "anchors": ["contracts/src/SuccinctStaking.sol:requestUnstake,finishUnstake,cancelSlash,finishSlash"]}
{"id": "C52", "title": "A pending slash freezes the stakes on the prover", "statement": "While a slash request of a prover is neither cancelled nor finished, every call that stakes on it, requests to unstake from it or finishes an unstake from it reverts.", "quantifier": "every reachable state and call", "why_tests_cant": "all reachable states", "anchors": ["contracts/src/SuccinctStaking.sol:_requireProverWithoutSlashRequests"]}
{"id": "C53", "title": "Staking: only the right caller changes settings, dispenses or slashes", "statement": "If a call changes the owner, the dispenser or the dispense rate, its caller is the owner; if it dispenses rewards, its caller is the dispenser. A slash request is added only by the settlement contract, and an open one is settled only by the owner, or by anyone once the cancellation period plus the governor's voting delay and period are over. No other call changes slash requests.", "quantifier": "every call, caller and state", "why_tests_cant": "all calls in all states", "anchors": ["contracts/src/SuccinctStaking.sol:requestSlash,cancelSlash,finishSlash,dispense,setDispenser,updateDispenseRate"]}
{"id": "C54", "title": "Registry: one prover per owner, deactivation exactly when worthless", "statement": "In every reachable state each owner has one prover and each prover one owner. A call changes the registry only by creating a prover with a fee of at most 100% at a new address for an owner who has none, or by finishing a slash, which deactivates that prover exactly if its shares are then worth less than the minimum. No prover is removed or reactivated, and nobody can stake on a deactivated one.", "quantifier": "every reachable state and call", "why_tests_cant": "unbounded sequences of calls", "anchors": ["contracts/src/libraries/ProverRegistry.sol", "contracts/src/SuccinctStaking.sol"]}
{"id": "C55", "title": "Reading a price in dollars", "statement": "A price text that is accepted is a decimal number, and the number of micro-dollars returned is positive, fits in 64 bits and differs from a million times that number by at most one half plus a relative floating point error of 2^-51. Every number from one micro-dollar to 2^63 is accepted, and one that is a whole number of micro-dollars up to 2^50 is read exactly.", "quantifier": "every text", "why_tests_cant": "all texts; floating point rounding", "anchors": ["crates/network/pricing/src/math.rs:parse_usd_micros"]}
{"id": "C56", "title": "Wrong answers to range requests are not noticed", "statement": "One would expect a parallel download to report an error if a range request gives data of the wrong length. This is false: if data is too short the rest is filled with zeros and success is reported, and if it is too long (a server that ignores the range) the download panics.", "quantifier": "two concrete servers", "why_tests_cant": "needs a server that answers wrongly", "anchors": ["crates/network/artifacts/src/lib.rs:download_s3_file_par,download_https_file_par"]}
{"id": "C57", "title": "A retried download returns the first success", "statement": "Downloading an artifact from storage returns the data of the first of five attempts that gives data, and an error exactly if none of the five does.", "quantifier": "every sequence of outcomes of attempts", "why_tests_cant": "all sequences of outcomes", "anchors": ["crates/network/artifacts/src/lib.rs:download_raw"]}
{"id": "C58", "title": "The node's messages pass the ledger's checks", "statement": "If the node's signing function signs with the key of its address, every bid and fulfilment it sends is taken by the ledger for a message of that address, with the configured price, prover and network and the right message type.", "quantifier": "every configuration, every round", "why_tests_cant": "all configurations and answers; agreement of two programs", "anchors": ["crates/node/core/src/serial.rs", "crates/vapp/src/state.rs"]}
{"id": "C59", "title": "A round may send several bids", "statement": "One would expect that the bidder sends at most one bid in a round. This is false: if a bid is answered with a temporary error such as a timeout, which may have reached the auctioneer, another bid is sent with a new nonce.", "quantifier": "one concrete round", "why_tests_cant": "needs a failure at a particular moment", "anchors": ["crates/node/core/src/serial.rs:SerialBidder::bid"]}
{"id": "C60", "title": "An assigned request may be left without a report", "statement": "One would expect that every assigned request is fulfilled or reported as failed in the round in which it is listed. This is false: if its program or input cannot be downloaded, the round ends with an error that is ignored, and nothing is reported.", "quantifier": "one concrete round", "why_tests_cant": "needs a failing download", "anchors": ["crates/node/core/src/serial.rs:SerialProver::prove", "crates/node/core/src/lib.rs:run"]}
{"id": "C61", "title": "An assigned request may stop the node", "statement": "One would expect that no assigned request makes the node stop. This is false: a request without a proof mode reaches code marked as unreachable; the panic ends the node.", "quantifier": "one concrete round", "why_tests_cant": "needs a request that the network should not hand out", "anchors": ["crates/node/core/src/serial.rs:SerialProver::prove", "crates/node/core/src/lib.rs:run"]}
{"id": "C62", "title": "What a deposit takes and what it queues", "statement": "A deposit succeeds exactly if the contract is not paused, the amount is at least the minimum, the sender holds it and has allowed the contract to take it (or, with a permit, the permit is valid or the allowance equals the amount). It then moves exactly the amount from the depositor to the contract, uses up exactly that much of the allowance (an unlimited one stays), and queues one pending transaction with the next id that names depositor and amount. Creating a prover succeeds exactly for the staking contract and the true owner of the prover, and queues one pending transaction and moves nothing. Nothing else changes.", "quantifier": "every call, caller, environment and state", "why_tests_cant": "all states and amounts; what must not change", "anchors": ["contracts/src/SuccinctVApp.sol:deposit,permitAndDeposit,createProver,_deposit,_createTransaction"]}
{"id": "C63", "title": "What the owner's calls and the deployment do", "statement": "Each call of the owner changes exactly the one setting it names to the value given and nothing else, and is accepted from the owner whenever it makes sense (pausing if not paused, unpausing if paused, a new owner that is not zero). A fork is accepted exactly from the owner with a non-zero key and root; it opens the next block with that root and the current time, sets the key, and changes nothing else, in particular not the queue or any token. A deployed contract has the settings given, no zero address or hash, the genesis root at block 0 and an empty queue.", "quantifier": "every call, caller and state", "why_tests_cant": "all states; what must not change", "anchors": ["contracts/src/SuccinctVApp.sol:initialize,fork,updateStaking,updateVerifier,updateAuctioneer,updateMinDepositAmount,pauseVApp,unpauseVApp"]}
{"id": "C64", "title": "Signed messages are in the protobuf wire format", "statement": "The bytes that are signed and hashed for each of the eight message types can be read back, to the same message, by any reader of the protobuf wire format that knows the field numbers of types.proto; fields appear in ascending order, integers in their shortest form, and empty or zero fields are left out unless they are optional or repeated.", "quantifier": "every message of every type", "why_tests_cant": "unbounded byte strings and lists in fields; all 64-bit values", "anchors": ["crates/types/network/src/types.rs", "crates/types/network/src/lib.rs:hash_with_signer", "proto/types.proto"]}
{"id": "C65", "title": "Committed public values are what the contract decodes", "statement": "The bytes committed by the state-transition program and by the aggregation program are the Solidity ABI encoding of the public-values struct: the commitment of the ledger before, the commitment after all transactions, the timestamp, and one entry per receipt with the contract's numbers for kind and status and the ABI encoding of its action.", "quantifier": "every input and batch", "why_tests_cant": "unbounded batches and receipts; agreement of two languages", "anchors": ["programs/vapp/stf/src/main.rs", "programs/vapp/aggregation/src/main.rs", "crates/vapp/src/sol.rs", "contracts/src/libraries/PublicValues.sol"]}
{"id": "C66", "title": "The root is the Merkle commitment of the whole state", "statement": "After any sequence of operations on the ledger, the root it reports is the hash of the ABI-encoded domain, counters and cursor and the roots of two binary Merkle trees with 160 levels, whose leaves are the ABI encodings of the accounts and the processed flags; absent leaves are zero. Caching of inner nodes never shows.", "quantifier": "every reachable ledger", "why_tests_cant": "2^160 leaves; caches after unbounded histories", "anchors": ["crates/vapp/src/state.rs:root", "crates/vapp/src/merkle.rs:root", "crates/vapp/src/sol.rs"]}
{"id": "C67", "title": "Quotes for stakes match what is there and what is paid", "statement": "The views of the staking contract answer exactly: a stake is quoted at its share of the prover's vault, a prover at the $PROVE behind its $iPROVE, open claims at the sum of their values. Quotes of the stakers of a prover never add up to more than the quote of the prover, and those of all provers and the escrow to no more than the $PROVE in the vault. When all claims of a staker are due, the payment is at least the quote and at most what all claims together are worth.", "quantifier": "every reachable state, any set of stakers or provers", "why_tests_cant": "rounding in three nested vaults; sums over unbounded sets", "anchors": ["contracts/src/SuccinctStaking.sol:staked,proverStaked,unstakePending,previewUnstake"]}
{"id": "C68", "title": "The staking contract follows a complete table of rules", "statement": "For each of the thirteen calls of the staking contract and its registry a rule says when it is accepted and which balances, allowances, supplies, stakes, claims, slash requests, escrow, registry entries and settings it leads to and which events it emits. Every accepted call follows its rule exactly, and every call that a rule allows is accepted, as long as amounts and times fit in machine words.", "quantifier": "every call by anyone, in every reachable state", "why_tests_cant": "all states and amounts; everything that must not change", "anchors": ["contracts/src/SuccinctStaking.sol", "contracts/src/libraries/ProverRegistry.sol", "contracts/src/tokens/IntermediateSuccinct.sol", "contracts/src/tokens/SuccinctProver.sol", "contracts/src/tokens/StakedSuccinct.sol"]}
{"id": "C69", "title": "Receipt tokens move only by staking", "statement": "Any call of $iPROVE, of a prover vault or of $stPROVE (transfers, allowances, permits, ERC-4626 deposits and withdrawals, burning, pulling $PROVE through a prover's allowance) by anyone who is not one of the contracts reverts or only sets the one allowance it names. Whatever is done with the tokens, the staking contract goes through exactly the states it goes through without. The restrictions never block the staking contract's own vault calls, and the settlement contract can deposit exactly as a reward for a registered prover.", "quantifier": "every caller, token, call and reachable state", "why_tests_cant": "all callers and calls; absence of any path", "anchors": ["contracts/src/tokens/IntermediateSuccinct.sol", "contracts/src/tokens/SuccinctProver.sol", "contracts/src/tokens/StakedSuccinct.sol", "contracts/src/libraries/ProverRegistry.sol:_deployProver"]}
{"id": "C70", "title": "At the calibrated price the prover earns its cost and the margin", "statement": "A calibration sets the program up, executes it and proves it once, and fails with the first error. For a measured amount of gas and proving time, at the price it returns a prover that works for the given part of each hour earns the cost of the hour and the margin on it, and the throughput returned is the measured one, both up to the 2^47th part. If the execution reports no gas, the throughput is zero and the price infinite.", "quantifier": "all costs, rates and margins between 10^-12 and 10^12 and all 64-bit measurements", "why_tests_cant": "rounding of every floating point operation over all inputs", "anchors": ["crates/node/calibrator/src/lib.rs:calibrate"]}
{"id": "C71", "title": "The printed bid price is not the one that earns the cost", "statement": "What the calibrate command prints is, to two digits, the price per billion units in dollars times the price of $PROVE in dollars, and the throughput in whole units. One would expect a price in $PROVE at which the node earns its cost and margin; this is false, since the price should be divided: bidding what is printed may earn less than half of the cost.", "quantifier": "all options and measurements; one concrete command for the refutation", "why_tests_cant": "rounding over all inputs; the meaning of a unit", "anchors": ["bin/node/src/main.rs"]}
{"id": "C72", "title": "What the node makes of its bid and throughput options", "statement": "The bid of the node is the whole number next to the number given (up to rounding), the throughput the number given, and prover and key are those given. One would expect the documented unit, $PROVE per billion units of gas; this is false: the number is used as wei per unit, and a bid below one half becomes zero.", "quantifier": "all option texts in decimal notation below 2^50", "why_tests_cant": "all option texts; the meaning of a unit", "anchors": ["bin/node/src/main.rs", "crates/node/core/src/serial.rs:SerialBidder::new"]}
{"id": "C73", "title": "The tasks of the running node fit together", "statement": "However the steps of the node's tasks interleave, bidder and prover work in rounds that start and end together, and the background task works in turns that ask for the owner, ask for requests of that owner that cannot be executed, and note down their ids, and goes on as long as the node runs. The prover skips a request, or aborts its proof, only if the network said that this request cannot be executed. Once the background task has noted that down, the request is reported as failed at its next turn and never fulfilled in any later round.", "quantifier": "every interleaving, every sequence of answers of the servers, any number of rounds", "why_tests_cant": "unbounded interleavings of concurrent tasks", "anchors": ["crates/node/core/src/lib.rs:run", "crates/node/core/src/serial.rs:SerialProver"]}
{"id": "C74", "title": "When the running node ends", "statement": "The node returns only because its monitor failed or panicked, or because a request without a proof mode was assigned to it, and nothing happens afterwards. Until then bidder or prover can always go on or a new round starts. One would expect that the node returns an error when its monitor fails; this is false: it returns as if all were well.", "quantifier": "every interleaving, every sequence of answers of the servers, any number of rounds", "why_tests_cant": "unbounded runs; absence of other ends", "anchors": ["crates/node/core/src/lib.rs:run", "crates/node/core/src/serial.rs:SerialProver::prove"]}
{"id": "C75", "title": "Amounts written as text are read as the numbers written", "statement": "The text of an amount is accepted exactly if it is a whole number below 2^256 in decimal digits, or in hexadecimal, octal or binary digits after 0x, 0o or 0b, where underscores between the digits are ignored, and it is read as this number; text without digits counts as zero. So the decimal digits of every number are read back as the number, and a transfer moves the amount and pays the fee that are written in its message.", "quantifier": "all texts of any length; all ledger states", "why_tests_cant": "all texts of unbounded length", "anchors": ["crates/vapp/src/state.rs:execute"]}
{"id": "C76", "title": "The ledger settles a node's bid at the node's price", "statement": "If a clear carries a bid that a node sent in a round of bidding and is executed, then it is for the request the node was offered, the node's key is the signer of the prover bid for, the price is at most the requester's maximum, and either the requester pays the node's price for each unit of the proof and the base fee, split between prover and owner, or the request could not be executed and the requester pays the punishment the executor wrote, at most what the request could have cost, or a requester who cannot pay pays nothing; nothing else moves. A bid of the node does whatever any other bid at the same price for the same prover would do.", "quantifier": "all rounds of bidding with any answers of the servers, all clears, all ledger states, every hash and signature scheme", "why_tests_cant": "composition of two programs over all inputs", "anchors": ["crates/node/core/src/serial.rs:bid", "crates/vapp/src/state.rs:execute"]}
{"id": "C77", "title": "A balance and a price are read as written", "statement": "Fetching a balance asks again after temporary errors only, and gives the number written in the first other answer, or says that this is not a number. A price of $PROVE is read as a positive number of micro-dollars next to the decimal number in the text, exactly if that is a whole number below 2^50, together with the time given, if this lies in the years -9999 to 9999.", "quantifier": "all answers of the server, all texts, all times", "why_tests_cant": "all texts and times; rounding", "anchors": ["crates/network/rpc/src/fetch.rs:fetch_balance", "crates/network/pricing/src/provider.rs:ProvePrice::parse"]}
{"id": "C78", "title": "The monitor logs the proofs made, their cycles, time and throughput", "statement": "Every proof the node makes is counted once, with its cycles and its time, before the next execution, and the network has accepted at most as many fulfilments as proofs are counted. A line of the monitor shows a number of proofs, the cycles in millions, the time in units from years to nanoseconds, and the cycles per whole second in MHz (0 without cycles, inf in the first second), each for a prefix of the proofs counted so far: the cycles and the time cover at least the proofs counted, and the cycles at most one proof more than the time; they cover the same proofs if the counters do not change meanwhile. What is logged as used disk space is the free share. Refuted: that the disk number is the used share, and that the number of fulfilled requests is that of the fulfilments the network accepted.", "quantifier": "all runs of the node, all schedules of prover and monitor, all counter values below 2^64", "why_tests_cant": "all interleavings of updates and readings; unbounded runs; rounding", "anchors": ["crates/node/core/src/serial.rs:record", "crates/node/core/src/serial.rs:prove"]}
{"id": "C79", "title": "Votes are the stakes in the provers' vaults", "statement": "At every moment the votes of an account are the $iPROVE in its vault if it is a prover, and none otherwise, whatever anybody delegated. Asked for an earlier time, the contract answers the votes and the supply at the end of that second. The votes of all provers and the $iPROVE in escrow for unstaking make up the whole supply. Counting votes never makes a call of the staking contract fail, and delegating never moves votes.", "quantifier": "every sequence of calls of staking, $PROVE, $iPROVE and governor by anyone, at any times below 2^48", "why_tests_cant": "all histories of checkpoints; absence of any path", "anchors": ["contracts/src/tokens/IntermediateSuccinct.sol", "contracts/src/tokens/SuccinctProver.sol:constructor", "contracts/src/SuccinctStaking.sol"]}
{"id": "C80", "title": "Nothing is executed without a vote", "statement": "What the governor answers about a proposal is what happened: proposer, start and end by the settings at the time of the proposal, the votes cast between start and end, one per account, each counted with the stake at the start, and whether it was executed or cancelled. Proposals, cancellations, votes and executions are accepted exactly under stated conditions. In particular, every executed proposal was made by the owner of a prover, or another account, with at least the required votes just before, had more votes for than against and at least the quorum of all $iPROVE when the vote was over, was never cancelled, and is executed only once, by carrying out its actions in order as the governor. The votes on a proposal never exceed the $iPROVE at its start. A vote that counts is cast by the owner of a prover, through it.", "quantifier": "every sequence of calls by anyone, at any times; every proposal", "why_tests_cant": "unbounded histories and numbers of voters; all conditions at once", "anchors": ["contracts/src/SuccinctGovernor.sol", "contracts/src/tokens/SuccinctProver.sol:propose,cancel,castVote"]}
{"id": "C81", "title": "What only a vote can change", "statement": "If the staking contract belongs to the governor, its owner, its dispenser, the rate of rewards and the settings of the governor change only when a proposal is executed, and so are slash requests settled before everybody may cancel them; the governor stays the owner until a proposal hands the contract over. A slash that was voted for can be carried out by anybody while the request is open. Nobody can cancel a request while the vote on a proposal made within the cancellation period is running, if delay and period have not become shorter since. Refuted: the last without this condition, since a vote can shorten them during another vote.", "quantifier": "every sequence of calls by anyone, at any times; one concrete run for the refutation", "why_tests_cant": "all histories; interplay of two contracts", "anchors": ["contracts/src/SuccinctGovernor.sol", "contracts/src/SuccinctStaking.sol:cancelSlash,finishSlash,setDispenser,updateDispenseRate"]}
{"id": "C82", "title": "The deployed contracts work together as they do apart", "statement": "The deployment succeeds exactly if all parameters are given and in range, and then the contracts answer as the checks after a deployment expect. In everything that happens afterwards, governance, staking and the settlement contract each go through what they may go through on their own: the accepted calls made directly, the rewards and payments of the settlement contract, which are the withdrawals in its accepted steps, and the provers created through the staking contract. A call is accepted exactly if the called contract on its own accepts it.", "quantifier": "every deployment, every sequence of calls of all contracts by anyone, at any times", "why_tests_cant": "all histories of several contracts calling each other", "anchors": ["contracts/script/utils/AtomicDeployer.sol", "contracts/src/SuccinctVApp.sol:step,createProver", "contracts/src/SuccinctStaking.sol"]}
{"id": "C83", "title": "Everything owed is there at once", "statement": "After any calls of the deployed contracts, with sound proofs and without forks, the settlement contract holds at least all balances of the ledger and the deposits not yet finalised, and besides the $iPROVE vault holds at least what the staking contract quotes to all stakers together. No $PROVE is counted twice.", "quantifier": "every deployment, every sequence of calls by anyone, any number of accounts and stakers", "why_tests_cant": "conservation over all histories across contracts and the ledger", "anchors": ["contracts/src/SuccinctVApp.sol", "contracts/src/SuccinctStaking.sol", "crates/vapp/src/state.rs:execute"]}
{"id": "C84", "title": "The owner of a prover in the ledger is who created it", "statement": "If the ledger has an owner for an account, then this owner has called createProver of the staking contract, which created the account as a prover with the fee that the ledger has, and still is its owner there. Every prover so created is in the queue of the settlement contract, and in the ledger from the moment this place of the queue is finalised. Everybody without a prover can create one while the settlement contract is not paused.", "quantifier": "every deployment, every sequence of calls by anyone; every account", "why_tests_cant": "all histories; agreement of contracts with the ledger", "anchors": ["contracts/src/SuccinctStaking.sol:createProver", "contracts/src/libraries/ProverRegistry.sol", "contracts/src/SuccinctVApp.sol:createProver", "crates/vapp/src/state.rs:execute"]}
{"id": "C85", "title": "Withdrawals are paid, those of provers into their stakes", "statement": "An accepted step pays each withdrawal it reports: to the account, or into the $iPROVE vault if the account is a prover, and moves no other $PROVE. A withdrawal of a prover raises the worth of its stakes by the amount, up to the worth of one unit of $iPROVE and one unit of $PROVE, and lowers nobody's. An honest step on a run of the deployed contracts is accepted: no token and no vault refuses a withdrawal.", "quantifier": "every deployment, every sequence of calls by anyone, any batches", "why_tests_cant": "all histories, all batches; rounding for all amounts", "anchors": ["contracts/src/SuccinctVApp.sol:step", "contracts/src/tokens/IntermediateSuccinct.sol", "contracts/src/SuccinctStaking.sol"]}
{"id": "C86", "title": "Nobody is slashed in the deployed system", "statement": "In the deployed system there is never a request to slash a prover, no prover is ever deactivated, and every call to request, cancel or finish a slash reverts, since only the settlement contract may request slashes and it has no function that does. What is quoted for the stake of an account never falls until the account asks to unstake.", "quantifier": "every deployment, every sequence of calls by anyone, with any votes", "why_tests_cant": "absence of any path", "anchors": ["contracts/src/SuccinctStaking.sol:requestSlash,cancelSlash,finishSlash", "contracts/src/SuccinctVApp.sol"]}
{"id": "C87", "title": "Every staker can leave with what was quoted", "statement": "With the deployed contracts every staker can request back any part of the stake at any time, as long as fewer requests are open than allowed. If all of it is requested, then once the unstake period is over, and whatever other accounts did meanwhile, anyone can have the staker paid, and the staker receives at least what the contract quoted at the time of the request for the stake and for the requests that were already open. With the staking contract alone, payments and open requests together never fall below what was quoted as long as the prover is not slashed.", "quantifier": "all deployments, logs of calls, stakers, amounts, moments and callers", "why_tests_cant": "Tests follow a few stakers for a few calls; that no behaviour of other stakers, provers, the owner, the dispenser or the governor can lock or dilute a stake after any history is a statement about all of them.", "anchors": ["contracts/src/SuccinctStaking.sol:156-230", "contracts/src/SuccinctStaking.sol:284-366", "contracts/src/SuccinctStaking.sol:581-645", "contracts/script/utils/AtomicDeployer.sol:99-171"]}
{"id": "C88", "title": "Only owners change the rules, and nobody does once ownership is given up", "statement": "From any moment on, owner, pause, verification key, addresses and limits of the settlement contract stay as they are and its ledger is never replaced, unless its owner of that moment makes such a call; likewise owner, dispenser and rate of the staking contract. Either owner may be the governor, which then makes the calls of the proposals it executes. Once a contract has no owner its rules stay forever; if the settlement contract was paused then, no call to it is ever accepted again and what it holds stays locked.", "quantifier": "all deployments, logs of calls and their continuations", "why_tests_cant": "Tests call single functions as a wrong sender; that no sequence of any calls reaches a setting otherwise is a statement about all sequences.", "anchors": ["contracts/src/SuccinctVApp.sol:263-326", "contracts/src/SuccinctVApp.sol:44", "contracts/src/SuccinctStaking.sol:516-523", "contracts/src/SuccinctStaking.sol:32"]}
{"id": "C89", "title": "Where the governor is the owner the stakers decide", "statement": "Every proposal that the governor executes was proposed by somebody with enough stake, its vote was over, nobody had voted twice, more stake had voted for it than against it, and enough stake had taken part, with the stakes at the start of the vote. From the moment the governor owns the settlement contract, its settings and its ledger stay as they are unless such a proposal that changes them is executed; likewise owner, dispenser and rate of the staking contract. And a proposal about the settlement contract that has passed, and is neither executed nor cancelled, can be executed by anyone if the contract accepts its calls from the governor, and has the effect of these calls.", "quantifier": "all deployments, logs of calls by anyone, proposals and votes", "why_tests_cant": "The result of a vote depends on all calls made before it to several contracts; tests follow one proposal.", "anchors": ["contracts/src/SuccinctGovernor.sol:24-73", "contracts/src/SuccinctVApp.sol:263-326", "contracts/src/SuccinctStaking.sol:516-523"]}
{"id": "C90", "title": "The events of the settlement contract tell its state", "statement": "From the events of the settlement contract since its deployment one can tell, at any time: its owner, auctioneer, staking contract, verifier, minimum deposit, verification key and whether it is paused (each event carries the previous value, so that none is missing); all blocks with consecutive numbers and their roots, each continuing the one before, a fork being followed by the block it makes; the queue of transactions with consecutive numbers, what was asked for, and the status of each, settled in the order of the queue. Accounts gain and lose exactly the deposits and withdrawals told by the events of a call, the contract always holds at least what came in and did not go out, and a caller is told the number of the transaction queued or of the block made.", "quantifier": "All sequences of calls by anyone with any arguments, accepted or reverted, and of transfers of the token, from any deployment.", "why_tests_cant": "A test looks at the events of one call. That no change of any field is ever missing from the events is a statement about all sequences of all calls.", "anchors": ["contracts/src/SuccinctVApp.sol:116-158", "contracts/src/SuccinctVApp.sol:179-326", "contracts/src/SuccinctVApp.sol:333-488", "contracts/src/interfaces/ISuccinctVApp.sol:9-45"]}
{"id": "C91", "title": "What passes between ledger and contract passes once and in order", "statement": "The deposits and new provers executed by the ledger in the batches of all accepted steps are exactly those queued in the contract, from the first to the last finalised one, with the same accounts, amounts and fees, each once, in the order of the queue. The payments of the contract are exactly the withdrawals made in the ledger, with the same accounts and amounts, each once, in the order of the ledger.", "quantifier": "All sequences of calls and batches, for any proof system whose proofs are sound, without forks by the owner.", "why_tests_cant": "It relates two programs over unboundedly many steps: an attack would choose the batches, their splitting and the encodings.", "anchors": ["contracts/src/SuccinctVApp.sol:222-261", "contracts/src/SuccinctVApp.sol:350-442", "crates/vapp/src/state.rs:184-249", "crates/vapp/src/state.rs:459-605", "programs/vapp/stf/src/main.rs", "programs/vapp/aggregation/src/main.rs"]}
{"id": "C92", "title": "Nothing gets stuck", "statement": "Whatever has happened so far, the transition program commits to every batch that follows the rules, given the roots, the batch, and the proofs of the keys it touches; its commitment has the root of the contract as old root and the root of the ledger after the batch as new root. The contract accepts that commitment from the auctioneer, and the ledger is then as the rules say. In particular the next pending transactions of the queue, any number of them, can always be proven and settled: each of them is then completed, and every account is credited with its deposits. A valid withdrawal of a covered amount can be proven and settled, and exactly this amount of tokens goes from the contract to the account (to the vault for a prover).", "quantifier": "All histories, all batches, any number of pending transactions, for any proof system whose proofs are sound, without forks by the owner.", "why_tests_cant": "Tests try some batches on some states. That no reachable state has a batch, a queue or a withdrawal that cannot be proven or settled is a statement about all of them.", "anchors": ["programs/vapp/stf/src/main.rs", "crates/vapp/src/state.rs:124-154", "crates/vapp/src/state.rs:184-249", "crates/vapp/src/state.rs:459-605", "crates/vapp/src/storage.rs", "crates/vapp/src/sparse.rs", "crates/vapp/src/merkle.rs", "contracts/src/SuccinctVApp.sol:222-261", "contracts/src/SuccinctVApp.sol:366-460"]}
{"id": "C93", "title": "The events of the staking contract tell its state", "statement": "From the events of the staking contract since its deployment one can tell, at any time: its owner, the rate of rewards, what was dispensed, and the dispenser once the first one is known (each event carries the previous value); the provers, each with its one owner and a fee of at most 100 percent, and which of them were deactivated, once; for every account the prover it is bound to, its stake, and its unstake requests with their amounts; and for every prover the slash requests with consecutive numbers and amounts, each cancelled or carried out at most once, and which are open. With the deposits of rewards into the $iPROVE vault they add up to the $iPROVE in the vault of a prover and in its escrow. The $PROVE that an accepted call moves between accounts, contract, vault and settlement contract is exactly the amounts in its events, and what the call returns is in them as well. Two contracts with the same events agree on all of this.", "quantifier": "All sequences of calls of the staking contract and of $PROVE by anyone, any number of accounts and provers.", "why_tests_cant": "It relates sums and lists over whole histories to the state; a test compares single events.", "anchors": ["contracts/src/SuccinctStaking.sol", "contracts/src/interfaces/ISuccinctStaking.sol", "contracts/src/libraries/ProverRegistry.sol", "contracts/src/tokens/StakedSuccinct.sol"]}
{"id": "C94", "title": "What is downloaded from the artifact store is what was uploaded", "statement": "However many uploads, copies and downloads are made at the same time, wherever each of them is stopped, and whichever requests fail: a download of an artifact from a bucket fails or returns bytes which the store held meanwhile as this artifact (type and name) in this bucket, and which were there at the start, were uploaded as this artifact, or came by copies from a bucket where that holds. Once an upload has succeeded, after all other calls that may change the artifact, it stays and every later download returns it, as bytes or as the item written, or fails; a download of readable bytes fails only after five failed requests, or one if it is given a URI. An artifact is changed only by uploads of it and copies of it to its bucket. A successful copy leaves in the bucket what was there before or what was in the source; exactly the source, if nothing was there. A parallel download in chunks returns the artifact or fails, if nobody changes the artifact meanwhile; otherwise it may put together parts of the old and the new one without noticing, and an empty artifact cannot be downloaded so at all. A successful copy need not make the buckets equal, may replace what is there, and an upload that reports an error may have taken effect.", "quantifier": "All sets of calls of any number of clients, all ways of mixing their requests, all failures, all contents of the store and all ways of writing items as bytes.", "why_tests_cant": "It concerns all interleavings of any number of clients with a store that fails at will.", "anchors": ["crates/network/artifacts/src/lib.rs"]}
