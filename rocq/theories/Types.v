(** Data types of the vApp: messages, transactions, accounts, receipts, errors. *)
From Verif Require Export Base.
Open Scope N_scope.

(** ** Signed protobuf messages

    Field order follows the structs of crates/types/network/src/types.rs.  [i32] enumeration fields are
    [Z]; [u64] fields are [N]; [Vec<u8>] and [String] fields are byte strings; [f32] is its bit pattern. *)

(** The common envelope [{format, signature, body}] of every signed request
    (crates/types/network/src/types.rs 40-50, 91-101, 198-208, 246-256, 1217-1227, 1325-1335, 1373-1383,
    2009-2019). *)
Record signed (B : Type) : Type := Signed {
  s_format : Z;
  s_signature : bytes;
  s_body : option B
}.
Arguments Signed {B}.
Arguments s_format {B}.
Arguments s_signature {B}.
Arguments s_body {B}.

(** [WithdrawRequestBody], crates/types/network/src/types.rs 53-75. *)
Record withdraw_body : Type := WithdrawBody {
  wb_nonce : N;
  wb_account : bytes;
  wb_amount : bytes;
  wb_domain : bytes;
  wb_variant : Z;
  wb_auctioneer : bytes;
  wb_fee : bytes
}.

(** [TransferRequestBody], crates/types/network/src/types.rs 1230-1252. *)
Record transfer_body : Type := TransferBody {
  tb_nonce : N;
  tb_to : bytes;
  tb_amount : bytes;
  tb_domain : bytes;
  tb_variant : Z;
  tb_auctioneer : bytes;
  tb_fee : bytes
}.

(** [SetDelegationRequestBody], crates/types/network/src/types.rs 2022-2044. *)
Record delegation_body : Type := DelegationBody {
  db_nonce : N;
  db_delegate : bytes;
  db_prover : bytes;
  db_domain : bytes;
  db_variant : Z;
  db_auctioneer : bytes;
  db_fee : bytes
}.

(** [RequestProofRequestBody], crates/types/network/src/types.rs 104-171. *)
Record request_body : Type := RequestBody {
  rb_nonce : N;
  rb_vk_hash : bytes;
  rb_version : bytes;
  rb_mode : Z;
  rb_strategy : Z;
  rb_stdin_uri : bytes;
  rb_deadline : N;
  rb_cycle_limit : N;
  rb_gas_limit : N;
  rb_min_auction_period : N;
  rb_whitelist : list bytes;
  rb_domain : bytes;
  rb_auctioneer : bytes;
  rb_executor : bytes;
  rb_verifier : bytes;
  rb_public_values_hash : option bytes;
  rb_base_fee : bytes;
  rb_max_price_per_pgu : bytes;
  rb_variant : Z;
  rb_treasury : bytes;
  rb_stdin_private : bool
}.

(** [BidRequestBody], crates/types/network/src/types.rs 1338-1357. *)
Record bid_body : Type := BidBody {
  bb_nonce : N;
  bb_request_id : bytes;
  bb_amount : bytes;
  bb_domain : bytes;
  bb_prover : bytes;
  bb_variant : Z
}.

(** [SettleRequestBody], crates/types/network/src/types.rs 1386-1402. *)
Record settle_body : Type := SettleBody {
  sb_nonce : N;
  sb_request_id : bytes;
  sb_winner : bytes;
  sb_domain : bytes;
  sb_variant : Z
}.

(** [ExecuteProofRequestBody], crates/types/network/src/types.rs 259-293. *)
Record execute_body : Type := ExecuteBody {
  eb_nonce : N;
  eb_request_id : bytes;
  eb_execution_status : Z;
  eb_public_values_hash : option bytes;
  eb_cycles : option N;
  eb_pgus : option N;
  eb_domain : bytes;
  eb_punishment : option bytes;
  eb_failure_cause : option Z;
  eb_variant : Z
}.

(** [FulfillProofRequestBody], crates/types/network/src/types.rs 211-230.
    [fb_reserved_metadata] is the optional [ReservedMetadata] message (189-195), whose only field is an
    optional [f32]. *)
Record fulfill_body : Type := FulfillBody {
  fb_nonce : N;
  fb_request_id : bytes;
  fb_proof : bytes;
  fb_reserved_metadata : option (option N);
  fb_domain : bytes;
  fb_variant : Z
}.

(** [TransactionVariant], crates/types/network/src/types.rs 2167-2176 (network message type tags). *)
Inductive msg_variant : Type :=
| RequestVariant | BidVariant | SettleVariant | ExecuteVariant
| FulfillVariant | DelegateVariant | TransferVariant | WithdrawVariant.

(** The wire value of a message type tag, crates/types/network/src/types.rs 2167-2176. *)
Definition variant_tag (v : msg_variant) : Z :=
  match v with
  | RequestVariant => 0 | BidVariant => 1 | SettleVariant => 2 | ExecuteVariant => 3
  | FulfillVariant => 4 | DelegateVariant => 5 | TransferVariant => 6 | WithdrawVariant => 7
  end%Z.

(** [TransactionVariant::try_from(i32)] (derived by prost from 2167-2176).
    (crates/types/network/src/types.rs.) *)
Definition variant_of_tag (z : Z) : option msg_variant :=
  match z with
  | 0 => Some RequestVariant | 1 => Some BidVariant | 2 => Some SettleVariant
  | 3 => Some ExecuteVariant | 4 => Some FulfillVariant | 5 => Some DelegateVariant
  | 6 => Some TransferVariant | 7 => Some WithdrawVariant
  | _ => None
  end%Z.

(** Equality of message type tags ([PartialEq] of the enum, crates/types/network/src/types.rs 2164). *)
Definition variant_eqb (a b : msg_variant) : bool := (variant_tag a =? variant_tag b)%Z.

(** [MessageFormat], crates/types/network/src/types.rs 2134-2141. *)
Inductive msg_format : Type := UnspecifiedFormat | BinaryFormat | JsonFormat.

(** [MessageFormat::try_from(i32)].  (derived by prost from crates/types/network/src/types.rs 2134-2141.) *)
Definition format_of_tag (z : Z) : option msg_format :=
  match z with
  | 0 => Some UnspecifiedFormat | 1 => Some BinaryFormat | 2 => Some JsonFormat | _ => None
  end%Z.

(** [ProofMode], crates/types/network/src/types.rs 2212-2222. *)
Inductive proof_mode : Type := UnspecifiedMode | CoreMode | CompressedMode | PlonkMode | Groth16Mode.

(** [ProofMode::try_from(i32)].  (derived by prost from crates/types/network/src/types.rs 2212-2222.) *)
Definition mode_of_tag (z : Z) : option proof_mode :=
  match z with
  | 0 => Some UnspecifiedMode | 1 => Some CoreMode | 2 => Some CompressedMode
  | 3 => Some PlonkMode | 4 => Some Groth16Mode | _ => None
  end%Z.

(** [ExecutionStatus::Executed as i32], crates/types/network/src/types.rs 2335-2345. *)
Definition status_executed : Z := 2%Z.
(** [ExecutionStatus::Unexecutable as i32], crates/types/network/src/types.rs 2335-2345. *)
Definition status_unexecutable : Z := 3%Z.

(** ** Ledger data *)

(** [Account], crates/vapp/src/sol.rs 105-112. *)
Record account : Type := Account {
  acc_balance : N;
  acc_owner : N;
  acc_signer : N;
  acc_bips : N
}.

(** [Account::default()], derived at crates/vapp/src/sol.rs 106. *)
Definition account_default : account := Account 0 0 0 0.

(** [derive(PartialEq)] on [Account], crates/vapp/src/sol.rs 106-118. *)
Global Instance account_eq_dec : EqDecision account.
Proof. solve_decision. Defined.

(** [Deposit], crates/vapp/src/sol.rs 62-67. *)
Record deposit_action : Type := DepositAction { da_account : N; da_amount : N }.
(** [Withdraw], crates/vapp/src/sol.rs 69-74. *)
Record withdraw_action : Type := WithdrawAction { wa_account : N; wa_amount : N }.
(** [CreateProver], crates/vapp/src/sol.rs 76-82. *)
Record create_prover_action : Type := CreateProverAction { cp_prover : N; cp_owner : N; cp_bips : N }.

(** ** Transactions, crates/vapp/src/transactions.rs *)

(** [OnchainTransaction<T>], crates/vapp/src/transactions.rs 50-63 ([tx_hash] is only logged and is
    dropped). *)
Record onchain (T : Type) : Type := Onchain {
  oc_block : N;
  oc_log_index : N;
  oc_tx : N;
  oc_action : T
}.
Arguments Onchain {T}.
Arguments oc_block {T}.
Arguments oc_log_index {T}.
Arguments oc_tx {T}.
Arguments oc_action {T}.

(** [ClearTransaction], crates/vapp/src/transactions.rs 79-99 ([vk] is a hint outside the zkVM, never
    read by [execute], and is dropped). *)
Record clear_tx : Type := ClearTx {
  cl_request : signed request_body;
  cl_bid : signed bid_body;
  cl_settle : signed settle_body;
  cl_execute : signed execute_body;
  cl_fulfill : option (signed fulfill_body);
  cl_verify : option bytes
}.

(** [VAppTransaction], crates/vapp/src/transactions.rs 15-48. *)
Inductive tx : Type :=
| TxDeposit (d : onchain deposit_action)
| TxCreateProver (c : onchain create_prover_action)
| TxDelegate (d : signed delegation_body)
| TxTransfer (t : signed transfer_body)
| TxClear (c : clear_tx)
| TxWithdraw (w : signed withdraw_body).

(** ** Receipts *)

(** [TransactionStatus], crates/vapp/src/sol.rs 49-60. *)
Inductive tx_status : Type := StNone | StPending | StCompleted | StReverted.

(** Comparison of statuses, contracts/src/libraries/PublicValues.sol 36-45. *)
Global Instance tx_status_eq_dec : EqDecision tx_status.
Proof. solve_decision. Defined.

(** [OnchainReceipt<T>], crates/vapp/src/receipts.rs 23-32. *)
Record onchain_receipt (T : Type) : Type := OnchainReceipt {
  or_tx_id : N;
  or_status : tx_status;
  or_action : T
}.
Arguments OnchainReceipt {T}.
Arguments or_tx_id {T}.
Arguments or_status {T}.
Arguments or_action {T}.

(** [OffchainReceipt<T>], crates/vapp/src/receipts.rs 34-41. *)
Record offchain_receipt (T : Type) : Type := OffchainReceipt {
  fr_status : tx_status;
  fr_action : T
}.
Arguments OffchainReceipt {T}.
Arguments fr_status {T}.
Arguments fr_action {T}.

(** [VAppReceipt], crates/vapp/src/receipts.rs 13-21. *)
Inductive receipt : Type :=
| RDeposit (r : onchain_receipt deposit_action)
| RCreateProver (r : onchain_receipt create_prover_action)
| RWithdraw (r : offchain_receipt withdraw_action).

(** ** Errors *)

(** [VAppRevert], crates/vapp/src/errors.rs 24-52; every variant carries (account, required, balance). *)
Inductive revert : Type :=
| InsufficientClearBalance (acct required balance : N)
| InsufficientPunishmentBalance (acct required balance : N)
| InsufficientDelegateBalance (acct required balance : N)
| InsufficientTransferBalance (acct required balance : N)
| InsufficientWithdrawBalance (acct required balance : N).

(** [VAppPanic], crates/vapp/src/errors.rs 54-196.  Human-readable strings ([error], hex ids) are
    dropped; variants that no code path constructs ([InsufficientBalance]) are dropped too. *)
Inductive panic : Type :=
| OnchainTxOutOfOrder (expected actual : N)
| BlockNumberOutOfOrder (expected actual : N)
| LogIndexOutOfOrder (current next : N)
| InvalidMessageFormat
| FailedToSerializeMessage
| InvalidSignature
| MissingProtoBody
| OnlyOwnerCanDelegate
| RequestIdMismatch (found expected : bytes)
| InvalidU256Amount (amount : bytes)
| MissingPgusUsed
| GasLimitExceeded (pgus gas_limit : N)
| AccountDoesNotExist (acct : N)
| ProverNotInWhitelist (prover : N)
| ExecutionFailed (status : Z)
| TransactionAlreadyProcessed (id : N)
| UnsupportedProofMode (mode : Z)
| InvalidProof
| InvalidTransferAmount (amount : bytes)
| DomainMismatch (expected actual : N)
| ProverDelegatedSignerMismatch (prover signer : N)
| AuctioneerMismatch (request_auctioneer settle_signer : N)
| ExecutorMismatch (request_executor execute_signer : N)
| AddressDeserializationFailed
| DomainDeserializationFailed
| InvalidVerifierSignature
| FailedToParseBytes
| MissingPublicValuesHash
| MaxPricePerPguExceeded (max_price price : N)
| U256ParseError
| MissingFulfill
| MissingVerifierSignature
| MissingPunishment
| PunishmentExceedsMaxCost (punishment max_price : N)
| PublicValuesHashMismatch
| ProverDoesNotExist (prover : N)
| ProtocolFeeTooHigh (bips : N)
| StakerFeeTooHigh (bips : N)
| TotalFeeTooHigh (protocol_bips staker_bips : N)
| InvalidTransactionVariant
| KeyNotAllowed
| OnlyAccountCanWithdraw
| ArithmeticOverflow.

(** [ExecuteOutcome], crates/vapp/src/state.rs 27-35. *)
Inductive outcome : Type :=
| Applied (r : option receipt)
| Reverted (v : revert).
