(** The events and the returned values of the settlement contract, contracts/src/SuccinctVApp.sol.  [VApp.v] models what
    its functions do; here is what the same functions emit when they do not revert.  The events of the token and of the
    vault are not those of this contract and are left out, as is [Initialized] of OpenZeppelin's Initializable. *)
From Verif Require Export VApp.
Open Scope N_scope.

(** contracts/src/interfaces/ISuccinctVApp.sol 9-45, and of OpenZeppelin [OwnershipTransferred] (Ownable), [Paused] and
    [Unpaused] (Pausable), contracts/src/SuccinctVApp.sol 44-46. *)
Inductive l1_event : Type :=
| EvCompleted (id : N) (variant : sol_variant) (data : bytes)
| EvReverted (id : N) (variant : sol_variant) (data : bytes)
| EvPending (id : N) (variant : sol_variant) (data : bytes)
| EvBlock (block old_root new_root : N)
| EvFork (block old_vkey new_vkey : N)
| EvDeposit (from amount : N)
| EvWithdraw (to amount : N)
| EvAuctioneer (old new : N)
| EvStaking (old new : N)
| EvVerifier (old new : N)
| EvMinDeposit (old new : N)
| EvOwner (old new : N)
| EvPaused (by_ : N)
| EvUnpaused (by_ : N).

(** [_createTransaction], contracts/src/SuccinctVApp.sol 350-363. *)
Definition create_transaction_events (variant : sol_variant) (data : bytes) (v : l1_state) : list l1_event :=
  [EvPending (va_current v + 1) variant data].

(** [_deposit], contracts/src/SuccinctVApp.sol 333-347. *)
Definition deposit_from_events (from amount : N) (v : l1_state) : list l1_event :=
  create_transaction_events VDeposit (abi_deposit (DepositAction from amount)) v ++ [EvDeposit from amount].

(** [_handleOnchainReceipt], contracts/src/SuccinctVApp.sol 378-418. *)
Definition onchain_events (r : sol_receipt) (v : l1_state) : list l1_event :=
  let id := va_finalized v + 1 in
  match sr_status r with
  | StReverted => [EvReverted id (sr_variant r) (sr_action r)]
  | _ => [EvCompleted id (sr_variant r) (sr_action r)]
  end.

(** [_handleOffchainReceipt] with [_processWithdraw], contracts/src/SuccinctVApp.sol 421-442, 445-460. *)
Definition offchain_events (r : sol_receipt) : list l1_event :=
  match sr_status r with
  | StReverted => [EvReverted (sr_tx_id r) (sr_variant r) (sr_action r)]
  | _ => match l1_decode_withdraw (sr_action r) with
         | Ok w => [EvWithdraw (wa_account w) (wa_amount w)]
         | Err _ => []
         end
  end.

(** [_handleReceipts], contracts/src/SuccinctVApp.sol 366-375. *)
Fixpoint receipts_events (L : l1_env) (x : l1_ctx) (rs : list sol_receipt) (v : l1_state) : list l1_event :=
  match rs with
  | [] => []
  | r :: rest =>
      let chain := negb (sr_tx_id r =? u64_max) in
      (if chain then onchain_events r v else offchain_events r) ++
      match (if chain then handle_onchain_receipt r v else handle_offchain_receipt L x r v) with
      | Ok v1 => receipts_events L x rest v1
      | Err _ => []
      end
  end.

(** [step], contracts/src/SuccinctVApp.sol 222-261. *)
Definition step_events (L : l1_env) (x : l1_ctx) (public_values : bytes) (v : l1_state) : list l1_event :=
  match le_decode L public_values with
  | None => []
  | Some pv =>
      receipts_events L x (pv_receipts pv) (va_set_block (va_block v + 1) (pv_new_root pv) (pv_timestamp pv) v) ++
      [EvBlock (va_block v + 1) (pv_old_root pv) (pv_new_root pv)]
  end.

(** [fork], contracts/src/SuccinctVApp.sol 268-296. *)
Definition fork_events (vkey root : N) (v : l1_state) : list l1_event :=
  [EvFork (va_block v + 1) (va_vkey v) vkey; EvBlock (va_block v + 1) (va_root v) root].

(** The calls of the owner, contracts/src/SuccinctVApp.sol 299-326 and 463-488, and of OpenZeppelin's Ownable (44). *)
Definition admin_events (x : l1_ctx) (c : admin_call) (v : l1_state) : list l1_event :=
  match c with
  | AUpdateAuctioneer a => [EvAuctioneer (va_auctioneer v) a]
  | AUpdateStaking a => [EvStaking (va_staking v) a]
  | AUpdateVerifier a => [EvVerifier (va_verifier v) a]
  | AUpdateMinDeposit amount => [EvMinDeposit (va_min_deposit v) amount]
  | APause => [EvPaused (cx_sender x)]
  | AUnpause => [EvUnpaused (cx_sender x)]
  | ATransferOwnership a => [EvOwner (va_owner v) a]
  | ARenounceOwnership => [EvOwner (va_owner v) 0]
  end.

(** [initialize], contracts/src/SuccinctVApp.sol 116-158: all fields are zero before. *)
Definition initialize_events (owner auctioneer staking verifier min_deposit vkey genesis : N) : list l1_event :=
  [EvOwner 0 owner; EvAuctioneer 0 auctioneer; EvStaking 0 staking; EvVerifier 0 verifier; EvMinDeposit 0 min_deposit;
   EvFork 0 0 vkey; EvBlock 0 0 genesis].

(** What an accepted call emits, contracts/src/SuccinctVApp.sol 179-326. *)
Definition l1_events (L : l1_env) (x : l1_ctx) (c : l1_call) (v : l1_state) : list l1_event :=
  match c with
  | CDeposit amount => deposit_from_events (cx_sender x) amount v
  | CPermitAndDeposit from amount => deposit_from_events from amount v
  | CCreateProver prover owner bips =>
      create_transaction_events VCreateProver (abi_create_prover (CreateProverAction prover owner bips)) v
  | CStep pv _ => step_events L x pv v
  | CFork vkey root => fork_events vkey root v
  | CAdmin c => admin_events x c v
  end.

(** What an accepted call returns, contracts/src/SuccinctVApp.sol 179-296: the id of a transaction, or a block number with
    the root before it and its own. *)
Inductive l1_output : Type := ONothing | OTransaction (id : N) | OBlock (block old_root new_root : N).
(** contracts/src/SuccinctVApp.sol 180, 198, 218, 260, 295, 338, 354. *)
Definition l1_returns (L : l1_env) (c : l1_call) (v : l1_state) : l1_output :=
  match c with
  | CDeposit _ | CPermitAndDeposit _ _ | CCreateProver _ _ _ => OTransaction (va_current v + 1)
  | CStep pv _ =>
      match le_decode L pv with
      | Some p => OBlock (va_block v + 1) (pv_old_root p) (pv_new_root p)
      | None => ONothing
      end
  | CFork _ root => OBlock (va_block v + 1) (va_root v) root
  | CAdmin _ => ONothing
  end.
