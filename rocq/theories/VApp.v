(** The settlement contract, contracts/src/SuccinctVApp.sol, with contracts/src/libraries/Receipts.sol.

    Events are in [VAppEvents.v].  Not modelled: gas, the proxy and its upgrades, reentrancy (the only contracts called are the
    token, the vault, the staking contract and the verifier, none of which calls back). *)
From Verif Require Export Token Abi.
Open Scope N_scope.

(** [Transaction], contracts/src/libraries/PublicValues.sol 5-14. *)
Record l1_tx : Type := L1Tx {
  lt_variant : sol_variant;
  lt_status : tx_status;
  lt_id : N;
  lt_action : bytes
}.

(** What an unused entry of a mapping holds (Solidity default values).  (contracts/src/SuccinctVApp.sol 88;
    contracts/src/libraries/PublicValues.sol 5-14.) *)
Definition l1_tx_default : l1_tx := L1Tx VDeposit StNone 0 [].

(** The storage of the contract, contracts/src/SuccinctVApp.sol 52-88, of its parents Ownable and
    Pausable, and the token it holds. *)
Record l1_state : Type := VApp {
  va_owner : N;
  va_paused : bool;
  va_vkey : N;
  va_auctioneer : N;
  va_staking : N;
  va_verifier : N;
  va_block : N;
  va_min_deposit : N;
  va_current : N;
  va_finalized : N;
  va_roots : gmap N N;
  va_timestamps : gmap N N;
  va_txs : gmap N l1_tx;
  va_prove : token
}.

(** Why a call reverts: the errors of contracts/src/interfaces/ISuccinctVApp.sol,
    contracts/src/libraries/Receipts.sol 15-21 and of the called contracts. *)
Inductive l1_error : Type :=
| L1NotOwner | L1NotAuctioneer | L1NotStaking | L1Paused | L1NotPaused
| L1ZeroAddress | L1ZeroHash | L1ProverNotOwned | L1BelowMinimum
| L1ProofRejected | L1BadEncoding | L1InvalidRoot | L1InvalidOldRoot
| L1InvalidTimestamp | L1TimestampInPast | L1TimestampTooOld
| L1Overflow | L1OutOfOrder | L1StatusInvalid | L1VariantInvalid
| L1VariantMismatch | L1ReceiptMismatch | L1UnsupportedVariant
| L1PermitRejected | L1VaultRejected | L1Token (e : token_error).

(** Deployment constants and external code: the contract's own address, the address of the $iPROVE
    vault, [ISP1Verifier.verifyProof] at an address, and [abi.decode] of the public values
    (contracts/src/SuccinctVApp.sol 58, 229-230). *)
Record l1_env : Type := L1Env {
  le_self : N;
  le_iprove : N;
  le_verify : N -> N -> bytes -> bytes -> bool;
  le_decode : bytes -> option step_pv
}.

(** What a call sees of the chain: sender, time, the staking contract's [isProver], the [owner()] of a
    prover contract, whether the $iPROVE vault accepts a deposit, whether a permit signature is valid
    (contracts/src/SuccinctVApp.sol 195, 210, 451, 453). *)
Record l1_ctx : Type := L1Ctx {
  cx_sender : N;
  cx_time : N;
  cx_is_prover : N -> bool;
  cx_owner_of : N -> N;
  cx_vault_accepts : N -> N -> bool;
  cx_permit_valid : bool
}.

(** Assignment to [currentOnchainTxId] and [transactions], contracts/src/SuccinctVApp.sol 350-362. *)
Definition va_set_queue (current : N) (txs : gmap N l1_tx) (v : l1_state) : l1_state :=
  VApp (va_owner v) (va_paused v) (va_vkey v) (va_auctioneer v) (va_staking v) (va_verifier v) (va_block v)
    (va_min_deposit v) current (va_finalized v) (va_roots v) (va_timestamps v) txs (va_prove v).
(** Assignment to [finalizedOnchainTxId] and [transactions], contracts/src/SuccinctVApp.sol 378-418. *)
Definition va_set_finalized (finalized : N) (txs : gmap N l1_tx) (v : l1_state) : l1_state :=
  VApp (va_owner v) (va_paused v) (va_vkey v) (va_auctioneer v) (va_staking v) (va_verifier v) (va_block v)
    (va_min_deposit v) (va_current v) finalized (va_roots v) (va_timestamps v) txs (va_prove v).
(** Assignment to [blockNumber], [roots] and [timestamps], contracts/src/SuccinctVApp.sol 222-296. *)
Definition va_set_block (block root timestamp : N) (v : l1_state) : l1_state :=
  VApp (va_owner v) (va_paused v) (va_vkey v) (va_auctioneer v) (va_staking v) (va_verifier v) block
    (va_min_deposit v) (va_current v) (va_finalized v) (<[block := root]> (va_roots v))
    (<[block := timestamp]> (va_timestamps v)) (va_txs v) (va_prove v).
(** The token after a call of it, contracts/src/SuccinctVApp.sol 333-346, 445-460. *)
Definition va_set_prove (t : token) (v : l1_state) : l1_state :=
  VApp (va_owner v) (va_paused v) (va_vkey v) (va_auctioneer v) (va_staking v) (va_verifier v) (va_block v)
    (va_min_deposit v) (va_current v) (va_finalized v) (va_roots v) (va_timestamps v) (va_txs v) t.
(** Assignment to the settings, contracts/src/SuccinctVApp.sol 268-326, 463-488. *)
Definition va_set_admin (owner : N) (paused : bool) (vkey auctioneer staking verifier min_deposit : N)
    (v : l1_state) : l1_state :=
  VApp owner paused vkey auctioneer staking verifier (va_block v) min_deposit (va_current v)
    (va_finalized v) (va_roots v) (va_timestamps v) (va_txs v) (va_prove v).

(** [root], contracts/src/SuccinctVApp.sol 165-167. *)
Definition va_root (v : l1_state) : N := default 0 (va_roots v !! va_block v).
(** [timestamp], contracts/src/SuccinctVApp.sol 170-172. *)
Definition va_timestamp (v : l1_state) : N := default 0 (va_timestamps v !! va_block v).

(** A revert inside a call propagates (EVM).  (As in contracts/src/SuccinctVApp.sol 179-296.) *)
Definition l1_bind {X Y} (r : result X l1_error) (f : X -> result Y l1_error) : result Y l1_error :=
  match r with Ok x => f x | Err e => Err e end.
Notation "'let?' x := m 'in' k" := (l1_bind m (fun x => k))
  (at level 200, x pattern, m at level 100, k at level 200, right associativity).

(** [require]-style checks.  (As in contracts/src/SuccinctVApp.sol 222-261.) *)
Definition l1_require (b : bool) (e : l1_error) : result unit l1_error := if b then Ok tt else Err e.
(** Solidity's checked increment of a [uint64].  (As in contracts/src/SuccinctVApp.sol 350-362.) *)
Definition l1_succ (n : N) : result N l1_error := if n + 1 <? two64 then Ok (n + 1) else Err L1Overflow.
(** A call of the token; its revert propagates.  (As in contracts/src/SuccinctVApp.sol 333-346, 445-460.) *)
Definition l1_token {X} (r : result X token_error) : result X l1_error :=
  match r with Ok x => Ok x | Err e => Err (L1Token e) end.

(** ** Decoding of actions *)

(** [abi.decode(_, (DepositAction))], contracts/src/libraries/Receipts.sol 45-46: too short a string and
    an address with high bits revert, trailing bytes are ignored. *)
Definition l1_decode_deposit (bs : bytes) : result deposit_action l1_error :=
  match read_word bs 0, read_word bs 32 with
  | Some a, Some x => if a <? two160 then Ok (DepositAction a x) else Err L1BadEncoding
  | _, _ => Err L1BadEncoding
  end.
(** [abi.decode(_, (CreateProverAction))], contracts/src/libraries/Receipts.sol 67-68. *)
Definition l1_decode_create (bs : bytes) : result create_prover_action l1_error :=
  match read_word bs 0, read_word bs 32, read_word bs 64 with
  | Some p, Some o, Some b =>
      if (p <? two160) && (o <? two160) then Ok (CreateProverAction p o b) else Err L1BadEncoding
  | _, _, _ => Err L1BadEncoding
  end.
(** [abi.decode(_, (WithdrawAction))], contracts/src/SuccinctVApp.sol 437. *)
Definition l1_decode_withdraw (bs : bytes) : result withdraw_action l1_error :=
  match read_word bs 0, read_word bs 32 with
  | Some a, Some x => if a <? two160 then Ok (WithdrawAction a x) else Err L1BadEncoding
  | _, _ => Err L1BadEncoding
  end.

(** ** Receipts.sol *)

(** [_assertDepositEq], contracts/src/libraries/Receipts.sol 35-54. *)
Definition assert_deposit_eq (t : l1_tx) (r : sol_receipt) : result unit l1_error :=
  if negb (bool_decide (sr_variant r = VDeposit)) then Err L1VariantMismatch
  else if negb (bool_decide (lt_variant t = VDeposit)) then Err L1VariantMismatch
  else
    let? d := l1_decode_deposit (lt_action t) in
    let? e := l1_decode_deposit (sr_action r) in
    let? _ := l1_require (da_account d =? da_account e) L1ReceiptMismatch in
    l1_require (da_amount d =? da_amount e) L1ReceiptMismatch.

(** [_assertProverEq], contracts/src/libraries/Receipts.sol 57-79. *)
Definition assert_prover_eq (t : l1_tx) (r : sol_receipt) : result unit l1_error :=
  if negb (bool_decide (sr_variant r = VCreateProver)) then Err L1VariantMismatch
  else if negb (bool_decide (lt_variant t = VCreateProver)) then Err L1VariantMismatch
  else
    let? c := l1_decode_create (lt_action t) in
    let? e := l1_decode_create (sr_action r) in
    let? _ := l1_require (cp_prover c =? cp_prover e) L1ReceiptMismatch in
    let? _ := l1_require (cp_owner c =? cp_owner e) L1ReceiptMismatch in
    l1_require (cp_bips c =? cp_bips e) L1ReceiptMismatch.

(** [assertEq], contracts/src/libraries/Receipts.sol 24-32. *)
Definition assert_eq (t : l1_tx) (r : sol_receipt) : result unit l1_error :=
  match sr_variant r with
  | VDeposit => assert_deposit_eq t r
  | VCreateProver => assert_prover_eq t r
  | VWithdraw => Err L1UnsupportedVariant
  end.

(** ** Internal functions *)

(** [_createTransaction], contracts/src/SuccinctVApp.sol 350-363. *)
Definition create_transaction (variant : sol_variant) (data : bytes) (v : l1_state) : result l1_state l1_error :=
  let? id := l1_succ (va_current v) in
  Ok (va_set_queue id (<[id := L1Tx variant StPending id data]> (va_txs v)) v).

(** [_deposit], contracts/src/SuccinctVApp.sol 333-347. *)
Definition deposit_from (L : l1_env) (from amount : N) (v : l1_state) : result l1_state l1_error :=
  if amount <? va_min_deposit v then Err L1BelowMinimum
  else
    let? v1 := create_transaction VDeposit (abi_deposit (DepositAction from amount)) v in
    let? t := l1_token (tk_transfer_from (va_prove v1) (le_self L) from (le_self L) amount) in
    Ok (va_set_prove t v1).

(** [_handleOnchainReceipt], contracts/src/SuccinctVApp.sol 378-418. *)
Definition handle_onchain_receipt (r : sol_receipt) (v : l1_state) : result l1_state l1_error :=
  let? id := l1_succ (va_finalized v) in
  if negb (id =? sr_tx_id r) then Err L1OutOfOrder
  else
    match sr_status r with
    | StNone | StPending => Err L1StatusInvalid
    | StCompleted | StReverted =>
        let t := default l1_tx_default (va_txs v !! id) in
        let? _ := assert_eq t r in
        let v1 := va_set_finalized id
          (<[id := L1Tx (lt_variant t) (sr_status r) (lt_id t) (lt_action t)]> (va_txs v)) v in
        match sr_status r, sr_variant r with
        | StReverted, _ => Ok v1
        | _, VWithdraw => Err L1VariantInvalid
        | _, _ => Ok v1
        end
    end.

(** [_processWithdraw], contracts/src/SuccinctVApp.sol 445-460.  [IERC4626(iProve).deposit] pulls the
    amount with the vault as spender (external OpenZeppelin ERC4626); the shares it mints are not part of
    this contract. *)
Definition process_withdraw (L : l1_env) (x : l1_ctx) (to amount : N) (v : l1_state) : result l1_state l1_error :=
  if cx_is_prover x to then
    let? _ := l1_require (cx_vault_accepts x to amount) L1VaultRejected in
    let? t := l1_token (tk_transfer_from (va_prove v) (le_iprove L) (le_self L) (le_iprove L) amount) in
    Ok (va_set_prove t v)
  else
    let? t := l1_token (tk_transfer (va_prove v) (le_self L) to amount) in
    Ok (va_set_prove t v).

(** [_handleOffchainReceipt], contracts/src/SuccinctVApp.sol 421-442. *)
Definition handle_offchain_receipt (L : l1_env) (x : l1_ctx) (r : sol_receipt) (v : l1_state)
    : result l1_state l1_error :=
  match sr_status r with
  | StNone | StPending => Err L1StatusInvalid
  | StReverted => Ok v
  | StCompleted =>
      match sr_variant r with
      | VWithdraw =>
          let? w := l1_decode_withdraw (sr_action r) in
          process_withdraw L x (wa_account w) (wa_amount w) v
      | _ => Err L1VariantInvalid
      end
  end.

(** [_handleReceipts], contracts/src/SuccinctVApp.sol 366-375. *)
Fixpoint handle_receipts (L : l1_env) (x : l1_ctx) (rs : list sol_receipt) (v : l1_state)
    : result l1_state l1_error :=
  match rs with
  | [] => Ok v
  | r :: rest =>
      let? v1 := (if negb (sr_tx_id r =? u64_max) then handle_onchain_receipt r v
                 else handle_offchain_receipt L x r v) in
      handle_receipts L x rest v1
  end.

(** ** External functions *)

(** [step], contracts/src/SuccinctVApp.sol 222-261. *)
Definition l1_step (L : l1_env) (x : l1_ctx) (public_values proof : bytes) (v : l1_state)
    : result l1_state l1_error :=
  let? _ := l1_require (cx_sender x =? va_auctioneer v) L1NotAuctioneer in
  let? _ := l1_require (negb (va_paused v)) L1Paused in
  let? _ := l1_require (le_verify L (va_verifier v) (va_vkey v) public_values proof) L1ProofRejected in
  match le_decode L public_values with
  | None => Err L1BadEncoding
  | Some pv =>
      let? _ := l1_require (negb (pv_new_root pv =? 0)) L1InvalidRoot in
      let? _ := l1_require (va_root v =? pv_old_root pv) L1InvalidOldRoot in
      let? _ := l1_require (pv_timestamp pv <=? cx_time x) L1InvalidTimestamp in
      let? _ := l1_require (va_timestamp v <=? pv_timestamp pv) L1TimestampInPast in
      let? _ := l1_require (cx_time x - pv_timestamp pv <=? 3600) L1TimestampTooOld in
      let? block := l1_succ (va_block v) in
      handle_receipts L x (pv_receipts pv) (va_set_block block (pv_new_root pv) (pv_timestamp pv) v)
  end.

(** [createProver], contracts/src/SuccinctVApp.sol 202-219. *)
Definition l1_create_prover (x : l1_ctx) (prover owner bips : N) (v : l1_state) : result l1_state l1_error :=
  let? _ := l1_require (cx_sender x =? va_staking v) L1NotStaking in
  let? _ := l1_require (negb (va_paused v)) L1Paused in
  let? _ := l1_require (negb (owner =? 0)) L1ZeroAddress in
  let? _ := l1_require (owner =? cx_owner_of x prover) L1ProverNotOwned in
  create_transaction VCreateProver (abi_create_prover (CreateProverAction prover owner bips)) v.

(** [deposit], contracts/src/SuccinctVApp.sol 179-181. *)
Definition l1_deposit (L : l1_env) (x : l1_ctx) (amount : N) (v : l1_state) : result l1_state l1_error :=
  let? _ := l1_require (negb (va_paused v)) L1Paused in
  deposit_from L (cx_sender x) amount v.

(** [permitAndDeposit], contracts/src/SuccinctVApp.sol 184-199; the permit sets the allowance. *)
Definition l1_permit_and_deposit (L : l1_env) (x : l1_ctx) (from amount : N) (v : l1_state)
    : result l1_state l1_error :=
  let? _ := l1_require (negb (va_paused v)) L1Paused in
  let? v1 := (if tk_allowance (va_prove v) from (le_self L) =? amount then Ok v
             else if cx_permit_valid x
                  then Ok (va_set_prove (tk_approve (va_prove v) from (le_self L) amount) v)
                  else Err L1PermitRejected) in
  deposit_from L from amount v1.

(** [fork], contracts/src/SuccinctVApp.sol 268-296; [uint64(block.timestamp)] truncates. *)
Definition l1_fork (x : l1_ctx) (vkey root : N) (v : l1_state) : result l1_state l1_error :=
  let? _ := l1_require (cx_sender x =? va_owner v) L1NotOwner in
  let? _ := l1_require (negb ((vkey =? 0) || (root =? 0))) L1ZeroHash in
  let? block := l1_succ (va_block v) in
  Ok (va_set_block block root (cx_time x mod two64)
        (va_set_admin (va_owner v) (va_paused v) vkey (va_auctioneer v) (va_staking v) (va_verifier v)
           (va_min_deposit v) v)).

(** The calls of the contract's owner, contracts/src/SuccinctVApp.sol 299-326 and 463-488, and
    [transferOwnership] and [renounceOwnership] of OpenZeppelin's Ownable (44). *)
Inductive admin_call : Type :=
| AUpdateAuctioneer (a : N)
| AUpdateStaking (a : N)
| AUpdateVerifier (a : N)
| AUpdateMinDeposit (amount : N)
| APause
| AUnpause
| ATransferOwnership (a : N)
| ARenounceOwnership.

(** contracts/src/SuccinctVApp.sol 299-326, 463-488. *)
Definition l1_admin (x : l1_ctx) (c : admin_call) (v : l1_state) : result l1_state l1_error :=
  let? _ := l1_require (cx_sender x =? va_owner v) L1NotOwner in
  let set owner paused auctioneer staking verifier min :=
    Ok (va_set_admin owner paused (va_vkey v) auctioneer staking verifier min v) in
  let o := va_owner v in let p := va_paused v in let a := va_auctioneer v in
  let s := va_staking v in let f := va_verifier v in let m := va_min_deposit v in
  match c with
  | AUpdateAuctioneer a' => set o p a' s f m
  | AUpdateStaking s' => set o p a s' f m
  | AUpdateVerifier f' => set o p a s f' m
  | AUpdateMinDeposit m' => set o p a s f m'
  | APause => if p then Err L1Paused else set o true a s f m
  | AUnpause => if p then set o false a s f m else Err L1NotPaused
  | ATransferOwnership o' => if o' =? 0 then Err L1ZeroAddress else set o' p a s f m
  | ARenounceOwnership => set 0 p a s f m
  end.

(** [initialize], contracts/src/SuccinctVApp.sol 116-158, on a fresh contract; [None] is a revert. *)
Definition l1_initialize (L : l1_env) (prove : token)
    (owner prove_address auctioneer staking verifier min_deposit vkey genesis : N) : option l1_state :=
  if (owner =? 0) || (prove_address =? 0) || (le_iprove L =? 0) || (auctioneer =? 0) || (staking =? 0) ||
     (verifier =? 0) || (vkey =? 0) || (genesis =? 0) then None
  else Some (VApp owner false vkey auctioneer staking verifier 0 min_deposit 0 0 {[ 0 := genesis ]} ∅ ∅
               (tk_approve prove (le_self L) (le_iprove L) u256_max)).

(** The external functions that change the contract.  (contracts/src/SuccinctVApp.sol 179-326.) *)
Inductive l1_call : Type :=
| CDeposit (amount : N)
| CPermitAndDeposit (from amount : N)
| CCreateProver (prover owner bips : N)
| CStep (public_values proof : bytes)
| CFork (vkey root : N)
| CAdmin (c : admin_call).

(** contracts/src/SuccinctVApp.sol 179-326. *)
Definition l1_run (L : l1_env) (x : l1_ctx) (c : l1_call) (v : l1_state) : result l1_state l1_error :=
  match c with
  | CDeposit amount => l1_deposit L x amount v
  | CPermitAndDeposit from amount => l1_permit_and_deposit L x from amount v
  | CCreateProver prover owner bips => l1_create_prover x prover owner bips v
  | CStep pv proof => l1_step L x pv proof v
  | CFork vkey root => l1_fork x vkey root v
  | CAdmin c => l1_admin x c v
  end.

(** A transaction that calls the contract: a revert undoes everything (EVM).  (As for each function of
    contracts/src/SuccinctVApp.sol 179-326.) *)
Definition l1_transact (L : l1_env) (x : l1_ctx) (c : l1_call) (v : l1_state) : l1_state * option l1_error :=
  match l1_run L x c v with
  | Ok v' => (v', None)
  | Err e => (v, Some e)
  end.
