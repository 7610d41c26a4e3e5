(** The ledger: [VAppState::execute], crates/vapp/src/state.rs. *)
From Verif Require Export Prog Fee.
Open Scope N_scope.

(** ** Accounts, crates/vapp/src/sol.rs 120-185 *)

(** [Account] with a new balance (the assignment inside sol.rs 127-138). *)
Definition set_balance (a : account) (b : N) : account :=
  Account b (acc_owner a) (acc_signer a) (acc_bips a).
(** [set_owner], crates/vapp/src/sol.rs 141-144. *)
Definition set_owner (a : account) (o : N) : account :=
  Account (acc_balance a) o (acc_signer a) (acc_bips a).
(** [set_signer], crates/vapp/src/sol.rs 165-168. *)
Definition set_signer (a : account) (s : N) : account :=
  Account (acc_balance a) (acc_owner a) s (acc_bips a).
(** [set_staker_fee_bips], crates/vapp/src/sol.rs 181-184. *)
Definition set_staker_fee_bips (a : account) (b : N) : account :=
  Account (acc_balance a) (acc_owner a) (acc_signer a) b.

(** [self.accounts.entry(k)?.or_default().add_balance(amount)?]
    (crates/vapp/src/sol.rs 127-130; crates/vapp/src/state.rs 203-206, 349, 449, 455, 598, 783, 966, 972, 978). *)
Definition credit (k amount : N) : prog unit :=
  let! a := acc_entry k in
  let! b := lift (u256_add (acc_balance a) amount) in
  acc_put k (set_balance a b).

(** [self.accounts.entry(k)?.or_default().deduct_balance(amount)?]
    (crates/vapp/src/sol.rs 133-136; crates/vapp/src/state.rs 345, 447, 453, 556, 559, 590, 593, 777, 948). *)
Definition debit (k amount : N) : prog unit :=
  let! a := acc_entry k in
  let! b := lift (u256_sub (acc_balance a) amount) in
  acc_put k (set_balance a b).

(** [self.accounts.get(&k)?.map_or(U256::ZERO, Account::get_balance)]
    (crates/vapp/src/state.rs 333-334, 435, 542, 565, 577, 761-764). *)
Definition balance_of (k : N) : prog N :=
  let! o := acc_get k in
  Ret (match o with Some a => acc_balance a | None => 0 end).

(** [address(bytes)?] (crates/vapp/src/utils.rs 22-24) and [Address::try_from(..).map_err(..)?]. *)
Definition parse_address (bs : bytes) : prog N :=
  ok_or (address_of_bytes bs) AddressDeserializationFailed.

(** [tx_variant(v)?] followed by the comparison with the expected variant
    (crates/vapp/src/utils.rs 27-29; crates/vapp/src/state.rs 261-264, 376-379, 469-472, 819-822). *)
Definition check_variant (tag : Z) (expected : msg_variant) : prog unit :=
  let! v := ok_or (variant_of_tag tag) InvalidTransactionVariant in
  ensure (variant_eqb v expected) InvalidTransactionVariant.

(** Parse a message's domain and compare it with the ledger's
    (crates/vapp/src/state.rs 268-275, 389-396, 482-489, 652-661, 809-816); [e] is the error for a
    domain that is not 32 bytes long. *)
Definition check_domain (domain : bytes) (e : panic) : prog unit :=
  let! actual := ok_or (b256_of_bytes domain) e in
  let! expected := get_domain in
  ensure (actual =? expected) (DomainMismatch expected actual).

(** [MessageFormat::try_from(format)?] (crates/vapp/src/state.rs 279-281, 383-384, 476-477,
    614-623, 803-804). *)
Definition parse_format (tag : Z) : prog msg_format :=
  ok_or (format_of_tag tag) InvalidMessageFormat.

(** [s.parse::<U256>().map_err(|_| e)?].  (As in crates/vapp/src/state.rs 307, 415, 423, 521, 730-733.) *)
Definition parse_amount (E : env) (s : bytes) (e : panic) : prog N :=
  ok_or (parse_u256 E s) e.

(** ** On-chain transactions *)

(** [validate_onchain_tx], crates/vapp/src/state.rs 124-154. *)
Definition validate_onchain_tx (block log_index l1_tx : N) : prog unit :=
  let! (cur_tx, cur_block, cur_log) := get_cursor in
  do! ensure (l1_tx =? cur_tx) (OnchainTxOutOfOrder cur_tx l1_tx) in
  do! ensure (negb (block <? cur_block)) (BlockNumberOutOfOrder cur_block block) in
  ensure (negb ((block =? cur_block) && (log_index <=? cur_log)))
    (LogIndexOutOfOrder cur_log log_index).

(** [self.onchain_tx_id += 1; self.onchain_block = ..; self.onchain_log_index = ..],
    crates/vapp/src/state.rs 194-196, 225-227. *)
Definition advance_cursor (block log_index : N) : prog unit :=
  let! (cur_tx, _, _) := get_cursor in
  set_cursor (u64_succ cur_tx) block log_index.

(** Deposit, crates/vapp/src/state.rs 184-214. *)
Definition exec_deposit (d : onchain deposit_action) : prog outcome :=
  do! validate_onchain_tx (oc_block d) (oc_log_index d) (oc_tx d) in
  do! advance_cursor (oc_block d) (oc_log_index d) in
  do! credit (da_account (oc_action d)) (da_amount (oc_action d)) in
  Ret (Applied (Some (RDeposit (OnchainReceipt (oc_tx d) StCompleted (oc_action d))))).

(** CreateProver, crates/vapp/src/state.rs 215-249. *)
Definition exec_create_prover (c : onchain create_prover_action) : prog outcome :=
  do! validate_onchain_tx (oc_block c) (oc_log_index c) (oc_tx c) in
  do! advance_cursor (oc_block c) (oc_log_index c) in
  let act := oc_action c in
  let! a := acc_entry (cp_prover act) in
  do! acc_put (cp_prover act)
        (set_staker_fee_bips (set_signer (set_owner a (cp_owner act)) (cp_owner act)) (cp_bips act)) in
  Ret (Applied (Some (RCreateProver (OnchainReceipt (oc_tx c) StCompleted act)))).

(** ** Signed transactions *)

(** [if *self.transactions.entry(id)?.or_default() { return Err(TransactionAlreadyProcessed) }]
    (crates/vapp/src/state.rs 289-293, 402-406, 495-499, 679-683). *)
Definition check_fresh (id : N) : prog unit :=
  let! seen := tx_entry id in
  ensure (negb seen) (TransactionAlreadyProcessed id).

(** Delegate, crates/vapp/src/state.rs 250-365. *)
Definition exec_delegate (E : env) (d : signed delegation_body) : prog outcome :=
  let! body := ok_or (s_body d) MissingProtoBody in
  do! check_variant (db_variant body) DelegateVariant in
  do! check_domain (db_domain body) DomainDeserializationFailed in
  let! format := parse_format (s_format d) in
  let! owner := lift (verify_signed_message E (encode_delegation body) (json_delegation E body)
                        (s_signature d) format) in
  let id := hash_with_signer E owner (encode_delegation body) in
  do! check_fresh id in
  do! tx_insert id true in
  let! prover := parse_address (db_prover body) in
  let! fee := parse_amount E (db_fee body) (InvalidU256Amount (db_fee body)) in
  let! auctioneer := parse_address (db_auctioneer body) in
  let! found := acc_get prover in
  let! prover_account := ok_or found (ProverDoesNotExist prover) in
  do! ensure (owner =? acc_owner prover_account) OnlyOwnerCanDelegate in
  let! owner_balance := balance_of owner in
  if owner_balance <? fee then
    Ret (Reverted (InsufficientDelegateBalance owner fee owner_balance))
  else
    do! debit owner fee in
    do! credit auctioneer fee in
    let! delegate := parse_address (db_delegate body) in
    let! found' := acc_get_mut prover in
    let! prover_account' := ok_or found' (ProverDoesNotExist prover) in
    do! acc_put prover (set_signer prover_account' delegate) in
    Ret (Applied None).

(** Transfer, crates/vapp/src/state.rs 366-458. *)
Definition exec_transfer (E : env) (t : signed transfer_body) : prog outcome :=
  let! body := ok_or (s_body t) MissingProtoBody in
  do! check_variant (tb_variant body) TransferVariant in
  let! format := parse_format (s_format t) in
  let! from := lift (verify_signed_message E (encode_transfer body) (json_transfer E body)
                       (s_signature t) format) in
  do! check_domain (tb_domain body) DomainDeserializationFailed in
  let id := hash_with_signer E from (encode_transfer body) in
  do! check_fresh id in
  do! tx_insert id true in
  let! to := parse_address (tb_to body) in
  let! amount := parse_amount E (tb_amount body) (InvalidTransferAmount (tb_amount body)) in
  let! fee := parse_amount E (tb_fee body) (InvalidU256Amount (tb_fee body)) in
  let! auctioneer := parse_address (tb_auctioneer body) in
  let! balance := balance_of from in
  let! total := lift (u256_add amount fee) in
  if balance <? total then
    Ret (Reverted (InsufficientTransferBalance from total balance))
  else
    do! debit from amount in
    do! credit to amount in
    do! debit from fee in
    do! credit auctioneer fee in
    Ret (Applied None).

(** Withdraw, crates/vapp/src/state.rs 459-605. *)
Definition exec_withdraw (E : env) (w : signed withdraw_body) : prog outcome :=
  let! body := ok_or (s_body w) MissingProtoBody in
  do! check_variant (wb_variant body) WithdrawVariant in
  let! format := parse_format (s_format w) in
  let! from := lift (verify_signed_message E (encode_withdraw body) (json_withdraw E body)
                       (s_signature w) format) in
  do! check_domain (wb_domain body) DomainDeserializationFailed in
  let id := hash_with_signer E from (encode_withdraw body) in
  do! check_fresh id in
  do! tx_insert id true in
  let! acct := parse_address (wb_account body) in
  let! found := acc_get acct in
  let owner := match found with Some a => acc_owner a | None => 0 end in
  do! ensure (negb ((owner =? 0) && negb (acct =? from))) OnlyAccountCanWithdraw in
  let! amount := parse_amount E (wb_amount body) (InvalidU256Amount (wb_amount body)) in
  let! fee := parse_amount E (wb_fee body) (InvalidU256Amount (wb_fee body)) in
  let! auctioneer := parse_address (wb_auctioneer body) in
  let finish :=
    do! credit auctioneer fee in
    Ret (Applied (Some (RWithdraw (OffchainReceipt StCompleted (WithdrawAction acct amount))))) in
  if acct =? from then
    let! balance := balance_of acct in
    let! total := lift (u256_add amount fee) in
    if balance <? total then
      Ret (Reverted (InsufficientWithdrawBalance acct total balance))
    else
      do! debit acct amount in
      do! debit acct fee in
      finish
  else
    let! prover_balance := balance_of acct in
    if prover_balance <? amount then
      Ret (Reverted (InsufficientWithdrawBalance acct amount prover_balance))
    else
      let! from_balance := balance_of from in
      if from_balance <? fee then
        Ret (Reverted (InsufficientWithdrawBalance from fee from_balance))
      else
        do! debit acct amount in
        do! debit from fee in
        finish.

(** ** Clear *)

(** What the checks of lines 608-736 establish about a Clear (local variables of the branch,
    crates/vapp/src/state.rs 606-736). *)
Record clear_ctx : Type := ClearCtx {
  cc_request : request_body;
  cc_bid : bid_body;
  cc_execute : execute_body;
  cc_requester : N;
  cc_request_id : N;
  cc_prover : N;
  cc_prover_owner : N;
  cc_base_fee : N;
  cc_max_price : N;
  cc_price : N
}.

(** The comparison of one message's request id with the computed one
    (crates/vapp/src/state.rs 667-674). *)
Definition check_request_id (id : N) (other : bytes) : prog unit :=
  ensure (bytes_eqb (be_bytes 32 id) other) (RequestIdMismatch (be_bytes 32 id) other).

(** Lines 608-736: presence, signatures, variants, domains, request ids, replay, prover, whitelist,
    auctioneer, executor and price of a Clear.  (crates/vapp/src/state.rs.) *)
Definition clear_checks (E : env) (c : clear_tx) : prog clear_ctx :=
  let! request := ok_or (s_body (cl_request c)) MissingProtoBody in
  let! bid := ok_or (s_body (cl_bid c)) MissingProtoBody in
  let! settle := ok_or (s_body (cl_settle c)) MissingProtoBody in
  let! execute := ok_or (s_body (cl_execute c)) MissingProtoBody in
  let! request_format := parse_format (s_format (cl_request c)) in
  let! bid_format := parse_format (s_format (cl_bid c)) in
  let! settle_format := parse_format (s_format (cl_settle c)) in
  let! execute_format := parse_format (s_format (cl_execute c)) in
  let! request_signer := lift (verify_signed_message E (encode_request request)
      (json_request E request) (s_signature (cl_request c)) request_format) in
  let! bid_signer := lift (verify_signed_message E (encode_bid bid)
      (json_bid E bid) (s_signature (cl_bid c)) bid_format) in
  let! settle_signer := lift (verify_signed_message E (encode_settle settle)
      (json_settle E settle) (s_signature (cl_settle c)) settle_format) in
  let! execute_signer := lift (verify_signed_message E (encode_execute execute)
      (json_execute E execute) (s_signature (cl_execute c)) execute_format) in
  let! request_variant := ok_or (variant_of_tag (rb_variant request)) InvalidTransactionVariant in
  let! bid_variant := ok_or (variant_of_tag (bb_variant bid)) InvalidTransactionVariant in
  let! settle_variant := ok_or (variant_of_tag (sb_variant settle)) InvalidTransactionVariant in
  let! execute_variant := ok_or (variant_of_tag (eb_variant execute)) InvalidTransactionVariant in
  do! ensure (variant_eqb request_variant RequestVariant) InvalidTransactionVariant in
  do! ensure (variant_eqb bid_variant BidVariant) InvalidTransactionVariant in
  do! ensure (variant_eqb settle_variant SettleVariant) InvalidTransactionVariant in
  do! ensure (variant_eqb execute_variant ExecuteVariant) InvalidTransactionVariant in
  do! check_domain (rb_domain request) FailedToParseBytes in
  do! check_domain (bb_domain bid) FailedToParseBytes in
  do! check_domain (sb_domain settle) FailedToParseBytes in
  do! check_domain (eb_domain execute) FailedToParseBytes in
  let request_id := hash_with_signer E request_signer (encode_request request) in
  do! check_request_id request_id (bb_request_id bid) in
  do! check_request_id request_id (sb_request_id settle) in
  do! check_request_id request_id (eb_request_id execute) in
  do! check_fresh request_id in
  let! prover := parse_address (bb_prover bid) in
  let! found := acc_get prover in
  let! prover_account := ok_or found (ProverDoesNotExist prover) in
  do! ensure (acc_signer prover_account =? bid_signer)
        (ProverDelegatedSignerMismatch prover (acc_signer prover_account)) in
  do! ensure (bool_decide (rb_whitelist request = []) ||
              bool_decide (be_bytes 20 prover ∈ rb_whitelist request))
        (ProverNotInWhitelist prover) in
  let! auctioneer := parse_address (rb_auctioneer request) in
  do! ensure (auctioneer =? settle_signer) (AuctioneerMismatch auctioneer settle_signer) in
  let! executor := parse_address (rb_executor request) in
  do! ensure (executor =? execute_signer) (ExecutorMismatch executor execute_signer) in
  let! base_fee := parse_amount E (rb_base_fee request) U256ParseError in
  let! max_price := parse_amount E (rb_max_price_per_pgu request) U256ParseError in
  let! price := parse_amount E (bb_amount bid) U256ParseError in
  do! ensure (negb (max_price <? price)) (MaxPricePerPguExceeded max_price price) in
  Ret (ClearCtx request bid execute request_signer request_id prover (acc_owner prover_account)
         base_fee max_price price).

(** Lines 742-789: the requester of an unexecutable request is punished.  (crates/vapp/src/state.rs.) *)
Definition clear_punish (E : env) (x : clear_ctx) : prog outcome :=
  let! s := ok_or (eb_punishment (cc_execute x)) MissingPunishment in
  let! punishment := parse_amount E s U256ParseError in
  let! m := lift (u256_mul (cc_max_price x) (rb_gas_limit (cc_request x))) in
  let! max_cost := lift (u256_add m (cc_base_fee x)) in
  do! ensure (negb (max_cost <? punishment)) (PunishmentExceedsMaxCost punishment max_cost) in
  let! balance := balance_of (cc_requester x) in
  if balance <? punishment then
    do! tx_insert (cc_request_id x) true in
    Ret (Reverted (InsufficientPunishmentBalance (cc_requester x) punishment balance))
  else
    do! debit (cc_requester x) punishment in
    let! treasury := parse_address (rb_treasury (cc_request x)) in
    do! credit treasury punishment in
    do! tx_insert (cc_request_id x) true in
    Ret (Applied None).

(** ["sp1-v6"], crates/vapp/src/state.rs 871. *)
Definition primary_version : bytes := [115; 112; 49; 45; 118; 54].

(** [bytes_to_words_be], crates/vapp/src/utils.rs 11-19. *)
Definition bytes_to_words_be (bs : bytes) : list N :=
  map (fun i => from_be (take 4 (drop (4 * i) bs))) (seq 0 8).

(** [<[u8; 32]>::try_from(slice)], kept as bytes (crates/vapp/src/state.rs 837-849, 860-864). *)
Definition array32 (bs : bytes) : option bytes :=
  if (length bs =? 32)%nat then Some bs else None.

(** Lines 799-898: the fulfilment is signed, belongs to this request, and its proof is accepted.
    (crates/vapp/src/state.rs.) *)
Definition clear_fulfillment (E : env) (c : clear_tx) (x : clear_ctx) : prog unit :=
  let request := cc_request x in
  let! fulfill := ok_or (cl_fulfill c) MissingFulfill in
  let! body := ok_or (s_body fulfill) MissingProtoBody in
  let! format := parse_format (s_format fulfill) in
  let! fulfill_signer := lift (verify_signed_message E (encode_fulfill body)
      (json_fulfill E body) (s_signature fulfill) format) in
  do! check_domain (fb_domain body) DomainDeserializationFailed in
  do! check_variant (fb_variant body) FulfillVariant in
  do! ensure (bytes_eqb (fb_request_id body) (be_bytes 32 (cc_request_id x)))
        (RequestIdMismatch (fb_request_id body) (be_bytes 32 (cc_request_id x))) in
  let! epvh := ok_or (eb_public_values_hash (cc_execute x)) MissingPublicValuesHash in
  let! execute_pvh := ok_or (array32 epvh) FailedToParseBytes in
  let! pvh :=
    match rb_public_values_hash request with
    | Some h =>
        let! request_pvh := ok_or (array32 h) FailedToParseBytes in
        do! ensure (bytes_eqb request_pvh execute_pvh) PublicValuesHashMismatch in
        Ret request_pvh
    | None => Ret execute_pvh
    end in
  let! vkb := ok_or (array32 (rb_vk_hash request)) FailedToParseBytes in
  let vk := bytes_to_words_be vkb in
  let! mode := ok_or (mode_of_tag (rb_mode request)) (UnsupportedProofMode (rb_mode request)) in
  let is_primary := starts_with (rb_version request) primary_version in
  let by_signature :=
    let! verify := ok_or (cl_verify c) MissingVerifierSignature in
    let fulfillment_id := hash_with_signer E fulfill_signer (encode_fulfill body) in
    let! verifier := lift (eth_sign_verify E (be_bytes 32 fulfillment_id) verify) in
    let! expected := parse_address (rb_verifier request) in
    ensure (verifier =? expected) InvalidVerifierSignature in
  match is_primary, mode with
  | true, CompressedMode => ensure (sp1_verify E vk pvh) InvalidProof
  | false, CompressedMode | _, Groth16Mode | _, PlonkMode => by_signature
  | _, _ => Fail (UnsupportedProofMode (rb_mode request))
  end.

(** Lines 901-980: the cost is computed, checked against the gas limit and the balance, and split.
    (crates/vapp/src/state.rs.) *)
Definition clear_pay (x : clear_ctx) : prog outcome :=
  let request := cc_request x in
  let requester := cc_requester x in
  let! pgus := ok_or (eb_pgus (cc_execute x)) MissingPgusUsed in
  let! m := lift (u256_mul (cc_price x) pgus) in
  let! cost := lift (u256_add m (cc_base_fee x)) in
  do! ensure (negb (rb_gas_limit request <? pgus)) (GasLimitExceeded pgus (rb_gas_limit request)) in
  let! found := acc_get requester in
  let! requester_account := ok_or found (AccountDoesNotExist requester) in
  if acc_balance requester_account <? cost then
    do! tx_insert (cc_request_id x) true in
    Ret (Reverted (InsufficientClearBalance requester cost (acc_balance requester_account)))
  else
    do! tx_insert (cc_request_id x) true in
    do! debit requester cost in
    let! treasury := parse_address (rb_treasury request) in
    let! found' := acc_get (cc_prover x) in
    let! prover_account := ok_or found' (AccountDoesNotExist (cc_prover x)) in
    let! (protocol_fee, staker_fee, owner_fee) :=
      lift (fee cost protocol_fee_bips (acc_bips prover_account)) in
    do! credit treasury protocol_fee in
    do! credit (cc_prover x) staker_fee in
    do! credit (cc_prover_owner x) owner_fee in
    Ret (Applied None).

(** Clear, crates/vapp/src/state.rs 606-981. *)
Definition exec_clear (E : env) (c : clear_tx) : prog outcome :=
  let! x := clear_checks E c in
  if (eb_execution_status (cc_execute x) =? status_unexecutable)%Z then clear_punish E x
  else
    do! ensure (eb_execution_status (cc_execute x) =? status_executed)%Z
          (ExecutionFailed (eb_execution_status (cc_execute x))) in
    do! clear_fulfillment E c x in
    clear_pay x.

(** [execute_inner], crates/vapp/src/state.rs 179-983. *)
Definition execute_inner (E : env) (t : tx) : prog outcome :=
  match t with
  | TxDeposit d => exec_deposit d
  | TxCreateProver c => exec_create_prover c
  | TxDelegate d => exec_delegate E d
  | TxTransfer t => exec_transfer E t
  | TxWithdraw w => exec_withdraw E w
  | TxClear c => exec_clear E c
  end.

(** The result of [execute]: [Ok(receipt)], [Err(Revert)] or [Err(Panic)]
    (crates/vapp/src/errors.rs 9-22, crates/vapp/src/state.rs 163). *)
Inductive exec_result : Type :=
| ResOk (r : option receipt)
| ResRevert (v : revert)
| ResPanic (e : panic).

(** [self.tx_id += 1], crates/vapp/src/state.rs 166, 170. *)
Definition bump_tx_id {A R} (s : vstate A R) : vstate A R :=
  VState (vs_domain s) (u64_succ (vs_tx_id s)) (vs_onchain_tx_id s) (vs_onchain_block s)
    (vs_onchain_log_index s) (vs_accounts s) (vs_transactions s).

(** [execute], crates/vapp/src/state.rs 160-175, on any pair of stores. *)
Definition execute {A R} (SA : storage account A) (SR : storage bool R) (E : env) (t : tx)
    (s : vstate A R) : vstate A R * exec_result :=
  match run SA SR (execute_inner E t) s with
  | (s', Ok (Applied r)) => (bump_tx_id s', ResOk r)
  | (s', Ok (Reverted v)) => (bump_tx_id s', ResRevert v)
  | (s', Err e) => (s', ResPanic e)
  end.

(** [VAppState::new(domain)], crates/vapp/src/state.rs 108-118; [a] and [r] are [A::new()] and
    [R::new()]. *)
Definition new_state {A R} (domain : N) (a : A) (r : R) : vstate A R :=
  VState domain 1 1 0 0 a r.
