(** The ledger as a transition relation: the complete specification of a transaction that does not
    panic, on plain maps.  [Refine.v] proves that [execute] satisfies it and that it accepts nothing
    less. *)
From Verif Require Export Spec State.
Open Scope N_scope.

(** The ledger on plain maps. *)
Definition ledger : Type := vstate (gmap N account) (gmap N bool).

(** One account receives, respectively pays, an amount. *)
Definition m_credit (k x : N) (m : gmap N account) : gmap N account :=
  let a := acct m k in
  <[k := Account (bal m k + x) (acc_owner a) (acc_signer a) (acc_bips a)]> m.
Definition m_debit (k x : N) (m : gmap N account) : gmap N account :=
  let a := acct m k in
  <[k := Account (bal m k - x) (acc_owner a) (acc_signer a) (acc_bips a)]> m.

(** A sequence of payments, each of them solvent and within 256 bits. *)
Inductive moves : list payment -> gmap N account -> gmap N account -> Prop :=
| moves_nil m : moves [] m m
| moves_pay k x ps m m' :
    x <= bal m k -> moves ps (m_debit k x m) m' -> moves (Pay k x :: ps) m m'
| moves_receive k x ps m m' :
    bal m k + x < two256 -> moves ps (m_credit k x m) m' -> moves (Receive k x :: ps) m m'.

(** An id not yet retired. *)
Definition unused (m : gmap N bool) (id : N) : Prop := m !! request_index id <> Some true.

(** ** What a clear must satisfy *)

(** The conditions of the first part of a clear, crates/vapp/src/state.rs 608-736. *)
Record clear_authorised (E : env) (d : N) (A : gmap N account) (T : gmap N bool) (c : clear_tx)
    (x : clear_ctx) (settle : settle_body) (bidder auctioneer executor : N) (pa : account) : Prop := {
  ca_request : signed_by E encode_request (json_request E) (cl_request c) (cc_request x)
                 (cc_requester x);
  ca_bid : signed_by E encode_bid (json_bid E) (cl_bid c) (cc_bid x) bidder;
  ca_settle : signed_by E encode_settle (json_settle E) (cl_settle c) settle auctioneer;
  ca_execute : signed_by E encode_execute (json_execute E) (cl_execute c) (cc_execute x) executor;
  ca_request_variant : rb_variant (cc_request x) = 0%Z;
  ca_bid_variant : bb_variant (cc_bid x) = 1%Z;
  ca_settle_variant : sb_variant settle = 2%Z;
  ca_execute_variant : eb_variant (cc_execute x) = 3%Z;
  ca_request_domain : as_word (rb_domain (cc_request x)) = Some d;
  ca_bid_domain : as_word (bb_domain (cc_bid x)) = Some d;
  ca_settle_domain : as_word (sb_domain settle) = Some d;
  ca_execute_domain : as_word (eb_domain (cc_execute x)) = Some d;
  ca_id : cc_request_id x = message_id E (cc_requester x) (encode_request (cc_request x));
  ca_bid_id : bb_request_id (cc_bid x) = be_bytes 32 (cc_request_id x);
  ca_settle_id : sb_request_id settle = be_bytes 32 (cc_request_id x);
  ca_execute_id : eb_request_id (cc_execute x) = be_bytes 32 (cc_request_id x);
  ca_fresh : unused T (cc_request_id x);
  ca_prover : as_address (bb_prover (cc_bid x)) = Some (cc_prover x);
  ca_prover_acct : A !! cc_prover x = Some pa;
  ca_prover_owner : cc_prover_owner x = acc_owner pa;
  ca_prover_signer : acc_signer pa = bidder;
  ca_whitelist : rb_whitelist (cc_request x) = [] \/
                 be_bytes 20 (cc_prover x) ∈ rb_whitelist (cc_request x);
  ca_auctioneer : as_address (rb_auctioneer (cc_request x)) = Some auctioneer;
  ca_executor : as_address (rb_executor (cc_request x)) = Some executor;
  ca_base_fee : parse_u256 E (rb_base_fee (cc_request x)) = Some (cc_base_fee x);
  ca_max_price : parse_u256 E (rb_max_price_per_pgu (cc_request x)) = Some (cc_max_price x);
  ca_price : parse_u256 E (bb_amount (cc_bid x)) = Some (cc_price x);
  ca_price_le : cc_price x <= cc_max_price x
}.

(** The conditions on the punishment, crates/vapp/src/state.rs 742-756. *)
Record clear_punishable (E : env) (x : clear_ctx) (punishment : N) : Prop := {
  cp_status : eb_execution_status (cc_execute x) = 3%Z;
  cp_punishment : exists s, eb_punishment (cc_execute x) = Some s /\ parse_u256 E s = Some punishment;
  cp_cap : punishment <= cc_max_price x * rb_gas_limit (cc_request x) + cc_base_fee x;
  cp_cap_fits : cc_max_price x * rb_gas_limit (cc_request x) + cc_base_fee x < two256
}.

(** The conditions on the fulfilment, crates/vapp/src/state.rs 794-898. *)
Record clear_fulfilled (E : env) (d : N) (c : clear_tx) (x : clear_ctx) (f : signed fulfill_body)
    (body : fulfill_body) (signer : N) (pvh : bytes) : Prop := {
  cf_status : eb_execution_status (cc_execute x) = 2%Z;
  cf_fulfill : cl_fulfill c = Some f;
  cf_signed : signed_by E encode_fulfill (json_fulfill E) f body signer;
  cf_domain : as_word (fb_domain body) = Some d;
  cf_variant : fb_variant body = 4%Z;
  cf_id : fb_request_id body = be_bytes 32 (cc_request_id x);
  cf_pvh : eb_public_values_hash (cc_execute x) = Some pvh;
  cf_pvh_len : length pvh = 32%nat;
  cf_pvh_request : forall h, rb_public_values_hash (cc_request x) = Some h -> h = pvh;
  cf_vk_len : length (rb_vk_hash (cc_request x)) = 32%nat;
  cf_proof :
    (is_sp1_v6 (rb_version (cc_request x)) /\ rb_mode (cc_request x) = 2%Z /\
     sp1_verify E (vk_words (rb_vk_hash (cc_request x))) pvh = true) \/
    (((~ is_sp1_v6 (rb_version (cc_request x)) /\ rb_mode (cc_request x) = 2%Z) \/
      rb_mode (cc_request x) = 4%Z \/ rb_mode (cc_request x) = 3%Z) /\
     exists sig verifier,
       cl_verify c = Some sig /\
       ecrecover E (be_bytes 32 (message_id E signer (encode_fulfill body))) sig = Some verifier /\
       as_address (rb_verifier (cc_request x)) = Some verifier)
}.

(** ** Steps *)

(** The state after a signed transaction: the message id is retired, the accounts are [A], and the
    transaction counter has advanced. *)
Definition after_signed (s : ledger) (id : N) (A : gmap N account) : ledger :=
  VState (vs_domain s) (next_u64 (vs_tx_id s)) (vs_onchain_tx_id s) (vs_onchain_block s)
    (vs_onchain_log_index s) A (<[request_index id := true]> (vs_transactions s)).

(** The state after an on-chain transaction: the cursor has moved to it. *)
Definition after_onchain {A} (s : ledger) (o : onchain A) (m : gmap N account) : ledger :=
  VState (vs_domain s) (next_u64 (vs_tx_id s)) (next_u64 (vs_onchain_tx_id s)) (oc_block o)
    (oc_log_index o) m (vs_transactions s).

(** An on-chain transaction is the next one: its id is the cursor's and it lies after the cursor. *)
Definition next_onchain {A} (s : ledger) (o : onchain A) : Prop :=
  oc_tx o = vs_onchain_tx_id s /\
  (vs_onchain_block s < oc_block o \/
   (vs_onchain_block s = oc_block o /\ vs_onchain_log_index s < oc_log_index o)).

(** The conditions under which each signed transaction is accepted (it then applies or reverts). *)
Record delegate_ok (E : env) (s : ledger) (d : signed delegation_body) (body : delegation_body)
    (owner prover auctioneer fee : N) : Prop := {
  dk_signed : signed_by E encode_delegation (json_delegation E) d body owner;
  dk_variant : db_variant body = 5%Z;
  dk_domain : as_word (db_domain body) = Some (vs_domain s);
  dk_fresh : unused (vs_transactions s) (message_id E owner (encode_delegation body));
  dk_prover : as_address (db_prover body) = Some prover;
  dk_fee : parse_u256 E (db_fee body) = Some fee;
  dk_auctioneer : as_address (db_auctioneer body) = Some auctioneer;
  dk_owner : exists pa, vs_accounts s !! prover = Some pa /\ acc_owner pa = owner
}.

Record transfer_ok (E : env) (s : ledger) (t : signed transfer_body) (body : transfer_body)
    (from to amount auctioneer fee : N) : Prop := {
  tk_signed : signed_by E encode_transfer (json_transfer E) t body from;
  tk_variant : tb_variant body = 6%Z;
  tk_domain : as_word (tb_domain body) = Some (vs_domain s);
  tk_fresh : unused (vs_transactions s) (message_id E from (encode_transfer body));
  tk_to : as_address (tb_to body) = Some to;
  tk_amount : parse_u256 E (tb_amount body) = Some amount;
  tk_fee : parse_u256 E (tb_fee body) = Some fee;
  tk_auctioneer : as_address (tb_auctioneer body) = Some auctioneer;
  tk_fits : amount + fee < two256
}.

Record withdraw_ok (E : env) (s : ledger) (w : signed withdraw_body) (body : withdraw_body)
    (from who amount auctioneer fee : N) : Prop := {
  wk_signed : signed_by E encode_withdraw (json_withdraw E) w body from;
  wk_variant : wb_variant body = 7%Z;
  wk_domain : as_word (wb_domain body) = Some (vs_domain s);
  wk_fresh : unused (vs_transactions s) (message_id E from (encode_withdraw body));
  wk_account : as_address (wb_account body) = Some who;
  wk_amount : parse_u256 E (wb_amount body) = Some amount;
  wk_fee : parse_u256 E (wb_fee body) = Some fee;
  wk_auctioneer : as_address (wb_auctioneer body) = Some auctioneer;
  wk_allowed : who = from \/ acc_owner (acct (vs_accounts s) who) <> 0;
  wk_fits : who = from -> amount + fee < two256
}.

(** Who cannot pay what, in a withdrawal that reverts. *)
Definition withdraw_short (A : gmap N account) (from who amount fee payer required : N) : Prop :=
  ((who = from /\ payer = who /\ required = amount + fee) \/
   (who <> from /\ payer = who /\ required = amount) \/
   (who <> from /\ amount <= bal A who /\ payer = from /\ required = fee)) /\
  bal A payer < required.

(** The cost of a successful clear, crates/vapp/src/state.rs 901-911. *)
Definition clear_cost (x : clear_ctx) (pgus : N) : N := cc_price x * pgus + cc_base_fee x.

(** The conditions on the cost of a successful clear, crates/vapp/src/state.rs 901-930. *)
Record clear_priced (A : gmap N account) (x : clear_ctx) (pgus : N) : Prop := {
  cz_pgus : eb_pgus (cc_execute x) = Some pgus;
  cz_limit : pgus <= rb_gas_limit (cc_request x);
  cz_fits : clear_cost x pgus < two256;
  cz_requester : is_Some (A !! cc_requester x)
}.

Inductive lstep (E : env) (s : ledger) : tx -> ledger -> exec_result -> Prop :=
| step_deposit d A' :
    next_onchain s d ->
    moves (payments (ADeposit (da_account (oc_action d)) (da_amount (oc_action d))))
      (vs_accounts s) A' ->
    lstep E s (TxDeposit d) (after_onchain s d A')
      (ResOk (Some (RDeposit (OnchainReceipt (oc_tx d) StCompleted (oc_action d)))))
| step_create_prover c :
    next_onchain s c ->
    let act := oc_action c in
    lstep E s (TxCreateProver c)
      (after_onchain s c
        (<[cp_prover act := Account (bal (vs_accounts s) (cp_prover act)) (cp_owner act)
                              (cp_owner act) (cp_bips act)]> (vs_accounts s)))
      (ResOk (Some (RCreateProver (OnchainReceipt (oc_tx c) StCompleted act))))
| step_delegate_revert d body owner prover auctioneer fee :
    delegate_ok E s d body owner prover auctioneer fee ->
    bal (vs_accounts s) owner < fee ->
    lstep E s (TxDelegate d)
      (after_signed s (message_id E owner (encode_delegation body)) (vs_accounts s))
      (ResRevert (InsufficientDelegateBalance owner fee (bal (vs_accounts s) owner)))
| step_delegate d body owner prover auctioneer fee delegate A' :
    delegate_ok E s d body owner prover auctioneer fee ->
    fee <= bal (vs_accounts s) owner ->
    as_address (db_delegate body) = Some delegate ->
    moves (payments (ADelegate owner prover delegate auctioneer fee)) (vs_accounts s) A' ->
    lstep E s (TxDelegate d)
      (after_signed s (message_id E owner (encode_delegation body))
        (<[prover := Account (bal A' prover) (acc_owner (acct A' prover)) delegate
                       (acc_bips (acct A' prover))]> A'))
      (ResOk None)
| step_transfer_revert t body from to amount auctioneer fee :
    transfer_ok E s t body from to amount auctioneer fee ->
    bal (vs_accounts s) from < amount + fee ->
    lstep E s (TxTransfer t)
      (after_signed s (message_id E from (encode_transfer body)) (vs_accounts s))
      (ResRevert (InsufficientTransferBalance from (amount + fee) (bal (vs_accounts s) from)))
| step_transfer t body from to amount auctioneer fee A' :
    transfer_ok E s t body from to amount auctioneer fee ->
    amount + fee <= bal (vs_accounts s) from ->
    moves (payments (ATransfer from to amount auctioneer fee)) (vs_accounts s) A' ->
    lstep E s (TxTransfer t)
      (after_signed s (message_id E from (encode_transfer body)) A') (ResOk None)
| step_withdraw_revert w body from who amount auctioneer fee payer required :
    withdraw_ok E s w body from who amount auctioneer fee ->
    withdraw_short (vs_accounts s) from who amount fee payer required ->
    lstep E s (TxWithdraw w)
      (after_signed s (message_id E from (encode_withdraw body)) (vs_accounts s))
      (ResRevert (InsufficientWithdrawBalance payer required (bal (vs_accounts s) payer)))
| step_withdraw w body from who amount auctioneer fee A' :
    withdraw_ok E s w body from who amount auctioneer fee ->
    (if who =? from then amount + fee <= bal (vs_accounts s) who
     else amount <= bal (vs_accounts s) who /\ fee <= bal (vs_accounts s) from) ->
    moves (payments (AWithdraw from who amount auctioneer fee)) (vs_accounts s) A' ->
    lstep E s (TxWithdraw w)
      (after_signed s (message_id E from (encode_withdraw body)) A')
      (ResOk (Some (RWithdraw (OffchainReceipt StCompleted (WithdrawAction who amount)))))
| step_punish_revert c x settle bidder auctioneer executor pa punishment :
    clear_authorised E (vs_domain s) (vs_accounts s) (vs_transactions s) c x settle bidder
      auctioneer executor pa ->
    clear_punishable E x punishment ->
    bal (vs_accounts s) (cc_requester x) < punishment ->
    lstep E s (TxClear c) (after_signed s (cc_request_id x) (vs_accounts s))
      (ResRevert (InsufficientPunishmentBalance (cc_requester x) punishment
                    (bal (vs_accounts s) (cc_requester x))))
| step_punish c x settle bidder auctioneer executor pa punishment treasury A' :
    clear_authorised E (vs_domain s) (vs_accounts s) (vs_transactions s) c x settle bidder
      auctioneer executor pa ->
    clear_punishable E x punishment ->
    punishment <= bal (vs_accounts s) (cc_requester x) ->
    as_address (rb_treasury (cc_request x)) = Some treasury ->
    moves (payments (APunish (cc_requester x) treasury punishment)) (vs_accounts s) A' ->
    lstep E s (TxClear c) (after_signed s (cc_request_id x) A') (ResOk None)
| step_clear_revert c x settle bidder auctioneer executor pa f body signer pvh pgus :
    clear_authorised E (vs_domain s) (vs_accounts s) (vs_transactions s) c x settle bidder
      auctioneer executor pa ->
    clear_fulfilled E (vs_domain s) c x f body signer pvh ->
    clear_priced (vs_accounts s) x pgus ->
    bal (vs_accounts s) (cc_requester x) < clear_cost x pgus ->
    lstep E s (TxClear c) (after_signed s (cc_request_id x) (vs_accounts s))
      (ResRevert (InsufficientClearBalance (cc_requester x) (clear_cost x pgus)
                    (bal (vs_accounts s) (cc_requester x))))
| step_clear c x settle bidder auctioneer executor pa f body signer pvh pgus treasury A' :
    clear_authorised E (vs_domain s) (vs_accounts s) (vs_transactions s) c x settle bidder
      auctioneer executor pa ->
    clear_fulfilled E (vs_domain s) c x f body signer pvh ->
    clear_priced (vs_accounts s) x pgus ->
    clear_cost x pgus <= bal (vs_accounts s) (cc_requester x) ->
    as_address (rb_treasury (cc_request x)) = Some treasury ->
    acc_bips pa <= 10000 ->
    clear_cost x pgus * acc_bips pa < two256 ->
    moves (payments (AClear (cc_requester x) treasury (cc_prover x) (cc_prover_owner x)
                       (clear_cost x pgus) (acc_bips pa))) (vs_accounts s) A' ->
    lstep E s (TxClear c) (after_signed s (cc_request_id x) A') (ResOk None).
