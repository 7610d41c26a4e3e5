(** Well-typed messages and transactions: what the Rust types enforce. *)
From Verif Require Export StfSpec.
Open Scope N_scope.

(** A protobuf enumeration value, [i32]. *)
Definition is_i32 (z : Z) : Prop := (- 2 ^ 31 <= z < 2 ^ 31)%Z.
(** A byte string whose length fits a 64-bit machine. *)
Definition is_bytes (bs : bytes) : Prop := bytes_ok bs /\ N.of_nat (length bs) < 2 ^ 64.
(** An optional value. *)
Definition if_some {X} (P : X -> Prop) (o : option X) : Prop := forall x, o = Some x -> P x.

(** ** Message bodies *)

Definition typed_withdraw (b : withdraw_body) : Prop :=
  is_u64 (wb_nonce b) /\ is_bytes (wb_account b) /\ is_bytes (wb_amount b) /\ is_bytes (wb_domain b) /\
  is_i32 (wb_variant b) /\ is_bytes (wb_auctioneer b) /\ is_bytes (wb_fee b).
Definition typed_transfer (b : transfer_body) : Prop :=
  is_u64 (tb_nonce b) /\ is_bytes (tb_to b) /\ is_bytes (tb_amount b) /\ is_bytes (tb_domain b) /\
  is_i32 (tb_variant b) /\ is_bytes (tb_auctioneer b) /\ is_bytes (tb_fee b).
Definition typed_delegation (b : delegation_body) : Prop :=
  is_u64 (db_nonce b) /\ is_bytes (db_delegate b) /\ is_bytes (db_prover b) /\ is_bytes (db_domain b) /\
  is_i32 (db_variant b) /\ is_bytes (db_auctioneer b) /\ is_bytes (db_fee b).
Definition typed_request (b : request_body) : Prop :=
  is_u64 (rb_nonce b) /\ is_bytes (rb_vk_hash b) /\ is_bytes (rb_version b) /\ is_i32 (rb_mode b) /\
  is_i32 (rb_strategy b) /\ is_bytes (rb_stdin_uri b) /\ is_u64 (rb_deadline b) /\
  is_u64 (rb_cycle_limit b) /\ is_u64 (rb_gas_limit b) /\ is_u64 (rb_min_auction_period b) /\
  Forall is_bytes (rb_whitelist b) /\ is_bytes (rb_domain b) /\ is_bytes (rb_auctioneer b) /\
  is_bytes (rb_executor b) /\ is_bytes (rb_verifier b) /\
  if_some is_bytes (rb_public_values_hash b) /\ is_bytes (rb_base_fee b) /\
  is_bytes (rb_max_price_per_pgu b) /\ is_i32 (rb_variant b) /\ is_bytes (rb_treasury b).
Definition typed_bid (b : bid_body) : Prop :=
  is_u64 (bb_nonce b) /\ is_bytes (bb_request_id b) /\ is_bytes (bb_amount b) /\ is_bytes (bb_domain b) /\
  is_bytes (bb_prover b) /\ is_i32 (bb_variant b).
Definition typed_settle (b : settle_body) : Prop :=
  is_u64 (sb_nonce b) /\ is_bytes (sb_request_id b) /\ is_bytes (sb_winner b) /\ is_bytes (sb_domain b) /\
  is_i32 (sb_variant b).
Definition typed_execute (b : execute_body) : Prop :=
  is_u64 (eb_nonce b) /\ is_bytes (eb_request_id b) /\ is_i32 (eb_execution_status b) /\
  if_some is_bytes (eb_public_values_hash b) /\ if_some is_u64 (eb_cycles b) /\ if_some is_u64 (eb_pgus b) /\
  is_bytes (eb_domain b) /\ if_some is_bytes (eb_punishment b) /\ if_some is_i32 (eb_failure_cause b) /\
  is_i32 (eb_variant b).
Definition typed_fulfill (b : fulfill_body) : Prop :=
  is_u64 (fb_nonce b) /\ is_bytes (fb_request_id b) /\ is_bytes (fb_proof b) /\
  if_some (if_some (fun r => r < 2 ^ 32)) (fb_reserved_metadata b) /\ is_bytes (fb_domain b) /\
  is_i32 (fb_variant b).

(** ** Transactions *)

Definition typed_signed {B} (P : B -> Prop) (m : signed B) : Prop := if_some P (s_body m).

Definition typed_onchain {T} (P : T -> Prop) (o : onchain T) : Prop :=
  is_u64 (oc_block o) /\ is_u64 (oc_log_index o) /\ is_u64 (oc_tx o) /\ P (oc_action o).

Definition typed_deposit (d : deposit_action) : Prop := is_address (da_account d) /\ is_word (da_amount d).
Definition typed_create_prover (c : create_prover_action) : Prop :=
  is_address (cp_prover c) /\ is_address (cp_owner c) /\ is_word (cp_bips c).
Definition typed_withdraw_action (w : withdraw_action) : Prop :=
  is_address (wa_account w) /\ is_word (wa_amount w).

Definition typed_clear (c : clear_tx) : Prop :=
  typed_signed typed_request (cl_request c) /\ typed_signed typed_bid (cl_bid c) /\
  typed_signed typed_settle (cl_settle c) /\ typed_signed typed_execute (cl_execute c) /\
  if_some (typed_signed typed_fulfill) (cl_fulfill c).

Definition typed_tx (t : tx) : Prop :=
  match t with
  | TxDeposit d => typed_onchain typed_deposit d
  | TxCreateProver c => typed_onchain typed_create_prover c
  | TxDelegate d => typed_signed typed_delegation d
  | TxTransfer t => typed_signed typed_transfer t
  | TxWithdraw w => typed_signed typed_withdraw w
  | TxClear c => typed_clear c
  end.

(** ** Results *)

Definition typed_receipt (r : receipt) : Prop :=
  match r with
  | RDeposit o => is_u64 (or_tx_id o) /\ typed_deposit (or_action o)
  | RCreateProver o => is_u64 (or_tx_id o) /\ typed_create_prover (or_action o)
  | RWithdraw o => typed_withdraw_action (fr_action o)
  end.

Definition typed_result (r : exec_result) : Prop :=
  match r with ResOk (Some r) => typed_receipt r | _ => True end.

Definition typed_event (ev : event) : Prop :=
  match ev with EvTx t _ => typed_tx t | _ => True end.

(** Public values, as the ABI types of crates/vapp/src/sol.rs 25-91 enforce. *)
Definition typed_sol_receipt (r : sol_receipt) : Prop := is_u64 (sr_tx_id r) /\ is_bytes (sr_action r).
Definition typed_pv (p : step_pv) : Prop :=
  is_word (pv_old_root p) /\ is_word (pv_new_root p) /\ is_u64 (pv_timestamp p) /\
  Forall typed_sol_receipt (pv_receipts p) /\ N.of_nat (length (abi_step p)) < 2 ^ 256.

(** ** Messages of all types *)

Inductive message : Type :=
| MRequest (b : request_body)
| MBid (b : bid_body)
| MSettle (b : settle_body)
| MExecute (b : execute_body)
| MFulfill (b : fulfill_body)
| MDelegation (b : delegation_body)
| MTransfer (b : transfer_body)
| MWithdraw (b : withdraw_body).

(** The bytes that are signed in binary format and hashed into the message id. *)
Definition encode_message (m : message) : bytes :=
  match m with
  | MRequest b => encode_request b
  | MBid b => encode_bid b
  | MSettle b => encode_settle b
  | MExecute b => encode_execute b
  | MFulfill b => encode_fulfill b
  | MDelegation b => encode_delegation b
  | MTransfer b => encode_transfer b
  | MWithdraw b => encode_withdraw b
  end.

Definition typed_message (m : message) : Prop :=
  match m with
  | MRequest b => typed_request b
  | MBid b => typed_bid b
  | MSettle b => typed_settle b
  | MExecute b => typed_execute b
  | MFulfill b => typed_fulfill b
  | MDelegation b => typed_delegation b
  | MTransfer b => typed_transfer b
  | MWithdraw b => typed_withdraw b
  end.

(** The variant and domain fields of a message. *)
Definition message_variant (m : message) : Z :=
  match m with
  | MRequest b => rb_variant b
  | MBid b => bb_variant b
  | MSettle b => sb_variant b
  | MExecute b => eb_variant b
  | MFulfill b => fb_variant b
  | MDelegation b => db_variant b
  | MTransfer b => tb_variant b
  | MWithdraw b => wb_variant b
  end.
Definition message_domain (m : message) : bytes :=
  match m with
  | MRequest b => rb_domain b
  | MBid b => bb_domain b
  | MSettle b => sb_domain b
  | MExecute b => eb_domain b
  | MFulfill b => fb_domain b
  | MDelegation b => db_domain b
  | MTransfer b => tb_domain b
  | MWithdraw b => wb_domain b
  end.

(** The variant that a message of each type has to carry. *)
Definition own_variant (m : message) : Z :=
  match m with
  | MRequest _ => 0 | MBid _ => 1 | MSettle _ => 2 | MExecute _ => 3
  | MFulfill _ => 4 | MDelegation _ => 5 | MTransfer _ => 6 | MWithdraw _ => 7
  end%Z.

(** What [execute] requires of a message before using it in the role of its type. *)
Definition fits_role (m : message) : Prop :=
  message_variant m = own_variant m /\ length (message_domain m) = 32%nat.

(** The message of a signed envelope. *)
Definition body_of {B} (mk : B -> message) (m : signed B) : list message :=
  match s_body m with Some b => [mk b] | None => [] end.

(** The messages a transaction relies on; the fulfilment counts only for an executed request. *)
Definition messages_of (t : tx) : list message :=
  match t with
  | TxDeposit _ | TxCreateProver _ => []
  | TxDelegate d => body_of MDelegation d
  | TxTransfer m => body_of MTransfer m
  | TxWithdraw w => body_of MWithdraw w
  | TxClear c =>
      body_of MRequest (cl_request c) ++ body_of MBid (cl_bid c) ++ body_of MSettle (cl_settle c) ++
      body_of MExecute (cl_execute c) ++
      match s_body (cl_execute c), cl_fulfill c with
      | Some b, Some f => if (eb_execution_status b =? 2)%Z then body_of MFulfill f else []
      | _, _ => []
      end
  end.
