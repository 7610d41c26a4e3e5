(** Vocabulary for what can always be done: prove a batch, settle the queue, pay a withdrawal. *)
From Verif Require Export L1Spec.
Open Scope N_scope.

(** ** The input a node makes for a batch *)

(** The ledger with its key tracking reset. *)
Definition tracking_reset (s : full_state) : full_state :=
  with_accounts (merkle_clear_tracking (vs_accounts s))
    (with_transactions (merkle_clear_tracking (vs_transactions s)) s).

(** What a tree proves about a list of keys. *)
Definition proofs_for {V} (cfg : tree_cfg V) (t : merkle V) (keys : list N) : list (mproof V) :=
  omap (fun k => match (merkle_proof cfg k t).1 with Ok p => Some p | Err _ => None end) keys.

(** The roots and counters of the ledger, the batch, and the proofs of all keys that the batch touches when it is run
    with the tracking reset (the fields of crates/vapp/src/input.rs 15-33).  The stores of the state are empty: the
    program fills them from the proofs. *)
Definition recorded_input (E : env) (s : full_state) (txs : list tx) (timestamp : N) : stf_input :=
  let s1 := (run_batch E (tracking_reset s) txs).1 in
  StfInput (full_root E s) (merkle_root (account_tree E) (vs_accounts s))
    (merkle_root (request_tree E) (vs_transactions s))
    (VState (vs_domain s) (vs_tx_id s) (vs_onchain_tx_id s) (vs_onchain_block s) (vs_onchain_log_index s)
       (Sparse ∅ ∅) (Sparse ∅ ∅))
    (proofs_for (account_tree E) (vs_accounts s) (elements (touched_accounts s1)))
    (proofs_for (request_tree E) (vs_transactions s) (elements (touched_requests s1)))
    txs timestamp.

(** The id under which a transaction is remembered: that of its signed message (of the request, for a clear). *)
Definition remembered (E : env) (t : tx) (k : N) : Prop :=
  match t with
  | TxDeposit _ | TxCreateProver _ => False
  | TxDelegate d => exists body who, signed_by E encode_delegation (json_delegation E) d body who /\
      k = message_id E who (encode_delegation body)
  | TxTransfer t => exists body who, signed_by E encode_transfer (json_transfer E) t body who /\
      k = message_id E who (encode_transfer body)
  | TxWithdraw w => exists body who, signed_by E encode_withdraw (json_withdraw E) w body who /\
      k = message_id E who (encode_withdraw body)
  | TxClear c => exists body who, signed_by E encode_request (json_request E) (cl_request c) body who /\
      k = message_id E who (encode_request body)
  end.

(** Different messages of the batch have different places in the tree of processed messages. *)
Definition places_differ (E : env) (txs : list tx) : Prop :=
  forall t1 t2 a b, t1 ∈ txs -> t2 ∈ txs -> remembered E t1 a -> remembered E t2 b ->
    request_index a = request_index b -> a = b.

(** ** Settling the queue *)

(** The transaction of the ledger for a queued one that was seen at this place of the chain. *)
Definition queued_tx (id block log_index : N) (q : queued) : tx :=
  match q with
  | QDeposit d => TxDeposit (Onchain block log_index id d)
  | QCreateProver c => TxCreateProver (Onchain block log_index id c)
  end.

(** These transactions are the queued ones, numbered from [id], each found after the one before; the first after the
    place (block, log index). *)
Inductive observed_from : N -> N -> N -> list queued -> list tx -> Prop :=
| ob_nil id b l : observed_from id b l [] []
| ob_cons id b l b' l' q qs txs :
    b < b' \/ (b = b' /\ l < l') -> is_u64 b' -> is_u64 l' -> observed_from (id + 1) b' l' qs txs ->
    observed_from id b l (q :: qs) (queued_tx id b' l' q :: txs).

(** The receipt of a queued transaction that was carried out. *)
Definition carried_out (id : N) (q : queued) : sol_receipt :=
  SolReceipt (queued_variant q) StCompleted id (queued_data q).

(** What an account gets from a queued transaction. *)
Definition deposited_to (a : N) (q : queued) : N :=
  match q with QDeposit d => if da_account d =? a then da_amount d else 0 | QCreateProver _ => 0 end.

(** The next [n] transactions of the queue that are not yet finalised. *)
Definition next_pending (log : list l1_entry) (v : l1_state) (n : nat) : list queued :=
  take n (drop (N.to_nat (va_finalized v)) (created log)).

(** ** Paying a withdrawal *)

(** The receipt of a withdrawal that was carried out: the account and the amount, as words of the ABI. *)
Definition withdrawal_done (who amount : N) : sol_receipt :=
  SolReceipt VWithdraw StCompleted (2 ^ 64 - 1) (be_bytes 32 who ++ be_bytes 32 amount).

(** The accounts that have to pay for a withdrawal can. *)
Definition withdrawal_covered (s : full_state) (from who amount fee : N) : Prop :=
  if who =? from then amount + fee <= bal (accounts s) who
  else amount <= bal (accounts s) who /\ fee <= bal (accounts s) from.

(** ** Settling a batch *)

(** The ledger that the accepted steps have made. *)
Definition ledger_now (E : env) (domain : N) (log : list l1_entry) : full_state :=
  ledger_after E (full_new E domain) log.

(** The log with one more step, made from the recorded input of a batch. *)
Definition with_step (E : env) (domain : N) (log : list l1_entry) (x : l1_ctx) (p : step_pv) (proof : bytes)
    (txs : list tx) (timestamp : N) : list l1_entry :=
  log ++ [LAccepted x (CStep (abi_step p) proof) [recorded_input E (ledger_now E domain log) txs timestamp]].

(** What the call needs besides a good batch: the values are those the program committed, its proof verifies, the caller
    is the auctioneer of a running contract, and the time is right. *)
Record submitted (E : env) (L : l1_env) (sha : bytes -> N) (verify : N -> bool) (i : stf_input) (x : l1_ctx) (p : step_pv)
    (proof : bytes) (v : l1_state) : Prop := {
  su_time : is_u64 (si_timestamp i);
  su_committed : stf_main E i = Some p;
  su_size : N.of_nat (length (abi_step p)) < 2 ^ 256;
  su_proven : verify (sha (abi_step p)) = true;
  su_sender : is_address (cx_sender x);
  su_allowed : step_allowed L x (abi_step p) proof p v;
  su_blocks : va_block v + 1 < 2 ^ 64
}.
