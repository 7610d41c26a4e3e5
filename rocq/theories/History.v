(** Histories of a full ledger and what can be observed of them.  Vocabulary for the theorems of
    [Props_Ledger.v]. *)
From Verif Require Export Sparse Spec.
Open Scope N_scope.

(** ** Observing a full state *)

(** The account records, by address. *)
Definition accounts (s : full_state) : gmap N account := mk_leaves (vs_accounts s).

(** The flags of processed messages, by 160-bit index. *)
Definition flags (s : full_state) : gmap N bool := mk_leaves (vs_transactions s).

(** A message id is marked as processed: reading it gives [true]. *)
Definition processed (E : env) (s : full_state) (id : N) : Prop :=
  merkle_get_untracked (request_tree E) id (vs_transactions s) = Some true.

(** The on-chain cursor: next id, and position (block, log index) of the last transaction. *)
Definition cursor (s : full_state) : N * N * N :=
  (vs_onchain_tx_id s, vs_onchain_block s, vs_onchain_log_index s).

(** ** Histories *)

(** What can happen to a full ledger: a transaction with its result, a proof or a read of an account
    or of a processed flag (these touch the node cache and the key tracking), and the reset of the key
    tracking. *)
Inductive event : Type :=
| EvTx (t : tx) (r : exec_result)
| EvAccountProof (k : N)
| EvRequestProof (k : N)
| EvAccountRead (k : N)
| EvRequestRead (k : N)
| EvClearTracking.

Inductive happens (E : env) (s : full_state) : event -> full_state -> Prop :=
| happens_tx t r s' :
    execute_full E t s = (s', r) -> happens E s (EvTx t r) s'
| happens_account_proof k :
    happens E s (EvAccountProof k)
      (with_accounts (merkle_proof (account_tree E) k (vs_accounts s)).2 s)
| happens_request_proof k :
    happens E s (EvRequestProof k)
      (with_transactions (merkle_proof (request_tree E) k (vs_transactions s)).2 s)
| happens_account_read k :
    happens E s (EvAccountRead k)
      (with_accounts (merkle_get (account_tree E) k (vs_accounts s)).2 s)
| happens_request_read k :
    happens E s (EvRequestRead k)
      (with_transactions (merkle_get (request_tree E) k (vs_transactions s)).2 s)
| happens_clear_tracking :
    happens E s EvClearTracking
      (with_accounts (merkle_clear_tracking (vs_accounts s))
        (with_transactions (merkle_clear_tracking (vs_transactions s)) s)).

Inductive history (E : env) : full_state -> list event -> full_state -> Prop :=
| history_nil s : history E s [] s
| history_cons s ev s1 evs s' :
    happens E s ev s1 -> history E s1 evs s' -> history E s (ev :: evs) s'.

(** The result is a panic. *)
Definition is_panic (r : exec_result) : Prop := match r with ResPanic _ => True | _ => False end.

(** The transactions executed in a history, with their results. *)
Fixpoint txs_of (evs : list event) : list (tx * exec_result) :=
  match evs with
  | [] => []
  | EvTx t r :: rest => (t, r) :: txs_of rest
  | _ :: rest => txs_of rest
  end.

(** No transaction of the history panicked. *)
Definition no_panic (evs : list event) : Prop := Forall (fun tr => ~ is_panic tr.2) (txs_of evs).

(** ** What is counted along a history *)

(** The amount deposited by a transaction that was applied. *)
Definition deposited (tr : tx * exec_result) : N :=
  match tr with
  | (TxDeposit d, ResOk _) => da_amount (oc_action d)
  | _ => 0
  end.

(** The amount withdrawn by a transaction that was applied, as written in the signed message. *)
Definition withdrawn (E : env) (tr : tx * exec_result) : N :=
  match tr with
  | (TxWithdraw w, ResOk _) =>
      match s_body w with
      | Some body => default 0 (parse_u256 E (wb_amount body))
      | None => 0
      end
  | _ => 0
  end.

(** Sum of a quantity over a list. *)
Definition sum {X} (f : X -> N) (l : list X) : N := fold_right (fun x acc => f x + acc) 0 l.

(** The (id, block, log index) of the on-chain transactions applied, in order. *)
Fixpoint onchain_applied (l : list (tx * exec_result)) : list (N * N * N) :=
  match l with
  | [] => []
  | (TxDeposit d, ResOk _) :: rest => (oc_tx d, oc_block d, oc_log_index d) :: onchain_applied rest
  | (TxCreateProver c, ResOk _) :: rest =>
      (oc_tx c, oc_block c, oc_log_index c) :: onchain_applied rest
  | _ :: rest => onchain_applied rest
  end.

(** The receipts emitted, in order. *)
Fixpoint receipts_of (l : list (tx * exec_result)) : list receipt :=
  match l with
  | [] => []
  | (_, ResOk (Some r)) :: rest => r :: receipts_of rest
  | _ :: rest => receipts_of rest
  end.

(** The receipt an applied transaction must leave. *)
Definition due_receipt (E : env) (t : tx) : list receipt :=
  match t with
  | TxDeposit d => [RDeposit (OnchainReceipt (oc_tx d) StCompleted (oc_action d))]
  | TxCreateProver c => [RCreateProver (OnchainReceipt (oc_tx c) StCompleted (oc_action c))]
  | TxWithdraw w =>
      match s_body w with
      | Some body =>
          match as_address (wb_account body), parse_u256 E (wb_amount body) with
          | Some who, Some amount => [RWithdraw (OffchainReceipt StCompleted (WithdrawAction who amount))]
          | _, _ => []
          end
      | None => []
      end
  | TxDelegate _ | TxTransfer _ | TxClear _ => []
  end.

(** The receipts due for a list of transactions: those applied, in order. *)
Definition receipts_due (E : env) (l : list (tx * exec_result)) : list receipt :=
  flat_map (fun tr => match tr.2 with ResOk _ => due_receipt E tr.1 | _ => [] end) l.

(** ** The message a transaction consumes *)

(** The transaction carries a message with these bytes, signed by this address: the transfer,
    withdrawal or delegation itself, or the proof request inside a clear. *)
Inductive consumes (E : env) : tx -> N -> bytes -> Prop :=
| consumes_delegate d body who :
    signed_by E encode_delegation (json_delegation E) d body who ->
    consumes E (TxDelegate d) who (encode_delegation body)
| consumes_transfer t body who :
    signed_by E encode_transfer (json_transfer E) t body who ->
    consumes E (TxTransfer t) who (encode_transfer body)
| consumes_withdraw w body who :
    signed_by E encode_withdraw (json_withdraw E) w body who ->
    consumes E (TxWithdraw w) who (encode_withdraw body)
| consumes_clear c body who :
    signed_by E encode_request (json_request E) (cl_request c) body who ->
    consumes E (TxClear c) who (encode_request body).

(** The (account, required, balance) a revert reports. *)
Definition revert_data (v : revert) : N * N * N :=
  match v with
  | InsufficientClearBalance a r b | InsufficientPunishmentBalance a r b
  | InsufficientDelegateBalance a r b | InsufficientTransferBalance a r b
  | InsufficientWithdrawBalance a r b => (a, r, b)
  end.

(** Strictly before, as positions (block, log index) on the chain. *)
Definition before (p q : N * N) : Prop := p.1 < q.1 \/ (p.1 = q.1 /\ p.2 < q.2).

(** Each position is strictly after the previous one, the first one after [p]. *)
Fixpoint ascending (p : N * N) (l : list (N * N)) : Prop :=
  match l with
  | [] => True
  | q :: rest => before p q /\ ascending q rest
  end.

(** A transaction counts when it is applied or reverted. *)
Definition counted (tr : tx * exec_result) : N :=
  match tr.2 with ResPanic _ => 0 | _ => 1 end.

(** The last element of a list, or [d] if it is empty. *)
Fixpoint last_or {X} (d : X) (l : list X) : X :=
  match l with [] => d | x :: rest => last_or x rest end.

(** [n] consecutive [u64] values from [start], wrapping around. *)
Fixpoint consecutive (start : N) (n : nat) : list N :=
  match n with O => [] | S n' => start mod 2 ^ 64 :: consecutive (start + 1) n' end.

(** The first 20 bytes of a 32-byte id. *)
Definition short_id (id : N) : bytes := take 20 (be_bytes 32 id).

(** The balance at [who] went down by at most [x]. *)
Definition drops_at_most (s s' : full_state) (who x : N) : Prop :=
  bal (accounts s) who <= bal (accounts s') who + x.

(** The staker share that is actually applied: what the protocol leaves of it. *)
Definition capped (protocol_bips staker_bips : N) : N := N.min staker_bips (10000 - protocol_bips).
