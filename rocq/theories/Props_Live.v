(** Properties of what can always be done: batches that follow the rules can be proven and settled.  The vocabulary is in
    [L1Spec.v], [StepSpec.v] and [LiveSpec.v]. *)
From Verif Require Import Proofs_Live.
Open Scope N_scope.

(** ** C92: nothing gets stuck *)

(** Every batch that follows the rules can be proven: the recorded input makes the program commit to its outcome. *)
Theorem C92_batch_provable E L sha verify domain v0 log v txs rs l' timestamp :
  let s := ledger_now E domain log in
  forall (Hrun : settled_run E L sha verify domain v0 log v)
    (Hhash : collision_free (keccak E) (log_strings E (full_new E domain) log))
    (Htyped : Forall typed_tx txs) (Hplaces : places_differ E txs) (Hrules : spec_run E (contents s) txs rs l'),
  exists s', run_batch E s txs = (s', rs) /\ contents s' = l' /\
    stf_main E (recorded_input E s txs timestamp) =
    Some (StepPv (va_root v) (full_root E s') timestamp (map sol_of_receipt (batch_receipts rs))).
Proof. exact (C92_batch_provable_proof E L sha verify domain v0 log v txs rs l' timestamp). Qed.
Print Assumptions C92_batch_provable.

(** Every such batch is accepted by the settlement contract, and the history goes on with it. *)
Theorem C92_batch_settles E L sha verify domain v0 log v txs rs l' timestamp x p proof :
  let s := ledger_now E domain log in
  let log' := with_step E domain log x p proof txs timestamp in
  forall (Hrun : settled_run E L sha verify domain v0 log v)
    (Hhash : collision_free (keccak E) (log_strings E (full_new E domain) log'))
    (Htyped : Forall typed_tx txs) (Hplaces : places_differ E txs) (Hrules : spec_run E (contents s) txs rs l')
    (Hsubmitted : submitted E L sha verify (recorded_input E s txs timestamp) x p proof v)
    (Hqueue : N.of_nat (length (created log)) < 2 ^ 64 - 1)
    (Hcopied : Forall (from_queue (created log)) txs) (Hreceivers : Forall (can_receive x) (pv_receipts p)),
  exists v', l1_transact L x (CStep (abi_step p) proof) v = (v', None) /\
    settled_run E L sha verify domain v0 log' v' /\ contents (ledger_now E domain log') = l'.
Proof. exact (C92_batch_settles_proof E L sha verify domain v0 log v txs rs l' timestamp x p proof). Qed.
Print Assumptions C92_batch_settles.

(** The next transactions of the queue can always be proven, and each of them is carried out. *)
Theorem C92_queue_provable E L sha verify domain v0 log v n txs timestamp :
  let s := ledger_now E domain log in let qs := next_pending log v n in
  forall (Hrun : settled_run E L sha verify domain v0 log v)
    (Hhash : collision_free (keccak E) (log_strings E (full_new E domain) log))
    (Hheld : tk_balance (va_prove v) (le_self L) < 2 ^ 256) (Hqueue : N.of_nat (length (created log)) < 2 ^ 64 - 1)
    (Hobserved : observed_from (va_finalized v + 1) (vs_onchain_block s) (vs_onchain_log_index s) qs txs),
  exists s', stf_main E (recorded_input E s txs timestamp) =
      Some (StepPv (va_root v) (full_root E s') timestamp
        (imap (fun j q => carried_out (va_finalized v + 1 + N.of_nat j) q) qs)) /\
    forall k, bal (accounts s') k = bal (accounts s) k + sum (deposited_to k) qs.
Proof. exact (C92_queue_provable_proof E L sha verify domain v0 log v n txs timestamp). Qed.
Print Assumptions C92_queue_provable.

(** The next transactions of the queue can always be settled, and are then completed. *)
Theorem C92_queue_settles E L sha verify domain v0 log v n txs timestamp x p proof :
  let s := ledger_now E domain log in let qs := next_pending log v n in
  let log' := with_step E domain log x p proof txs timestamp in
  forall (Hrun : settled_run E L sha verify domain v0 log v)
    (Hhash : collision_free (keccak E) (log_strings E (full_new E domain) log'))
    (Hheld : tk_balance (va_prove v) (le_self L) < 2 ^ 256) (Hqueue : N.of_nat (length (created log)) < 2 ^ 64 - 1)
    (Hobserved : observed_from (va_finalized v + 1) (vs_onchain_block s) (vs_onchain_log_index s) qs txs)
    (Hsubmitted : submitted E L sha verify (recorded_input E s txs timestamp) x p proof v),
  exists v', l1_transact L x (CStep (abi_step p) proof) v = (v', None) /\
    settled_run E L sha verify domain v0 log' v' /\
    va_finalized v' = va_finalized v + N.of_nat (length qs) /\
    forall j q, qs !! j = Some q -> va_txs v' !! (va_finalized v + 1 + N.of_nat j)
      = Some (L1Tx (queued_variant q) StCompleted (va_finalized v + 1 + N.of_nat j) (queued_data q)).
Proof. exact (C92_queue_settles_proof E L sha verify domain v0 log v n txs timestamp x p proof). Qed.
Print Assumptions C92_queue_settles.

(** A valid withdrawal of a covered amount can be proven. *)
Theorem C92_withdrawal_provable E L sha verify domain v0 log v w body from who amount auctioneer fee timestamp :
  let s := ledger_now E domain log in
  forall (Hrun : settled_run E L sha verify domain v0 log v)
    (Hhash : collision_free (keccak E) (log_strings E (full_new E domain) log))
    (Hheld : tk_balance (va_prove v) (le_self L) < 2 ^ 256) (Htyped : typed_tx (TxWithdraw w))
    (Hvalid : withdraw_ok E (contents s) w body from who amount auctioneer fee)
    (Hcovered : withdrawal_covered s from who amount fee),
  exists s', stf_main E (recorded_input E s [TxWithdraw w] timestamp) =
    Some (StepPv (va_root v) (full_root E s') timestamp [withdrawal_done who amount]).
Proof. exact (C92_withdrawal_provable_proof E L sha verify domain v0 log v w body from who amount auctioneer fee timestamp). Qed.
Print Assumptions C92_withdrawal_provable.

(** A valid withdrawal of a covered amount is accepted, and the tokens arrive. *)
Theorem C92_withdrawal_settles E L sha verify domain v0 log v w body from who amount auctioneer fee timestamp x p proof :
  let s := ledger_now E domain log in
  let log' := with_step E domain log x p proof [TxWithdraw w] timestamp in
  forall (Hrun : settled_run E L sha verify domain v0 log v)
    (Hhash : collision_free (keccak E) (log_strings E (full_new E domain) log'))
    (Hheld : tk_balance (va_prove v) (le_self L) < 2 ^ 256) (Htyped : typed_tx (TxWithdraw w))
    (Hvalid : withdraw_ok E (contents s) w body from who amount auctioneer fee)
    (Hcovered : withdrawal_covered s from who amount fee)
    (Hsubmitted : submitted E L sha verify (recorded_input E s [TxWithdraw w] timestamp) x p proof v)
    (Hqueue : N.of_nat (length (created log)) < 2 ^ 64 - 1) (Hwho : who <> 0)
    (Hvault : cx_is_prover x who = true -> cx_vault_accepts x who amount = true),
  exists v', l1_transact L x (CStep (abi_step p) proof) v = (v', None) /\
    settled_run E L sha verify domain v0 log' v' /\
    forall a, tk_balance (va_prove v') a + (if a =? le_self L then amount else 0)
      = tk_balance (va_prove v) a + (if (if cx_is_prover x who then le_iprove L else who) =? a then amount else 0).
Proof. exact (C92_withdrawal_settles_proof E L sha verify domain v0 log v w body from who amount auctioneer fee timestamp x p proof). Qed.
Print Assumptions C92_withdrawal_settles.

Example C92_batch_example :
  let s := ledger_now toy_env toy_domain toy_log1 in
  settled_run toy_env toy_l1 toy_hash (fun _ => true) toy_domain toy_v0 toy_log1 toy_v2 /\
  collision_free (keccak toy_env) (log_strings toy_env (full_new toy_env toy_domain)
    (with_step toy_env toy_domain toy_log1 (toy_ctx auctioneer1 1010) step_b [7] batch_b 1005)) /\
  Forall typed_tx batch_b /\ places_differ toy_env batch_b /\
  spec_run toy_env (contents s) batch_b results_b (contents (run_batch toy_env s batch_b).1) /\
  submitted toy_env toy_l1 toy_hash (fun _ => true) (recorded_input toy_env s batch_b 1005) (toy_ctx auctioneer1 1010) step_b
    [7] toy_v2 /\
  Forall (from_queue (created toy_log1)) batch_b /\ Forall (can_receive (toy_ctx auctioneer1 1010)) (pv_receipts step_b).
Proof. exact C92_batch_example_proof. Qed.

Example C92_queue_example :
  let s := ledger_now toy_env toy_domain toy_log0 in
  settled_run toy_env toy_l1 toy_hash (fun _ => true) toy_domain toy_v0 toy_log0 toy_v3 /\
  collision_free (keccak toy_env) (log_strings toy_env (full_new toy_env toy_domain)
    (with_step toy_env toy_domain toy_log0 (toy_ctx auctioneer1 1001) step_a [7] batch_a 1000)) /\
  tk_balance (va_prove toy_v3) toy_self = 1077 /\
  next_pending toy_log0 toy_v3 1 = [QDeposit (DepositAction alice 1000)] /\
  observed_from (va_finalized toy_v3 + 1) (vs_onchain_block s) (vs_onchain_log_index s) (next_pending toy_log0 toy_v3 1) batch_a /\
  submitted toy_env toy_l1 toy_hash (fun _ => true) (recorded_input toy_env s batch_a 1000) (toy_ctx auctioneer1 1001) step_a
    [7] toy_v3.
Proof. exact C92_queue_example_proof. Qed.

Example C92_withdrawal_example :
  let s := ledger_now toy_env toy_domain toy_log1 in
  settled_run toy_env toy_l1 toy_hash (fun _ => true) toy_domain toy_v0 toy_log1 toy_v2 /\
  collision_free (keccak toy_env) (log_strings toy_env (full_new toy_env toy_domain)
    (with_step toy_env toy_domain toy_log1 (toy_ctx auctioneer1 1010) step_w [7] [TxWithdraw withdraw_signed] 1005)) /\
  tk_balance (va_prove toy_v2) toy_self = 1082 /\ typed_tx (TxWithdraw withdraw_signed) /\
  withdraw_ok toy_env (contents s) withdraw_signed (withdraw_msg 1 alice 200 0) alice alice 200 auctioneer1 0 /\
  withdrawal_covered s alice alice 200 0 /\
  submitted toy_env toy_l1 toy_hash (fun _ => true) (recorded_input toy_env s [TxWithdraw withdraw_signed] 1005)
    (toy_ctx auctioneer1 1010) step_w [7] toy_v2.
Proof. exact C92_withdrawal_example_proof. Qed.
