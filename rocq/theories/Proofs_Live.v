(** Proofs for Props_Live.v. *)
From Verif Require Export LiveSpec ToyLive.
From Verif Require Import LiveQueue AggFacts L1Solvent.
From Coq Require Import Lia ZifyBool ZifyN ZifyNat.
Open Scope N_scope.
Local Opaque request_index.

Lemma prefix_free E s log e : collision_free (keccak E) (log_strings E s (log ++ [e])) ->
  collision_free (keccak E) (log_strings E s log).
Proof. rewrite log_strings_app. intros H. apply collision_free_app in H. apply H. Qed.

Lemma ledger_after_app E log1 : forall s log2,
  ledger_after E s (log1 ++ log2) = ledger_after E (ledger_after E s log1) log2.
Proof.
  induction log1 as [|e log1 IH]; intros s log2; [reflexivity|].
  destruct e as [x [] i|x c e|o]; cbn [app ledger_after]; apply IH.
Qed.

Lemma C92_batch_provable_proof E L sha verify domain v0 log v txs rs l' timestamp :
  let s := ledger_now E domain log in
  forall (Hrun : settled_run E L sha verify domain v0 log v)
    (Hhash : collision_free (keccak E) (log_strings E (full_new E domain) log))
    (Htyped : Forall typed_tx txs) (Hplaces : places_differ E txs) (Hrules : spec_run E (contents s) txs rs l'),
  exists s', run_batch E s txs = (s', rs) /\ contents s' = l' /\
    stf_main E (recorded_input E s txs timestamp) =
    Some (StepPv (va_root v) (full_root E s') timestamp (map sol_of_receipt (batch_receipts rs))).
Proof. intros s Hrun Hhash. exact (batch_provable E L sha verify domain v0 v log Hrun Hhash txs timestamp rs l'). Qed.

Lemma C92_batch_settles_proof E L sha verify domain v0 log v txs rs l' timestamp x p proof :
  let s := ledger_now E domain log in
  let log' := with_step E domain log x p proof txs timestamp in
  forall (Hrun : settled_run E L sha verify domain v0 log v)
    (Hhash : collision_free (keccak E) (log_strings E (full_new E domain) log'))
    (Htyped : Forall typed_tx txs) (Hplaces : places_differ E txs) (Hrules : spec_run E (contents s) txs rs l')
    (Hsubmitted : submitted E L sha verify (recorded_input E s txs timestamp) x p proof v)
    (Hqueue : N.of_nat (length (created log)) < 2 ^ 64 - 1)
    (Hcopied : Forall (from_queue (created log)) txs) (Hreceivers : Forall (can_receive x) (pv_receipts p)),
  exists v', l1_transact L x (CStep (abi_step p) proof) v = (v', None) /\
    settled_run E L sha verify domain v0 log' v' /\ contents (ledger_now E domain log') = l'.
Proof.
  intros s log' Hrun Hhash Htyped Hplaces Hrules [H1 H2 H3 H4 H5 H6 H7] Hqueue Hcopied Hrec.
  pose proof (prefix_free E _ _ _ Hhash) as Hhash0.
  destruct (batch_settles E L sha verify domain v0 v log Hrun Hhash0 txs timestamp rs l' p x proof Htyped Hplaces Hrules
    H1 H2 H3 H4 Hhash H5 H6 H7 Hqueue Hcopied Hrec) as (v' & Ha & Hs & _).
  exists v'. split; [exact Ha|]. split; [exact Hs|].
  destruct (spec_run_full E txs s rs l' Hrules) as (s' & Hs' & Hc).
  unfold ledger_now, log', with_step. rewrite ledger_after_app. cbn [ledger_after]. unfold all_txs.
  cbn [map concat si_txs recorded_input]. rewrite app_nil_r. fold (ledger_now E domain log). fold s. now rewrite Hs'.
Qed.

Lemma C92_queue_provable_proof E L sha verify domain v0 log v n txs timestamp :
  let s := ledger_now E domain log in let qs := next_pending log v n in
  forall (Hrun : settled_run E L sha verify domain v0 log v)
    (Hhash : collision_free (keccak E) (log_strings E (full_new E domain) log))
    (Hheld : tk_balance (va_prove v) (le_self L) < 2 ^ 256) (Hqueue : N.of_nat (length (created log)) < 2 ^ 64 - 1)
    (Hobserved : observed_from (va_finalized v + 1) (vs_onchain_block s) (vs_onchain_log_index s) qs txs),
  exists s', stf_main E (recorded_input E s txs timestamp) =
      Some (StepPv (va_root v) (full_root E s') timestamp
        (imap (fun j q => carried_out (va_finalized v + 1 + N.of_nat j) q) qs)) /\
    forall k, bal (accounts s') k = bal (accounts s) k + sum (deposited_to k) qs.
Proof.
  intros s qs Hrun Hhash Hheld Hq Hob.
  exact (queue_provable E L sha verify domain v0 v log Hrun Hhash Hheld Hq n txs Hob timestamp).
Qed.

Lemma C92_queue_settles_proof E L sha verify domain v0 log v n txs timestamp x p proof :
  let s := ledger_now E domain log in let qs := next_pending log v n in
  let log' := with_step E domain log x p proof txs timestamp in
  forall (Hrun : settled_run E L sha verify domain v0 log v)
    (Hhash : collision_free (keccak E) (log_strings E (full_new E domain) log'))
    (Hheld : tk_balance (va_prove v) (le_self L) < 2 ^ 256) (Hqueue : N.of_nat (length (created log)) < 2 ^ 64 - 1)
    (Hobserved : observed_from (va_finalized v + 1) (vs_onchain_block s) (vs_onchain_log_index s) qs txs)
    (Hsubmitted : submitted E L sha verify (recorded_input E s txs timestamp) x p proof v),
  exists v', l1_transact L x (CStep (abi_step p) proof) v = (v', None) /\
    settled_run E L sha verify domain v0 log' v' /\
    va_finalized v' = va_finalized v + N.of_nat (length qs) /\
    forall j q, qs !! j = Some q -> va_txs v' !! (va_finalized v + 1 + N.of_nat j)
      = Some (L1Tx (queued_variant q) StCompleted (va_finalized v + 1 + N.of_nat j) (queued_data q)).
Proof.
  intros s qs log' Hrun Hhash Hheld Hq Hob [H1 H2 H3 H4 H5 H6 H7].
  exact (queue_settles E L sha verify domain v0 v log Hrun (prefix_free E _ _ _ Hhash) Hheld Hq n txs Hob timestamp p x proof
    H1 H2 H3 H4 Hhash H5 H6 H7).
Qed.

Lemma C92_withdrawal_provable_proof E L sha verify domain v0 log v w body from who amount auctioneer fee timestamp :
  let s := ledger_now E domain log in
  forall (Hrun : settled_run E L sha verify domain v0 log v)
    (Hhash : collision_free (keccak E) (log_strings E (full_new E domain) log))
    (Hheld : tk_balance (va_prove v) (le_self L) < 2 ^ 256) (Htyped : typed_tx (TxWithdraw w))
    (Hvalid : withdraw_ok E (contents s) w body from who amount auctioneer fee)
    (Hcovered : withdrawal_covered s from who amount fee),
  exists s', stf_main E (recorded_input E s [TxWithdraw w] timestamp) =
    Some (StepPv (va_root v) (full_root E s') timestamp [withdrawal_done who amount]).
Proof.
  intros s Hrun Hhash Hheld Hty Hok Hcov.
  exact (withdraw_provable E L sha verify domain v0 v log Hrun Hhash Hheld w body from who amount auctioneer fee Hty Hok Hcov
    timestamp).
Qed.

Lemma C92_withdrawal_settles_proof E L sha verify domain v0 log v w body from who amount auctioneer fee timestamp x p proof :
  let s := ledger_now E domain log in
  let log' := with_step E domain log x p proof [TxWithdraw w] timestamp in
  forall (Hrun : settled_run E L sha verify domain v0 log v)
    (Hhash : collision_free (keccak E) (log_strings E (full_new E domain) log'))
    (Hheld : tk_balance (va_prove v) (le_self L) < 2 ^ 256) (Htyped : typed_tx (TxWithdraw w))
    (Hvalid : withdraw_ok E (contents s) w body from who amount auctioneer fee)
    (Hcovered : withdrawal_covered s from who amount fee)
    (Hsubmitted : submitted E L sha verify (recorded_input E s [TxWithdraw w] timestamp) x p proof v)
    (Hqueue : N.of_nat (length (created log)) < 2 ^ 64 - 1) (Hwho : who <> 0)
    (Hvault : cx_is_prover x who = true -> cx_vault_accepts x who amount = true),
  exists v', l1_transact L x (CStep (abi_step p) proof) v = (v', None) /\
    settled_run E L sha verify domain v0 log' v' /\
    forall a, tk_balance (va_prove v') a + (if a =? le_self L then amount else 0)
      = tk_balance (va_prove v) a + (if (if cx_is_prover x who then le_iprove L else who) =? a then amount else 0).
Proof.
  intros s log' Hrun Hhash Hheld Hty Hok Hcov [H1 H2 H3 H4 H5 H6 H7] Hq Hwho Hvault.
  exact (withdraw_settles E L sha verify domain v0 v log Hrun (prefix_free E _ _ _ Hhash) Hheld w body from who amount auctioneer
    fee Hty Hok Hcov timestamp p x proof H1 H2 H3 H4 Hhash H5 H6 H7 Hq Hwho Hvault).
Qed.

(** ** Examples *)

Lemma C92_batch_example_proof :
  let s := ledger_now toy_env toy_domain toy_log1 in
  settled_run toy_env toy_l1 toy_hash (fun _ => true) toy_domain toy_v0 toy_log1 toy_v2 /\
  collision_free (keccak toy_env) (log_strings toy_env (full_new toy_env toy_domain)
    (with_step toy_env toy_domain toy_log1 (toy_ctx auctioneer1 1010) step_b [7] batch_b 1005)) /\
  Forall typed_tx batch_b /\ places_differ toy_env batch_b /\
  spec_run toy_env (contents s) batch_b results_b (contents (run_batch toy_env s batch_b).1) /\
  submitted toy_env toy_l1 toy_hash (fun _ => true) (recorded_input toy_env s batch_b 1005) (toy_ctx auctioneer1 1010) step_b
    [7] toy_v2 /\
  Forall (from_queue (created toy_log1)) batch_b /\ Forall (can_receive (toy_ctx auctioneer1 1010)) (pv_receipts step_b).
Proof.
  intros s. split; [exact toy_settled1|]. split; [exact free_b|]. split; [exact typed_b|]. split; [exact places_b|].
  split; [exact runs_b|]. split; [exact submitted_b|]. split; [exact toy_copied_b|exact toy_receivers_b].
Qed.

Lemma C92_queue_example_proof :
  let s := ledger_now toy_env toy_domain toy_log0 in
  settled_run toy_env toy_l1 toy_hash (fun _ => true) toy_domain toy_v0 toy_log0 toy_v3 /\
  collision_free (keccak toy_env) (log_strings toy_env (full_new toy_env toy_domain)
    (with_step toy_env toy_domain toy_log0 (toy_ctx auctioneer1 1001) step_a [7] batch_a 1000)) /\
  tk_balance (va_prove toy_v3) toy_self = 1077 /\
  next_pending toy_log0 toy_v3 1 = [QDeposit (DepositAction alice 1000)] /\
  observed_from (va_finalized toy_v3 + 1) (vs_onchain_block s) (vs_onchain_log_index s) (next_pending toy_log0 toy_v3 1) batch_a /\
  submitted toy_env toy_l1 toy_hash (fun _ => true) (recorded_input toy_env s batch_a 1000) (toy_ctx auctioneer1 1001) step_a
    [7] toy_v3.
Proof.
  intros s. split; [exact toy_settled0|]. split; [exact free_a|]. split; [vm_compute; reflexivity|].
  split; [vm_compute; reflexivity|]. split; [exact observed_a|exact submitted_a].
Qed.

Lemma C92_withdrawal_example_proof :
  let s := ledger_now toy_env toy_domain toy_log1 in
  settled_run toy_env toy_l1 toy_hash (fun _ => true) toy_domain toy_v0 toy_log1 toy_v2 /\
  collision_free (keccak toy_env) (log_strings toy_env (full_new toy_env toy_domain)
    (with_step toy_env toy_domain toy_log1 (toy_ctx auctioneer1 1010) step_w [7] [TxWithdraw withdraw_signed] 1005)) /\
  tk_balance (va_prove toy_v2) toy_self = 1082 /\ typed_tx (TxWithdraw withdraw_signed) /\
  withdraw_ok toy_env (contents s) withdraw_signed (withdraw_msg 1 alice 200 0) alice alice 200 auctioneer1 0 /\
  withdrawal_covered s alice alice 200 0 /\
  submitted toy_env toy_l1 toy_hash (fun _ => true) (recorded_input toy_env s [TxWithdraw withdraw_signed] 1005)
    (toy_ctx auctioneer1 1010) step_w [7] toy_v2.
Proof.
  intros s. split; [exact toy_settled1|]. split; [exact free_w|]. split; [vm_compute; reflexivity|]. split; [exact typed_w|].
  split; [exact withdraw_ok_a|]. split; [exact withdraw_covered_a|exact submitted_w].
Qed.
