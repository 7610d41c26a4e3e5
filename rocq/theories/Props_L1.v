(** Properties of the settlement contract.  The vocabulary is in [L1Spec.v].  The external verifier and
    the decoder of public values are arbitrary, except that the decoder inverts the encoder. *)
From Verif Require Import Proofs_L1.
Open Scope N_scope.

(** ** C31: the on-chain queue is finalised in order, once, and faithfully *)

Theorem C31_queue_faithful L prove owner token_address auctioneer staking verifier min_deposit vkey genesis
    v0 log v :
  forall (Henv : l1_env_ok L)
    (Hdeployed : l1_initialize L prove owner token_address auctioneer staking verifier min_deposit vkey
                   genesis = Some v0)
    (Hlog : l1_history L v0 log v) (Htyped : Forall typed_entry log),
  queue_faithful (created log) (finalised L log) v.
Proof.
  exact (C31_queue_faithful_proof L prove owner token_address auctioneer staking verifier min_deposit vkey genesis v0 log v).
Qed.
Print Assumptions C31_queue_faithful.

(** Three transactions created, two of them finalised. *)
Example C31_queue_example :
  l1_history toy_l1 toy_v0 toy_log toy_v1 /\ Forall typed_entry toy_log /\
  (length (created toy_log), length (finalised toy_l1 toy_log)) = (3, 2)%nat /\
  (fun t => (lt_variant t, lt_status t)) <$> (va_txs toy_v1 !! 2) = Some (VDeposit, StCompleted) /\
  (fun t => (lt_variant t, lt_status t)) <$> (va_txs toy_v1 !! 3) = Some (VCreateProver, StPending).
Proof. exact C31_queue_example_proof. Qed.

(** An accepted step was allowed, and appends exactly one block. *)
Theorem C31_step_effect L x b proof v v' :
  forall (Haccepted : l1_transact L x (CStep b proof) v = (v', None)),
  exists p, step_allowed L x b proof p v /\
    va_block v' = va_block v + 1 /\ va_root v' = pv_new_root p /\ va_timestamp v' = pv_timestamp p /\
    va_current v' = va_current v /\
    (forall n, n <> va_block v + 1 ->
       va_roots v' !! n = va_roots v !! n /\ va_timestamps v' !! n = va_timestamps v !! n).
Proof. exact (C31_step_effect_proof L x b proof v v'). Qed.
Print Assumptions C31_step_effect.

(** A step that is not allowed is refused and changes nothing. *)
Theorem C31_other_steps_refused L x b proof v :
  forall (Hnot : forall p, ~ step_allowed L x b proof p v),
  exists e, l1_transact L x (CStep b proof) v = (v, Some e).
Proof. exact (C31_other_steps_refused_proof L x b proof v). Qed.
Print Assumptions C31_other_steps_refused.

(** Steps that are refused: wrong caller, the same step again, a proof that does not verify. *)
Example C31_step_example :
  (l1_transact toy_l1 (toy_ctx auctioneer1 1010) (CStep (abi_step step_b) [7]) toy_v2).2 = None /\
  (l1_transact toy_l1 (toy_ctx alice 1010) (CStep (abi_step step_b) [7]) toy_v2).2 = Some L1NotAuctioneer /\
  (l1_transact toy_l1 (toy_ctx auctioneer1 1010) (CStep (abi_step step_a) [7]) toy_v2).2 = Some L1InvalidOldRoot /\
  (l1_transact toy_l1 (toy_ctx auctioneer1 1010) (CStep (abi_step step_b) [8]) toy_v2).2 = Some L1ProofRejected /\
  (l1_transact toy_l1 (toy_ctx auctioneer1 9999) (CStep (abi_step step_b) [7]) toy_v2).2 = Some L1TimestampTooOld.
Proof. repeat match goal with |- _ /\ _ => split end; vm_compute; reflexivity. Qed.

(** Past blocks never change, and without forks time does not run backwards. *)
Theorem C31_past_is_fixed L v log v' :
  forall (Hlog : l1_history L v log v'),
  va_block v <= va_block v' /\
  (forall n, n <= va_block v ->
     va_roots v' !! n = va_roots v !! n /\ va_timestamps v' !! n = va_timestamps v !! n) /\
  (Forall no_fork log -> va_timestamp v <= va_timestamp v').
Proof. exact (C31_past_is_fixed_proof L v log v'). Qed.
Print Assumptions C31_past_is_fixed.

Example C31_past_example :
  l1_history toy_l1 toy_v0 toy_log toy_v1 /\ (va_block toy_v0, va_block toy_v1) = (0, 2) /\
  va_roots toy_v1 !! 1 = Some (pv_new_root step_a) /\ (va_timestamp toy_v0, va_timestamp toy_v1) = (0, 1005).
Proof. exact C31_past_example_proof. Qed.

(** ** C32: the contract stays solvent *)

Theorem C32_solvent E L sha verify domain v0 log v :
  forall (Hrun : settled_run E L sha verify domain v0 log v)
    (Hhash : collision_free (keccak E) (log_strings E (full_new E domain) log)),
  let s := ledger_after E (full_new E domain) log in
  va_root v = full_root E s /\
  total_balance (accounts s) + pending_deposits (created log) (finalised L log)
  <= tk_balance (va_prove v) (le_self L).
Proof. exact (C32_solvent_proof E L sha verify domain v0 log v). Qed.
Print Assumptions C32_solvent.

(** Hence a step with a sound proof never fails for lack of funds. *)
Theorem C32_payable E L sha verify domain v0 log v x b proof inputs e :
  forall (Hrun : settled_run E L sha verify domain v0 log v)
    (Hhash : collision_free (keccak E) (log_strings E (full_new E domain) (log ++ [LAccepted x (CStep b proof) inputs])))
    (Hmade : made_from E sha verify inputs b)
    (Hfails : l1_transact L x (CStep b proof) v = (v, Some e)),
  e <> L1Token TkInsufficientBalance /\ e <> L1Token TkInsufficientAllowance.
Proof. exact (C32_payable_proof E L sha verify domain v0 log v x b proof inputs e). Qed.
Print Assumptions C32_payable.

(** An accepted step moves exactly the withdrawals it reports, each to its destination. *)
Theorem C32_payments_exact L x b proof v v' p :
  forall (Haccepted : l1_transact L x (CStep b proof) v = (v', None)) (Hdecoded : le_decode L b = Some p),
  forall a, tk_balance (va_prove v') a + (if a =? le_self L then sum (paid L x) (pv_receipts p) else 0)
    = tk_balance (va_prove v) a + sum (received L x a) (pv_receipts p).
Proof. exact (C32_payments_exact_proof L x b proof v v' p). Qed.
Print Assumptions C32_payments_exact.

Example C32_example :
  settled_run toy_env toy_l1 toy_hash (fun _ => true) toy_domain toy_v0 toy_log toy_v1 /\
  settled_run toy_env toy_l1 toy_hash (fun _ => true) toy_domain toy_v0 toy_log1 toy_v2 /\
  collision_free (keccak toy_env) (log_strings toy_env world0 toy_log) /\
  made_from toy_env toy_hash (fun _ => true) [input_b] (abi_step step_b) /\
  total_balance (accounts (ledger_after toy_env world0 toy_log)) = 877 /\
  pending_deposits (created toy_log1) (finalised toy_l1 toy_log1) = 77 /\
  map (tk_balance (va_prove toy_v2)) [toy_self; alice] = [1082; 195] /\
  map (tk_balance (va_prove toy_v1)) [toy_self; alice] = [882; 395].
Proof. exact C32_example_proof. Qed.

(** ** C45: ledger and contract agree on the next on-chain transaction, so honest steps are accepted *)

Theorem C45_cursors_agree E L sha verify domain v0 log v :
  forall (Hrun : settled_run E L sha verify domain v0 log v)
    (Hhash : collision_free (keccak E) (log_strings E (full_new E domain) log)),
  vs_onchain_tx_id (ledger_after E (full_new E domain) log) = (va_finalized v + 1) mod 2 ^ 64.
Proof. intros Hr Hc. exact (proj2 (run_inv E L sha verify domain v0 log v Hr Hc)). Qed.
Print Assumptions C45_cursors_agree.

Theorem C45_honest_step_accepted E L sha verify domain v0 log v x p proof inputs :
  forall (Hrun : settled_run E L sha verify domain v0 log v)
    (Hhash : collision_free (keccak E)
       (log_strings E (full_new E domain) (log ++ [LAccepted x (CStep (abi_step p) proof) inputs])))
    (Hmade : made_from E sha verify inputs (abi_step p))
    (Hallowed : step_allowed L x (abi_step p) proof p v)
    (Hblocks : va_block v + 1 < 2 ^ 64) (Hqueue : N.of_nat (length (created log)) < 2 ^ 64 - 1)
    (Hcopied : Forall (from_queue (created log)) (all_txs inputs))
    (Hreceivers : Forall (can_receive x) (pv_receipts p)),
  exists v', l1_transact L x (CStep (abi_step p) proof) v = (v', None).
Proof. exact (C45_honest_step_accepted_proof E L sha verify domain v0 log v x p proof inputs). Qed.
Print Assumptions C45_honest_step_accepted.

Example C45_example :
  settled_run toy_env toy_l1 toy_hash (fun _ => true) toy_domain toy_v0 toy_log1 toy_v2 /\
  made_from toy_env toy_hash (fun _ => true) [input_b] (abi_step step_b) /\
  step_allowed toy_l1 (toy_ctx auctioneer1 1010) (abi_step step_b) [7] step_b toy_v2 /\
  Forall (from_queue (created toy_log1)) (all_txs [input_b]) /\
  Forall (can_receive (toy_ctx auctioneer1 1010)) (pv_receipts step_b).
Proof. exact C45_example_proof. Qed.

(** ** C46: only the owner changes the settings, and a paused contract stands still *)

Theorem C46_only_owner L x c v v' :
  forall (Haccepted : l1_transact L x c v = (v', None)) (Hchanged : settings v' <> settings v),
  cx_sender x = va_owner v /\ ((exists a, c = CAdmin a) \/ (exists vkey root, c = CFork vkey root)).
Proof. intros H. apply transact_ok in H. exact (run_settings L x c v v' H). Qed.
Print Assumptions C46_only_owner.

Theorem C46_paused L x c v v' :
  forall (Haccepted : l1_transact L x c v = (v', None)) (Hpaused : va_paused v = true),
  cx_sender x = va_owner v /\ ((exists a, c = CAdmin a) \/ (exists vkey root, c = CFork vkey root)).
Proof. intros H. apply transact_ok in H. exact (run_paused_owner L x c v v' H). Qed.
Print Assumptions C46_paused.

Example C46_example :
  (l1_transact toy_l1 (toy_ctx 1 5) (CAdmin (AUpdateAuctioneer 77)) toy_v1).2 = None /\
  va_auctioneer (l1_transact toy_l1 (toy_ctx 1 5) (CAdmin (AUpdateAuctioneer 77)) toy_v1).1 = 77 /\
  (l1_transact toy_l1 (toy_ctx bob 5) (CAdmin (AUpdateAuctioneer 77)) toy_v1).2 = Some L1NotOwner /\
  (let w := (l1_transact toy_l1 (toy_ctx 1 5) (CAdmin APause) toy_v1).1 in
   (va_paused w, (l1_transact toy_l1 (toy_ctx alice 5) (CDeposit 10) w).2,
    (l1_transact toy_l1 (toy_ctx 1 5) (CFork 6 7) w).2)) = (true, Some L1Paused, None).
Proof. repeat match goal with |- _ /\ _ => split end; vm_compute; reflexivity. Qed.

(** ** C62: what a deposit takes, and what is queued *)

Theorem C62_deposit_exact L x amount v v' :
  forall (Hcall : l1_transact L x (CDeposit amount) v = (v', None)),
  let granted := tk_allowance (va_prove v) (cx_sender x) (le_self L) in
  deposit_allowed L (cx_sender x) amount granted v /\
  one_queued (QDeposit (DepositAction (cx_sender x) amount)) v v' /\
  deposit_paid L (cx_sender x) amount granted (va_prove v) (va_prove v').
Proof. exact (deposit_exact L x amount v v'). Qed.
Print Assumptions C62_deposit_exact.

Theorem C62_deposit_accepted L x amount v :
  forall (Hallowed : deposit_allowed L (cx_sender x) amount (tk_allowance (va_prove v) (cx_sender x) (le_self L)) v),
  exists v', l1_transact L x (CDeposit amount) v = (v', None).
Proof. exact (deposit_accepted L x amount v). Qed.
Print Assumptions C62_deposit_accepted.

Theorem C62_permit_exact L x from amount v v' :
  forall (Hcall : l1_transact L x (CPermitAndDeposit from amount) v = (v', None)),
  (tk_allowance (va_prove v) from (le_self L) = amount \/ cx_permit_valid x = true) /\
  deposit_allowed L from amount amount v /\
  one_queued (QDeposit (DepositAction from amount)) v v' /\
  deposit_paid L from amount amount (va_prove v) (va_prove v').
Proof. exact (permit_exact L x from amount v v'). Qed.
Print Assumptions C62_permit_exact.

Theorem C62_permit_accepted L x from amount v :
  forall (Hpermit : tk_allowance (va_prove v) from (le_self L) = amount \/ cx_permit_valid x = true)
         (Hallowed : deposit_allowed L from amount amount v),
  exists v', l1_transact L x (CPermitAndDeposit from amount) v = (v', None).
Proof. exact (permit_accepted L x from amount v). Qed.
Print Assumptions C62_permit_accepted.

Theorem C62_create_prover_exact L x prover owner bips v v' :
  forall (Hcall : l1_transact L x (CCreateProver prover owner bips) v = (v', None)),
  cx_sender x = va_staking v /\ va_paused v = false /\ owner <> 0 /\ owner = cx_owner_of x prover /\
  va_current v + 1 < 2 ^ 64 /\
  one_queued (QCreateProver (CreateProverAction prover owner bips)) v v' /\ va_prove v' = va_prove v.
Proof. exact (create_prover_exact L x prover owner bips v v'). Qed.
Print Assumptions C62_create_prover_exact.

Theorem C62_create_prover_accepted L x prover owner bips v :
  forall (Hsender : cx_sender x = va_staking v) (Hrunning : va_paused v = false) (Howner : owner <> 0)
         (Howned : owner = cx_owner_of x prover) (Hids : va_current v + 1 < 2 ^ 64),
  exists v', l1_transact L x (CCreateProver prover owner bips) v = (v', None).
Proof. exact (create_prover_accepted L x prover owner bips v). Qed.
Print Assumptions C62_create_prover_accepted.

(** Alice has 395; the contract may take up to 100 of them.  A deposit of 9 is below the minimum of 10. *)
Example C62_example :
  let v := va_set_prove (tk_approve (va_prove toy_v1) alice toy_self 100) toy_v1 in
  let w := (l1_transact toy_l1 (toy_ctx alice 2000) (CDeposit 60) v).1 in
  (l1_transact toy_l1 (toy_ctx alice 2000) (CDeposit 60) v).2 = None /\
  (tk_balance (va_prove v) alice, tk_balance (va_prove w) alice) = (395, 335) /\
  tk_balance (va_prove w) toy_self = tk_balance (va_prove v) toy_self + 60 /\
  tk_allowance (va_prove w) alice toy_self = 40 /\
  (va_current v, va_current w) = (3, 4) /\
  (l1_transact toy_l1 (toy_ctx alice 2000) (CDeposit 9) v).2 = Some L1BelowMinimum /\
  (l1_transact toy_l1 (toy_ctx alice 2000) (CDeposit 101) v).2 = Some (L1Token TkInsufficientAllowance) /\
  (l1_transact toy_l1 (toy_ctx bob 2000) (CPermitAndDeposit alice 100) v).2 = None /\
  (l1_transact toy_l1 (toy_ctx bob 2000) (CPermitAndDeposit alice 99) v).2 = Some L1PermitRejected /\
  (l1_transact toy_l1 (toy_ctx toy_staking 2000) (CCreateProver prover1 owner1 1) v).2 = None /\
  (l1_transact toy_l1 (toy_ctx toy_staking 2000) (CCreateProver prover1 alice 1) v).2 = Some L1ProverNotOwned.
Proof. cbv zeta. repeat match goal with |- _ /\ _ => split end; vm_compute; reflexivity. Qed.

(** ** C63: what the owner's calls do *)

Theorem C63_setting_exact L x c v v' :
  forall (Hcall : l1_transact L x (CAdmin c) v = (v', None)),
  cx_sender x = va_owner v /\ new_settings c (settings v) (settings v') /\ not_settings v' = not_settings v.
Proof. exact (admin_exact L x c v v'). Qed.
Print Assumptions C63_setting_exact.

Theorem C63_setting_accepted L x c v new :
  forall (Howner : cx_sender x = va_owner v) (Hnew : new_settings c (settings v) new),
  exists v', l1_transact L x (CAdmin c) v = (v', None) /\ settings v' = new.
Proof. exact (admin_accepted L x c v new). Qed.
Print Assumptions C63_setting_accepted.

Theorem C63_fork_exact L x vkey root v v' :
  forall (Hcall : l1_transact L x (CFork vkey root) v = (v', None)),
  cx_sender x = va_owner v /\ vkey <> 0 /\ root <> 0 /\ va_block v + 1 < 2 ^ 64 /\
  va_vkey v' = vkey /\ va_block v' = va_block v + 1 /\ va_root v' = root /\
  va_timestamp v' = cx_time x mod 2 ^ 64 /\
  (forall n, n <> va_block v + 1 ->
     va_roots v' !! n = va_roots v !! n /\ va_timestamps v' !! n = va_timestamps v !! n) /\
  (va_owner v', va_paused v', va_auctioneer v', va_staking v', va_verifier v', va_min_deposit v')
  = (va_owner v, va_paused v, va_auctioneer v, va_staking v, va_verifier v, va_min_deposit v) /\
  (va_current v', va_finalized v', va_txs v', va_prove v') = (va_current v, va_finalized v, va_txs v, va_prove v).
Proof. exact (fork_exact L x vkey root v v'). Qed.
Print Assumptions C63_fork_exact.

Theorem C63_fork_accepted L x vkey root v :
  forall (Howner : cx_sender x = va_owner v) (Hvkey : vkey <> 0) (Hroot : root <> 0)
         (Hblocks : va_block v + 1 < 2 ^ 64),
  exists v', l1_transact L x (CFork vkey root) v = (v', None).
Proof. exact (fork_accepted L x vkey root v). Qed.
Print Assumptions C63_fork_accepted.

Theorem C63_deployment L prove owner token auctioneer staking verifier min_deposit vkey genesis v :
  forall (Hdeployed : l1_initialize L prove owner token auctioneer staking verifier min_deposit vkey genesis = Some v),
  ~ In 0 [owner; token; le_iprove L; auctioneer; staking; verifier; vkey; genesis] /\
  settings v = (owner, false, vkey, auctioneer, staking, verifier, min_deposit) /\
  va_block v = 0 /\ va_root v = genesis /\ va_timestamp v = 0 /\
  va_current v = 0 /\ va_finalized v = 0 /\ (forall k, va_txs v !! k = None) /\
  (forall a, tk_balance (va_prove v) a = tk_balance prove a) /\
  tk_allowance (va_prove v) (le_self L) (le_iprove L) = unlimited /\
  (forall o s, (o, s) <> (le_self L, le_iprove L) -> tk_allowance (va_prove v) o s = tk_allowance prove o s).
Proof. exact (initialize_exact L prove owner token auctioneer staking verifier min_deposit vkey genesis v). Qed.
Print Assumptions C63_deployment.

Example C63_example :
  let fork := l1_transact toy_l1 (toy_ctx 1 2000) (CFork 6 7) toy_v1 in
  fork.2 = None /\
  (va_vkey toy_v1, va_vkey fork.1, va_root fork.1, va_timestamp fork.1) = (4, 6, 7, 2000) /\
  (va_block toy_v1, va_block fork.1) = (2, 3) /\
  (l1_transact toy_l1 (toy_ctx 1 2000) (CFork 6 0) toy_v1).2 = Some L1ZeroHash /\
  (l1_transact toy_l1 (toy_ctx alice 2000) (CFork 6 7) toy_v1).2 = Some L1NotOwner /\
  settings (l1_transact toy_l1 (toy_ctx 1 2000) (CAdmin (AUpdateMinDeposit 99)) toy_v1).1
  = (1, false, 4, auctioneer1, toy_staking, 3, 99) /\
  (l1_transact toy_l1 (toy_ctx 1 2000) (CAdmin AUnpause) toy_v1).2 = Some L1NotPaused /\
  l1_initialize toy_l1 (Token ∅ ∅) 1 2 auctioneer1 0 3 10 4 5 = None /\
  l1_initialize toy_l1 (Token ∅ ∅) 1 2 auctioneer1 toy_staking 3 10 4 5 = Some (toy_contract 5).
Proof. cbv zeta. repeat match goal with |- _ /\ _ => split end; vm_compute; reflexivity. Qed.
