(** Properties of the events of the settlement contract, and of what passes between it and the ledger.  The vocabulary is
    in [L1Spec.v] and [EventsSpec.v]. *)
From Verif Require Import Proofs_Events.
Open Scope N_scope.

(** ** C90: the events tell the state of the contract *)

(** Every history leaves exactly one list of events. *)
Theorem C90_history L v log v' :
  forall (Hlog : l1_history L v log v'),
  exists events, l1_observed L v log events v' /\
    forall events' v'', l1_observed L v log events' v'' -> events' = events /\ v'' = v'.
Proof. exact (history_one_observed L v log v'). Qed.
Print Assumptions C90_history.

Theorem C90_settings L log events v :
  forall (Hrun : observed_run L log events v), settings_told events v.
Proof. exact (run_settings_told L log events v). Qed.
Print Assumptions C90_settings.

Theorem C90_blocks L log events v :
  forall (Hrun : observed_run L log events v), blocks_told events v.
Proof. exact (run_blocks_told L log events v). Qed.
Print Assumptions C90_blocks.

(** The queue is told, and what is announced is what was asked for. *)
Theorem C90_queue L log events v :
  forall (Henv : l1_env_ok L) (Hrun : observed_run L log events v) (Htyped : Forall typed_entry log),
  queue_told events v /\
  map (fun a => (a.1.2, a.2)) (omap announced events) = map (fun q => (queued_variant q, queued_data q)) (created log).
Proof. exact (run_queue_told L log events v). Qed.
Print Assumptions C90_queue.

(** Accounts gain and lose what the events of a call say. *)
Theorem C90_money L x c v v' :
  forall (Haccepted : l1_transact L x c v = (v', None)),
  let events := l1_events L x c v in
  forall a, tk_balance (va_prove v') a + sum (came_from a) events + (if a =? le_self L then sum went_out events else 0)
    = tk_balance (va_prove v) a + (if a =? le_self L then sum came_in events else 0) + sum (went_to L x a) events.
Proof. exact (call_money L x c v v'). Qed.
Print Assumptions C90_money.

(** The contract always holds what came in and did not go out. *)
Theorem C90_holdings L v0 log events v :
  forall (Haddresses : addresses_ok L) (Hlog : l1_observed L v0 log events v) (Hown : Forall (own_actions L) log)
    (Hallowance : forall s, tk_allowance (va_prove v0) (le_self L) s = if s =? le_iprove L then unlimited else 0),
  tk_balance (va_prove v0) (le_self L) + sum came_in events <= tk_balance (va_prove v) (le_self L) + sum went_out events.
Proof. exact (observed_holdings L v0 log events v). Qed.
Print Assumptions C90_holdings.

(** Callers are told the number of their transaction, or of the block they made. *)
Theorem C90_returns L x c v v' :
  forall (Haccepted : l1_transact L x c v = (v', None)),
  let events := l1_events L x c v in
  match l1_returns L c v with
  | ONothing => omap announced events = [] /\ omap block_made events = []
  | OTransaction id => exists variant data, omap announced events = [(id, variant, data)] /\ id = va_current v'
  | OBlock n old new =>
      omap block_made events = [(n, new)] /\ omap root_change events = [(old, new)] /\
      n = va_block v' /\ old = va_root v /\ new = va_root v'
  end.
Proof. exact (call_returns L x c v v'). Qed.
Print Assumptions C90_returns.

(** Two deposits, a prover and two steps, then calls of the owner: the settings, the blocks, the queue and the money of
    the contract can be read off. *)
Example C90_example :
  l1_env_ok toy_l1 /\ observed_run toy_l1 all_log all_events toy_v3 /\ Forall typed_entry all_log /\
  omap minimum_change all_events = [(0, 10); (10, 20)] /\ omap owner_change all_events = [(0, 1); (1, 9)] /\
  omap vkey_change all_events = [(0, 4); (4, 44)] /\ omap pause_change all_events = [true; false] /\
  map fst (omap block_made all_events) = [0; 1; 2; 3] /\
  map (fun a => (a.1.1, a.1.2)) (omap announced all_events) = [(1, VDeposit); (2, VDeposit); (3, VCreateProver)] /\
  map (fun a => a.1.1) (omap settled all_events) = [(1, StCompleted); (2, StCompleted)] /\
  (sum came_in all_events, sum went_out all_events, sum (came_from bob) all_events) = (1077, 200, 77).
Proof. exact C90_example_proof. Qed.

Example C90_holdings_example :
  addresses_ok toy_l1 /\ l1_observed toy_l1 toy_v0 toy_log toy_events toy_v1 /\ Forall (own_actions toy_l1) toy_log /\
  (forall s, tk_allowance (va_prove toy_v0) (le_self toy_l1) s = if s =? le_iprove toy_l1 then unlimited else 0) /\
  (sum came_in toy_events, sum went_out toy_events, tk_balance (va_prove toy_v1) toy_self) = (1077, 200, 882).
Proof. exact C90_holdings_example_proof. Qed.

(** A step and what its caller is told. *)
Example C90_call_example :
  (l1_transact toy_l1 (toy_ctx auctioneer1 1010) (CStep (abi_step step_b) [7]) toy_v2).2 = None /\
  l1_returns toy_l1 (CStep (abi_step step_b) [7]) toy_v2 = OBlock 2 (pv_old_root step_b) (pv_new_root step_b) /\
  l1_returns toy_l1 (CDeposit 50) toy_v2 = OTransaction 4.
Proof. exact C90_call_example_proof. Qed.

(** ** C91: what passes between ledger and contract passes once, in order *)

(** The deposits and provers in the batches of the accepted steps are those the contract queued, from the first to the last
    finalised one, under their numbers. *)
Theorem C91_inwards E L sha verify domain v0 log v :
  forall (Hrun : settled_run E L sha verify domain v0 log v)
    (Hhash : collision_free (keccak E) (log_strings E (full_new E domain) log)),
  brought_in log = imap (fun n q => (N.of_nat n + 1, q)) (take (N.to_nat (va_finalized v)) (created log)).
Proof. exact (settled_inwards E L sha verify domain v0 log v). Qed.
Print Assumptions C91_inwards.

(** The contract pays the withdrawals made in the ledger, in their order, and nothing else. *)
Theorem C91_outwards E L sha verify domain v0 log events v :
  forall (Hrun : settled_run E L sha verify domain v0 log v) (Hlog : l1_observed L v0 log events v)
    (Hhash : collision_free (keccak E) (log_strings E (full_new E domain) log)),
  omap payment_made events = brought_out E (full_new E domain) log.
Proof. exact (settled_outwards E L sha verify domain v0 log events v). Qed.
Print Assumptions C91_outwards.

Example C91_example :
  settled_run toy_env toy_l1 toy_hash (fun _ => true) toy_domain toy_v0 toy_log toy_v1 /\
  l1_observed toy_l1 toy_v0 toy_log toy_events toy_v1 /\
  collision_free (keccak toy_env) (log_strings toy_env (full_new toy_env toy_domain) toy_log) /\
  brought_in toy_log = [(1, QDeposit (DepositAction alice 1000)); (2, QDeposit (DepositAction bob 77))] /\
  created toy_log = map snd (brought_in toy_log) ++ [QCreateProver (CreateProverAction prover1 owner1 1000)] /\
  omap payment_made toy_events = [(alice, 200)] /\
  brought_out toy_env (full_new toy_env toy_domain) toy_log = [(alice, 200)].
Proof. exact C91_example_proof. Qed.
