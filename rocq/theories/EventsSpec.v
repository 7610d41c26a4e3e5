(** Vocabulary for the theorems about the events of the settlement contract. *)
From Verif Require Export VAppEvents L1Spec.
Open Scope N_scope.

(** A history together with the events it leaves behind; reverted calls leave none. *)
Inductive l1_observed (L : l1_env) : l1_state -> list l1_entry -> list l1_event -> l1_state -> Prop :=
| ob_nil v : l1_observed L v [] [] v
| ob_accepted v x c inputs v1 log events v' :
    l1_transact L x c v = (v1, None) -> l1_observed L v1 log events v' ->
    l1_observed L v (LAccepted x c inputs :: log) (l1_events L x c v ++ events) v'
| ob_reverted v x c e v1 log events v' :
    l1_transact L x c v = (v1, Some e) -> l1_observed L v1 log events v' ->
    l1_observed L v (LReverted x c e :: log) events v'
| ob_token v o t log events v' :
    run_token_op (va_prove v) o = Ok t -> l1_observed L (va_set_prove t v) log events v' ->
    l1_observed L v (LToken o :: log) events v'.

(** A contract was deployed and went through [log]; [events] are all its events, from the first. *)
Definition observed_run (L : l1_env) (log : list l1_entry) (events : list l1_event) (v : l1_state) : Prop :=
  exists prove owner token_address auctioneer staking verifier min_deposit vkey genesis v0 later,
    l1_initialize L prove owner token_address auctioneer staking verifier min_deposit vkey genesis = Some v0 /\
    events = initialize_events owner auctioneer staking verifier min_deposit vkey genesis ++ later /\
    l1_observed L v0 log later v.

(** ** Reading the events *)

(** Old and new values in a list of changes connect [first] to [now]. *)
Inductive changed : N -> list (N * N) -> N -> Prop :=
| ch_nil a : changed a [] a
| ch_cons a b l c : changed b l c -> changed a ((a, b) :: l) c.

Definition root_change (e : l1_event) : option (N * N) := match e with EvBlock _ a b => Some (a, b) | _ => None end.
Definition vkey_change (e : l1_event) : option (N * N) := match e with EvFork _ a b => Some (a, b) | _ => None end.
Definition auctioneer_change (e : l1_event) : option (N * N) := match e with EvAuctioneer a b => Some (a, b) | _ => None end.
Definition staking_change (e : l1_event) : option (N * N) := match e with EvStaking a b => Some (a, b) | _ => None end.
Definition verifier_change (e : l1_event) : option (N * N) := match e with EvVerifier a b => Some (a, b) | _ => None end.
Definition minimum_change (e : l1_event) : option (N * N) := match e with EvMinDeposit a b => Some (a, b) | _ => None end.
Definition owner_change (e : l1_event) : option (N * N) := match e with EvOwner a b => Some (a, b) | _ => None end.
Definition pause_change (e : l1_event) : option bool :=
  match e with EvPaused _ => Some true | EvUnpaused _ => Some false | _ => None end.

(** Blocks with their roots. *)
Definition block_made (e : l1_event) : option (N * N) := match e with EvBlock n _ root => Some (n, root) | _ => None end.
(** Transactions that were queued. *)
Definition announced (e : l1_event) : option (N * sol_variant * bytes) :=
  match e with EvPending id variant data => Some (id, variant, data) | _ => None end.
(** What became of queued transactions; transactions of the ledger that failed carry the id 2^64 - 1. *)
Definition settled (e : l1_event) : option (N * tx_status * sol_variant * bytes) :=
  match e with
  | EvCompleted id variant data => Some (id, StCompleted, variant, data)
  | EvReverted id variant data => if id =? 2 ^ 64 - 1 then None else Some (id, StReverted, variant, data)
  | _ => None
  end.
(** The status of the [n]-th transaction, by the events. *)
Definition status_told (events : list l1_event) (n : nat) : tx_status :=
  match omap settled events !! n with Some (_, status, _, _) => status | None => StPending end.

(** $PROVE that came in from [a], that came in, that went to [a] and that went out. *)
Definition came_from (a : N) (e : l1_event) : N := match e with EvDeposit from x => if from =? a then x else 0 | _ => 0 end.
Definition came_in (e : l1_event) : N := match e with EvDeposit _ x => x | _ => 0 end.
Definition went_to (L : l1_env) (x : l1_ctx) (a : N) (e : l1_event) : N :=
  match e with
  | EvWithdraw to y => if (if cx_is_prover x to then le_iprove L else to) =? a then y else 0
  | _ => 0
  end.
Definition went_out (e : l1_event) : N := match e with EvWithdraw _ y => y | _ => 0 end.

(** ** What the events tell *)

(** The settings. *)
Record settings_told (events : list l1_event) (v : l1_state) : Prop := {
  st_owner : changed 0 (omap owner_change events) (va_owner v);
  st_auctioneer : changed 0 (omap auctioneer_change events) (va_auctioneer v);
  st_staking : changed 0 (omap staking_change events) (va_staking v);
  st_verifier : changed 0 (omap verifier_change events) (va_verifier v);
  st_minimum : changed 0 (omap minimum_change events) (va_min_deposit v);
  st_vkey : changed 0 (omap vkey_change events) (va_vkey v);
  st_paused : va_paused v = default false (last (omap pause_change events))
}.

(** The blocks: their numbers are consecutive, and each continues the one before it. *)
Record blocks_told (events : list l1_event) (v : l1_state) : Prop := {
  bt_count : N.of_nat (length (omap block_made events)) = va_block v + 1;
  bt_blocks : forall k n root, omap block_made events !! k = Some (n, root) ->
    n = N.of_nat k /\ va_roots v !! n = Some root;
  bt_chain : changed 0 (omap root_change events) (va_root v);
  bt_forks : forall i n a b, events !! i = Some (EvFork n a b) ->
    exists old new, events !! S i = Some (EvBlock n old new)
}.

(** The queue. *)
Record queue_told (events : list l1_event) (v : l1_state) : Prop := {
  qt_current : N.of_nat (length (omap announced events)) = va_current v;
  qt_finalized : N.of_nat (length (omap settled events)) = va_finalized v;
  qt_order : va_finalized v <= va_current v;
  qt_announced : forall n id variant data, omap announced events !! n = Some (id, variant, data) ->
    id = N.of_nat n + 1 /\ va_txs v !! id = Some (L1Tx variant (status_told events n) id data);
  qt_settled : forall n id status variant data, omap settled events !! n = Some (id, status, variant, data) ->
    id = N.of_nat n + 1 /\
    exists announced_data rest, omap announced events !! n = Some (id, variant, announced_data) /\ data = announced_data ++ rest
}.

(** ** Between ledger and contract *)

(** Transactions of a batch that come from the contract, with their number there. *)
Definition from_chain (t : tx) : option (N * queued) :=
  match t with
  | TxDeposit d => Some (oc_tx d, QDeposit (oc_action d))
  | TxCreateProver c => Some (oc_tx c, QCreateProver (oc_action c))
  | _ => None
  end.
(** Those in the batches of the accepted steps, in order. *)
Definition brought_in (log : list l1_entry) : list (N * queued) :=
  flat_map (fun e => match e with LAccepted _ (CStep _ _) inputs => omap from_chain (all_txs inputs) | _ => [] end) log.

(** Withdrawals made in the ledger: who is to be paid how much. *)
Definition withdrawal_made (r : exec_result) : option (N * N) :=
  match r with ResOk (Some (RWithdraw o)) => Some (wa_account (fr_action o), wa_amount (fr_action o)) | _ => None end.
(** Those of the batches of the accepted steps, in order. *)
Fixpoint brought_out (E : env) (s : full_state) (log : list l1_entry) : list (N * N) :=
  match log with
  | [] => []
  | LAccepted _ (CStep _ _) inputs :: rest =>
      let after := run_batch E s (all_txs inputs) in
      omap withdrawal_made after.2 ++ brought_out E after.1 rest
  | _ :: rest => brought_out E s rest
  end.
(** Payments of the contract, by its events. *)
Definition payment_made (e : l1_event) : option (N * N) := match e with EvWithdraw to amount => Some (to, amount) | _ => None end.
