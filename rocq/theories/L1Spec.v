(** Vocabulary for the theorems about the settlement contract. *)
From Verif Require Export AggSpec VApp.
Open Scope N_scope.

(** ** What happens on the chain *)

(** One entry of a log: an accepted call (with the program inputs from which the proof of a step was
    made; irrelevant for other calls), a reverted call, or a call of the token. *)
Inductive l1_entry : Type :=
| LAccepted (x : l1_ctx) (c : l1_call) (inputs : list stf_input)
| LReverted (x : l1_ctx) (c : l1_call) (e : l1_error)
| LToken (o : token_op).

Inductive l1_history (L : l1_env) : l1_state -> list l1_entry -> l1_state -> Prop :=
| lh_nil v : l1_history L v [] v
| lh_accepted v x c inputs v1 log v' :
    l1_transact L x c v = (v1, None) -> l1_history L v1 log v' ->
    l1_history L v (LAccepted x c inputs :: log) v'
| lh_reverted v x c e v1 log v' :
    l1_transact L x c v = (v1, Some e) -> l1_history L v1 log v' ->
    l1_history L v (LReverted x c e :: log) v'
| lh_token v o t log v' :
    run_token_op (va_prove v) o = Ok t -> l1_history L (va_set_prove t v) log v' ->
    l1_history L v (LToken o :: log) v'.

(** ** The queue of on-chain transactions *)

Inductive queued : Type :=
| QDeposit (d : deposit_action)
| QCreateProver (c : create_prover_action).

Definition queued_variant (q : queued) : sol_variant :=
  match q with QDeposit _ => VDeposit | QCreateProver _ => VCreateProver end.
(** The action as the words of the ABI. *)
Definition queued_data (q : queued) : bytes :=
  match q with
  | QDeposit d => be_bytes 32 (da_account d) ++ be_bytes 32 (da_amount d)
  | QCreateProver c => be_bytes 32 (cp_prover c) ++ be_bytes 32 (cp_owner c) ++ be_bytes 32 (cp_bips c)
  end.

(** What a call asks to be queued. *)
Definition queued_by (x : l1_ctx) (c : l1_call) : list queued :=
  match c with
  | CDeposit amount => [QDeposit (DepositAction (cx_sender x) amount)]
  | CPermitAndDeposit from amount => [QDeposit (DepositAction from amount)]
  | CCreateProver prover owner bips => [QCreateProver (CreateProverAction prover owner bips)]
  | _ => []
  end.
Definition created (log : list l1_entry) : list queued :=
  flat_map (fun e => match e with LAccepted x c _ => queued_by x c | _ => [] end) log.

(** Receipts of on-chain transactions among the receipts of a step. *)
Definition onchain (rs : list sol_receipt) : list sol_receipt :=
  filter (fun r => sr_tx_id r <> 2 ^ 64 - 1) rs.
Definition finalised (L : l1_env) (log : list l1_entry) : list sol_receipt :=
  flat_map (fun e => match e with
                     | LAccepted _ (CStep pv _) _ =>
                         match le_decode L pv with Some p => onchain (pv_receipts p) | None => [] end
                     | _ => []
                     end) log.

(** The status of the [n]-th queued transaction. *)
Definition status_at (F : list sol_receipt) (n : nat) : tx_status :=
  match F !! n with Some r => sr_status r | None => StPending end.

(** The queue in the contract is the one of the log: [C] was created and [F] finalised. *)
Record queue_faithful (C : list queued) (F : list sol_receipt) (v : l1_state) : Prop := {
  (* ids are consecutive; at most what was created is finalised *)
  qf_current : va_current v = N.of_nat (length C);
  qf_finalized : va_finalized v = N.of_nat (length F);
  qf_bound : (length F <= length C)%nat;
  (* the recorded transactions are those created, with the status reported by their receipt *)
  qf_txs : forall n q, C !! n = Some q ->
    va_txs v !! (N.of_nat n + 1)
    = Some (L1Tx (queued_variant q) (status_at F n) (N.of_nat n + 1) (queued_data q));
  qf_no_other : forall k, k = 0 \/ va_current v < k -> va_txs v !! k = None;
  (* the [n]-th receipt is for the [n]-th transaction and reports its contents *)
  qf_receipts : forall n r, F !! n = Some r ->
    sr_tx_id r = N.of_nat n + 1 /\ (sr_status r = StCompleted \/ sr_status r = StReverted) /\
    exists q rest, C !! n = Some q /\ sr_variant r = queued_variant q /\
      sr_action r = queued_data q ++ rest
}.

(** ** Well-typed calls: what the ABI of the contract enforces *)

Definition typed_call (x : l1_ctx) (c : l1_call) : Prop :=
  is_address (cx_sender x) /\
  match c with
  | CDeposit amount => is_word amount
  | CPermitAndDeposit from amount => is_address from /\ is_word amount
  | CCreateProver prover owner bips => is_address prover /\ is_address owner /\ is_word bips
  | _ => True
  end.
Definition typed_entry (e : l1_entry) : Prop :=
  match e with LAccepted x c _ => typed_call x c | _ => True end.

(** The decoder of public values inverts the encoder, and yields byte strings. *)
Record l1_env_ok (L : l1_env) : Prop := {
  leo_inverts : forall p, typed_pv p -> le_decode L (abi_step p) = Some p;
  leo_bytes : forall b p r, le_decode L b = Some p -> r ∈ pv_receipts p -> bytes_ok (sr_action r)
}.

(** ** Steps *)

(** The public values of a step may be accepted in this state. *)
Record step_allowed (L : l1_env) (x : l1_ctx) (b proof : bytes) (p : step_pv) (v : l1_state) : Prop := {
  sa_sender : cx_sender x = va_auctioneer v;
  sa_running : va_paused v = false;
  sa_proof : le_verify L (va_verifier v) (va_vkey v) b proof = true;
  sa_decoded : le_decode L b = Some p;
  sa_root : pv_new_root p <> 0;
  sa_old_root : pv_old_root p = va_root v;
  sa_time : va_timestamp v <= pv_timestamp p <= cx_time x;
  sa_recent : cx_time x <= pv_timestamp p + 3600
}.

(** ** Contract and ledger *)

(** The owner's emergency exit is not used. *)
Definition no_fork (e : l1_entry) : Prop :=
  match e with LAccepted _ (CFork _ _) _ => False | _ => True end.

(** Only the contract acts for the contract: it does not call itself, nobody can sign a permit for it,
    and the vault pulls its tokens only when asked by it. *)
Definition own_actions (L : l1_env) (e : l1_entry) : Prop :=
  match e with
  | LAccepted x (CDeposit _) _ => cx_sender x <> le_self L
  | LAccepted x (CPermitAndDeposit from _) _ => cx_permit_valid x = true -> from <> le_self L
  | LToken (OTransfer by_ _ _) => by_ <> le_self L
  | LToken (OTransferFrom spender from _ _) => from = le_self L -> spender <> le_iprove L
  | LToken (OApprove owner _ _) => owner <> le_self L
  | LToken (OBurn by_ _) => by_ <> le_self L
  | LToken (OBurnFrom spender from _) => from = le_self L -> spender <> le_iprove L
  | _ => True
  end.

(** The public values [b] were made from these inputs: each was run by the state-transition program,
    and the results were aggregated. *)
Definition made_from (E : env) (sha : bytes -> N) (verify : N -> bool) (inputs : list stf_input)
    (b : bytes) : Prop :=
  Forall (usable_input E) inputs /\
  exists pvs out,
    Forall2 (fun b i => verify (sha b) = true -> stf_commit E i = Some b) pvs inputs /\
    aggregate_main sha verify pvs = Some out /\ b = abi_step out /\ N.of_nat (length b) < 2 ^ 256.

(** What the proof of an accepted step stands for. *)
Definition proofs_sound (E : env) (sha : bytes -> N) (verify : N -> bool) (e : l1_entry) : Prop :=
  match e with LAccepted _ (CStep b _) inputs => made_from E sha verify inputs b | _ => True end.

(** The ledger after the batches of the accepted steps. *)
Fixpoint ledger_after (E : env) (s : full_state) (log : list l1_entry) : full_state :=
  match log with
  | [] => s
  | LAccepted _ (CStep _ _) inputs :: rest => ledger_after E (run_batch E s (all_txs inputs)).1 rest
  | _ :: rest => ledger_after E s rest
  end.

(** All strings hashed for the accepted steps. *)
Fixpoint log_strings (E : env) (s : full_state) (log : list l1_entry) : list bytes :=
  match log with
  | [] => []
  | LAccepted _ (CStep _ _) inputs :: rest =>
      chain_strings E inputs s ++ log_strings E (run_batch E s (all_txs inputs)).1 rest
  | _ :: rest => log_strings E s rest
  end.

(** Deposits that are queued but not finalised. *)
Definition queued_amount (q : queued) : N :=
  match q with QDeposit d => da_amount d | QCreateProver _ => 0 end.
Definition pending_deposits (C : list queued) (F : list sol_receipt) : N :=
  sum queued_amount (drop (length F) C).

(** The on-chain transactions of a batch are those queued under their id. *)
Definition from_queue (C : list queued) (t : tx) : Prop :=
  match t with
  | TxDeposit d => exists n, oc_tx d = N.of_nat n + 1 /\ C !! n = Some (QDeposit (oc_action d))
  | TxCreateProver c => exists n, oc_tx c = N.of_nat n + 1 /\ C !! n = Some (QCreateProver (oc_action c))
  | _ => True
  end.

(** What the action of a withdrawal says: the first word is the account, the second the amount. *)
Definition withdrawal (bs : bytes) : option (N * N) :=
  if (64 <=? length bs)%nat then Some (from_be (take 32 bs), from_be (take 32 (drop 32 bs))) else None.

(** The destination of a withdrawal receives what it is sent. *)
Definition can_receive (x : l1_ctx) (r : sol_receipt) : Prop :=
  forall account amount, sr_variant r = VWithdraw -> withdrawal (sr_action r) = Some (account, amount) ->
    account <> 0 /\ (cx_is_prover x account = true -> cx_vault_accepts x account amount = true).

(** The addresses of contract and vault. *)
Record addresses_ok (L : l1_env) : Prop := {
  ao_self : le_self L <> 0;
  ao_iprove : le_iprove L <> 0;
  ao_differ : le_self L <> le_iprove L
}.

(** A contract deployed with the root of the empty ledger of [domain] went through this log. *)
Record settled_run (E : env) (L : l1_env) (sha : bytes -> N) (verify : N -> bool) (domain : N) (v0 : l1_state)
    (log : list l1_entry) (v : l1_state) : Prop := {
  sr_env : env_ok E;
  sr_l1_env : l1_env_ok L;
  sr_addresses : addresses_ok L;
  sr_domain : is_word domain;
  sr_deployed : exists prove owner token_address auctioneer staking verifier min_deposit vkey,
    l1_initialize L prove owner token_address auctioneer staking verifier min_deposit vkey
      (full_root E (full_new E domain)) = Some v0 /\ forall s, tk_allowance prove (le_self L) s = 0;
  sr_history : l1_history L v0 log v;
  sr_typed : Forall typed_entry log;
  sr_no_fork : Forall no_fork log;
  sr_own : Forall (own_actions L) log;
  sr_proofs : Forall (proofs_sound E sha verify) log
}.

(** What the contract has to pay for a receipt: the destination (the vault for provers) and the amount. *)
Definition payment (L : l1_env) (x : l1_ctx) (r : sol_receipt) : option (N * N) :=
  match sr_tx_id r =? 2 ^ 64 - 1, sr_status r, withdrawal (sr_action r) with
  | true, StCompleted, Some (account, amount) =>
      Some (if cx_is_prover x account then le_iprove L else account, amount)
  | _, _, _ => None
  end.
Definition received (L : l1_env) (x : l1_ctx) (a : N) (r : sol_receipt) : N :=
  match payment L x r with Some (to, amount) => if to =? a then amount else 0 | None => 0 end.
Definition paid (L : l1_env) (x : l1_ctx) (r : sol_receipt) : N :=
  match payment L x r with Some (_, amount) => amount | None => 0 end.

(** The settings only the owner may change. *)
Definition settings (v : l1_state) : N * bool * N * N * N * N * N :=
  (va_owner v, va_paused v, va_vkey v, va_auctioneer v, va_staking v, va_verifier v, va_min_deposit v).

(** ** Single calls *)

(** The unlimited allowance. *)
Definition unlimited : N := 2 ^ 256 - 1.

(** A deposit out of [from], when the contract may take [granted] from that account, can be made. *)
Record deposit_allowed (L : l1_env) (from amount granted : N) (v : l1_state) : Prop := {
  dl_running : va_paused v = false;
  dl_minimum : va_min_deposit v <= amount;
  dl_addresses : from <> 0 /\ le_self L <> 0;
  dl_balance : amount <= tk_balance (va_prove v) from;
  dl_granted : amount <= granted \/ granted = unlimited;
  dl_ids : va_current v + 1 < 2 ^ 64
}.

(** What is neither a setting, nor in the queue, nor in the token. *)
Definition chain_state (v : l1_state) : N * gmap N N * gmap N N := (va_block v, va_roots v, va_timestamps v).

(** One more transaction is queued, and only queue and token change. *)
Record one_queued (q : queued) (v v' : l1_state) : Prop := {
  oq_current : va_current v' = va_current v + 1;
  oq_finalized : va_finalized v' = va_finalized v;
  oq_new : va_txs v' !! (va_current v + 1)
    = Some (L1Tx (queued_variant q) StPending (va_current v + 1) (queued_data q));
  oq_old : forall k, k <> va_current v + 1 -> va_txs v' !! k = va_txs v !! k;
  oq_settings : settings v' = settings v;
  oq_chain : chain_state v' = chain_state v
}.

(** The tokens after a deposit of [amount] out of [from], where the contract was allowed to take [granted]. *)
Record deposit_paid (L : l1_env) (from amount granted : N) (t t' : token) : Prop := {
  dp_balances : forall a, tk_balance t' a + (if a =? from then amount else 0)
    = tk_balance t a + (if a =? le_self L then amount else 0);
  dp_used : tk_allowance t' from (le_self L) = if granted =? unlimited then unlimited else granted - amount;
  dp_others : forall o s, (o, s) <> (from, le_self L) -> tk_allowance t' o s = tk_allowance t o s
}.

(** What a call of the owner makes of the settings, if it is accepted. *)
Inductive new_settings : admin_call -> N * bool * N * N * N * N * N -> N * bool * N * N * N * N * N -> Prop :=
| ns_auctioneer o p k a s f m a' : new_settings (AUpdateAuctioneer a') (o, p, k, a, s, f, m) (o, p, k, a', s, f, m)
| ns_staking o p k a s f m s' : new_settings (AUpdateStaking s') (o, p, k, a, s, f, m) (o, p, k, a, s', f, m)
| ns_verifier o p k a s f m f' : new_settings (AUpdateVerifier f') (o, p, k, a, s, f, m) (o, p, k, a, s, f', m)
| ns_minimum o p k a s f m m' : new_settings (AUpdateMinDeposit m') (o, p, k, a, s, f, m) (o, p, k, a, s, f, m')
| ns_pause o k a s f m : new_settings APause (o, false, k, a, s, f, m) (o, true, k, a, s, f, m)
| ns_unpause o k a s f m : new_settings AUnpause (o, true, k, a, s, f, m) (o, false, k, a, s, f, m)
| ns_owner o p k a s f m o' : o' <> 0 ->
    new_settings (ATransferOwnership o') (o, p, k, a, s, f, m) (o', p, k, a, s, f, m)
| ns_renounce o p k a s f m : new_settings ARenounceOwnership (o, p, k, a, s, f, m) (0, p, k, a, s, f, m).

(** What is not a setting. *)
Definition not_settings (v : l1_state) : N * gmap N N * gmap N N * N * N * gmap N l1_tx * token :=
  (chain_state v, va_current v, va_finalized v, va_txs v, va_prove v).
