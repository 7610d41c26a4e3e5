(** Vocabulary for the properties of the contracts together. *)
From Verif Require Export Network L1Spec GovernorSpec.
Open Scope N_scope.

(** ** Logs of calls *)

(** An accepted call with the state after it (and, for a step, the program inputs from which its proof was made), or a
    reverted call. *)
Inductive net_entry : Type :=
| NAccepted (x : net_ctx) (c : net_call) (inputs : list stf_input) (after : network)
| NReverted (x : net_ctx) (c : net_call) (e : net_error).

(** The contracts call nothing but what their code says ... *)
Definition net_acts (Y : net_env) (n : network) (a : N) : Prop :=
  a <> 0 /\ a <> ne_staking Y /\ a <> ne_iprove Y /\ a <> ne_governor Y /\ a <> ne_vapp Y /\
  ~ a ∈ rg_provers (sk_registry (w_staking (nw_world n))).
(** ... and sign no permits. *)
Definition signs (Y : net_env) (a : N) : Prop := a <> ne_staking Y /\ a <> ne_iprove Y /\ a <> ne_vapp Y.
Definition permits_signed (Y : net_env) (c : staking_call) : Prop :=
  match c with KPermitAndStake _ from _ => signs Y from | _ => True end.
Definition net_by_anyone (Y : net_env) (n : network) (x : net_ctx) (c : net_call) : Prop :=
  net_acts Y n (nx_sender x) /\
  match c with
  | CVApp (CPermitAndDeposit from _) => nx_permit_valid x = true -> signs Y from
  | CVApp _ => True
  | CWorld (WStaking c) => permits_signed Y c
  | CWorld (WToken o) =>
      match o with
      | OTransfer a _ _ | OTransferFrom a _ _ _ | OApprove a _ _ | OBurn a _ | OBurnFrom a _ _ => signs Y a
      | OMint _ _ => True
      end
  | CWorld (WExecute actions _ _) =>
      Forall (fun a => match a with GaStaking c => permits_signed Y c | _ => True end) actions
  | CWorld _ => True
  end.

(** The addresses of the deployed contracts and of provers. *)
Record net_addresses_ok (Y : net_env) : Prop := {
  na_zero : ~ In 0 [ne_staking Y; ne_vapp Y; ne_iprove Y; ne_governor Y];
  na_differ : NoDup [ne_staking Y; ne_vapp Y; ne_iprove Y; ne_governor Y];
  na_create2 : forall o n f, is_address (ne_create2 Y o n f) /\
    ~ In (ne_create2 Y o n f) [0; ne_staking Y; ne_vapp Y; ne_iprove Y; ne_governor Y]
}.

(** The deployment at time [t0], with a $PROVE in which the new contracts have given no allowances yet. *)
Record net_start (Y : net_env) (t0 : N) (n0 : network) : Prop := {
  ns_addresses : net_addresses_ok Y;
  ns_time : 0 < t0 < 2 ^ 48;
  ns_deployed : exists P prove,
    (forall a b, In a [ne_staking Y; ne_vapp Y; ne_iprove Y] -> tk_allowance prove a b = 0) /\
    atomic_deploy Y P prove t0 = Some n0
}.

(** A deployment, any calls by anyone, and time passing (the times of blocks have fewer than 48 bits): the log, the
    state after it, and the present time. *)
Inductive net_run (Y : net_env) (t0 : N) (n0 : network) : list net_entry -> network -> N -> Prop :=
| nr_start : net_start Y t0 n0 -> net_run Y t0 n0 [] n0 t0
| nr_wait log n now now' :
    net_run Y t0 n0 log n now -> now <= now' -> now' < 2 ^ 48 -> net_run Y t0 n0 log n now'
| nr_accepted log n now x c inputs n' :
    net_run Y t0 n0 log n now -> nx_time x = now -> net_by_anyone Y n x c -> net_run_call Y x c n = Ok n' ->
    net_run Y t0 n0 (log ++ [NAccepted x c inputs n']) n' now
| nr_reverted log n now x c e :
    net_run Y t0 n0 log n now -> nx_time x = now -> net_by_anyone Y n x c -> net_run_call Y x c n = Err e ->
    net_run Y t0 n0 (log ++ [NReverted x c e]) n now.

(** ** The log as each side sees it *)

(** $PROVE, which all contracts share. *)
Definition net_prove (n : network) : token := bk_prove (sk_bank (w_staking (nw_world n))).
(** The state of the settlement contract, with $PROVE as it is. *)
Definition settlement_now (n : network) : l1_state :=
  let v := nw_vapp n in
  VApp (va_owner v) (va_paused v) (va_vkey v) (va_auctioneer v) (va_staking v) (va_verifier v) (va_block v)
    (va_min_deposit v) (va_current v) (va_finalized v) (va_roots v) (va_timestamps v) (va_txs v) (net_prove n).
(** What a call of the settlement contract sees of the chain: sender, time, and the provers of the staking contract it is
    set to. *)
Definition seen_by_settlement (Y : net_env) (x : net_ctx) (n : network) : l1_ctx :=
  L1Ctx (nx_sender x) (nx_time x)
    (fun a => if va_staking (nw_vapp n) =? ne_staking Y
              then bool_decide (a ∈ rg_provers (sk_registry (w_staking (nw_world n)))) else nx_elsewhere x a)
    (nx_owner_of x) (fun _ _ => true) (nx_permit_valid x).

(** The prover that a [createProver] has created: the one its sender now has. *)
Definition prover_of (n : network) (a : N) : N := default 0 (rg_owners (sk_registry (w_staking (nw_world n))) !! a).

(** A call of the settlement contract in a proposal, made by the governor. *)
Definition seen_from_governor (Y : net_env) (x : net_ctx) : l1_ctx :=
  L1Ctx (ne_governor Y) (nx_time x) (nx_elsewhere x) (nx_owner_of x) (fun _ _ => true) (nx_permit_valid x).
Definition governor_entry (Y : net_env) (x : net_ctx) (a : gov_action) : list l1_entry :=
  match a with GaVApp c => [LAccepted (seen_from_governor Y x) c []] | _ => [] end.
(** The calls of a proposal to the settlement contract succeed in order: they are calls for its owner. *)
Inductive proposal_settles (Y : net_env) (x : net_ctx) : list gov_action -> l1_state -> l1_state -> Prop :=
| ps_nil v : proposal_settles Y x [] v v
| ps_call c l v v1 v' :
    match c with CFork _ _ | CAdmin _ => True | _ => False end ->
    l1_transact (net_l1 Y) (seen_from_governor Y x) c v = (v1, None) -> proposal_settles Y x l v1 v' ->
    proposal_settles Y x (GaVApp c :: l) v v'
| ps_other a l v v' :
    match a with GaVApp _ => False | _ => True end -> proposal_settles Y x l v v' -> proposal_settles Y x (a :: l) v v'.
(** The accepted calls of the settlement contract: those made directly, one for each created prover, made by the
    staking contract (the prover answers that its creator is its owner), and those of executed proposals. *)
Definition settlement_entry (Y : net_env) (e : net_entry) : list l1_entry :=
  match e with
  | NAccepted x (CVApp c) inputs after => [LAccepted (seen_by_settlement Y x after) c inputs]
  | NAccepted x (CWorld (WStaking (KCreateProver bips))) _ after =>
      [LAccepted (L1Ctx (ne_staking Y) (nx_time x) (nx_elsewhere x) (fun _ => nx_sender x) (fun _ _ => true)
                    (nx_permit_valid x))
         (CCreateProver (prover_of after (nx_sender x)) (nx_sender x) bips) []]
  | NAccepted x (CWorld (WExecute actions _ _)) _ _ => flat_map (governor_entry Y x) actions
  | _ => []
  end.
Definition settlement (Y : net_env) (log : list net_entry) : list l1_entry := flat_map (settlement_entry Y) log.
(** A call of the settlement contract, not of the token. *)
Definition is_call (e : l1_entry) : bool := match e with LToken _ => false | _ => true end.

(** The accepted calls of staking, token and governor. *)
Definition world_entry (e : net_entry) : list gov_entry :=
  match e with
  | NAccepted x (CWorld c) _ after =>
      [WAccepted (StakingCtx (nx_sender x) (nx_time x) 0 0 (nx_permit_valid x)
                    (match c with WStaking (KCreateProver _) | WExecute _ _ _ => true | _ => false end)) c (nw_world after)]
  | _ => []
  end.
Definition world_log (log : list net_entry) : list gov_entry := flat_map world_entry log.
(** An accepted call by somebody other than the settlement contract. *)
Definition not_vapp (Y : net_env) (e : gov_entry) : bool :=
  match e with WAccepted x _ _ | WReverted x _ _ => negb (kx_sender x =? ne_vapp Y) end.
(** What the settlement contract does with the tokens: rewards, and calls of $PROVE. *)
Definition vapp_does (Y : net_env) (e : gov_entry) : Prop :=
  match e with
  | WAccepted x (WStaking (KReward _ _)) _ | WAccepted x (WToken _) _ => kx_sender x = ne_vapp Y
  | _ => False
  end.

(** The accepted calls of the staking contract made directly: who and what. *)
Definition staking_calls (log : list net_entry) : list (N * staking_call) :=
  flat_map (fun e => match e with NAccepted x (CWorld (WStaking c)) _ _ => [(nx_sender x, c)] | _ => [] end) log.
(** In a log of the staking contract, the accepted calls that neither the settlement contract nor the governor made. *)
Definition calls_of_others (Y : net_env) (l : list stk_entry) : list (N * staking_call) :=
  flat_map (fun e => match e with
                     | KAccepted x c _ _ =>
                         if (kx_sender x =? ne_vapp Y) || (kx_sender x =? ne_governor Y) then [] else [(kx_sender x, c)]
                     | _ => []
                     end) l.
(** The rewards in a log of the staking contract: prover and amount. *)
Definition rewards (l : list stk_entry) : list (N * N) :=
  flat_map (fun e => match e with KAccepted _ (KReward p amount) _ _ => [(p, amount)] | _ => [] end) l.
(** Of the settlement contract the staking contract sees rewards only. *)
Definition vapp_only_rewards (Y : net_env) (e : stk_entry) : Prop :=
  match e with
  | KAccepted x (KReward _ _) _ _ => kx_sender x = ne_vapp Y
  | KAccepted x _ _ _ => kx_sender x <> ne_vapp Y
  | _ => True
  end.

(** ** A run whose steps have sound proofs *)

Record sound_run (E : env) (sha : bytes -> N) (verify : N -> bool) (domain : N) (Y : net_env) (t0 : N) (n0 : network)
    (log : list net_entry) (n : network) (now : N) : Prop := {
  sn_env : env_ok E;
  sn_l1_env : l1_env_ok (net_l1 Y);
  sn_domain : is_word domain;
  sn_run : net_run Y t0 n0 log n now;
  sn_genesis : va_root (nw_vapp n0) = full_root E (full_new E domain);
  sn_typed : Forall typed_entry (settlement Y log);
  sn_no_fork : Forall no_fork (settlement Y log);
  sn_proofs : Forall (proofs_sound E sha verify) (settlement Y log)
}.

(** The settlement contract is never set to another staking contract. *)
Definition keeps_staking (e : net_entry) : Prop :=
  match e with
  | NAccepted _ (CVApp (CAdmin (AUpdateStaking _))) _ _ => False
  | NAccepted _ (CWorld (WExecute actions _ _)) _ _ =>
      Forall (fun a => match a with GaVApp (CAdmin (AUpdateStaking _)) => False | _ => True end) actions
  | _ => True
  end.

(** ** Provers *)

(** Somebody has created prover [p] with this owner and fee. *)
Definition creates (p owner bips : N) (e : net_entry) : Prop :=
  match e with
  | NAccepted x (CWorld (WStaking (KCreateProver b))) _ after =>
      nx_sender x = owner /\ b = bips /\ prover_of after owner = p
  | _ => False
  end.

(** ** Withdrawals *)

(** The withdrawal that a receipt reports: account and amount. *)
Definition reported_withdrawal (r : sol_receipt) : list (N * N) :=
  match sr_tx_id r =? 2 ^ 64 - 1, sr_status r, withdrawal (sr_action r) with
  | true, StCompleted, Some w => [w]
  | _, _, _ => []
  end.
(** The withdrawals of registered provers in a step. *)
Definition prover_withdrawals (Y : net_env) (n : network) (pv : bytes) : list (N * N) :=
  match ne_decode Y pv with
  | Some p => List.filter (fun w => bool_decide (fst w ∈ rg_provers (sk_registry (w_staking (nw_world n)))))
                (flat_map reported_withdrawal (pv_receipts p))
  | None => []
  end.
(** ... and in a log. *)
Definition all_prover_withdrawals (Y : net_env) (log : list net_entry) : list (N * N) :=
  flat_map (fun e => match e with NAccepted _ (CVApp (CStep pv _)) _ after => prover_withdrawals Y after pv | _ => [] end) log.

(** Where the $PROVE of a withdrawal goes: of a prover's to the $iPROVE vault, of everybody else's to the account. *)
Definition pay_to (Y : net_env) (n : network) (w : N * N) : N :=
  if bool_decide (fst w ∈ rg_provers (sk_registry (w_staking (nw_world n)))) then ne_iprove Y else fst w.

(** ** Deployment *)

(** The parameters that every deployment must give. *)
Definition params_ok (Y : net_env) (P : deploy_params) : Prop :=
  ~ In 0 [dy_owner P; dy_prove P; dy_auctioneer P; dy_verifier P; dy_vkey P; dy_genesis P; dy_dispenser P;
          dy_period P; ne_staking Y; ne_vapp Y; ne_iprove Y; ne_governor Y; ne_max_requests Y; ne_unstake_period Y;
          ne_cancel_period Y] /\
  dy_quorum P <= 100 /\ dy_delay P < 2 ^ 48 /\ dy_period P < 2 ^ 32 /\ dy_threshold P < 2 ^ 256.

(** What the deployed contracts answer (contracts/script/utils/PostDeployment.s.sol 46-144). *)
Record as_deployed (Y : net_env) (P : deploy_params) (prove : token) (t : N) (n : network) : Prop := {
  ad_settings : settings (nw_vapp n) =
    (dy_owner P, false, dy_vkey P, dy_auctioneer P, ne_staking Y, dy_verifier P, dy_min_deposit P);
  ad_chain : va_root (nw_vapp n) = dy_genesis P /\ va_block (nw_vapp n) = 0 /\ va_timestamp (nw_vapp n) = 0 /\
    va_current (nw_vapp n) = 0 /\ va_finalized (nw_vapp n) = 0;
  ad_staking : sk_owner (w_staking (nw_world n)) = dy_owner P /\
    sk_dispensing (w_staking (nw_world n)) = Dispensing (dy_dispenser P) 0 0 0 0 /\
    rg_count (sk_registry (w_staking (nw_world n))) = 0 /\
    bk_isupply (sk_bank (w_staking (nw_world n))) = 0 /\ bk_stsupply (sk_bank (w_staking (nw_world n))) = 0;
  ad_nobody : forall a, bound_to (w_staking (nw_world n)) a = 0 /\ prover_of n a = 0 /\
    ~ a ∈ rg_provers (sk_registry (w_staking (nw_world n))) /\
    tk_balance (bk_iprove (sk_bank (w_staking (nw_world n)))) a = 0;
  ad_governor : w_governor (nw_world n) =
    Governor (dy_delay P) (dy_period P) (dy_threshold P) [(t mod 2 ^ 48, dy_quorum P)] ∅;
  ad_balances : forall a, tk_balance (net_prove n) a = tk_balance prove a;
  ad_allowances : forall a b, tk_allowance (net_prove n) a b =
    if ((a =? ne_staking Y) || (a =? ne_vapp Y)) && (b =? ne_iprove Y) then 2 ^ 256 - 1 else tk_allowance prove a b
}.
