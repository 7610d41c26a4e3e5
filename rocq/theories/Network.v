(** The contracts together, as deployed by contracts/script/utils/AtomicDeployer.sol: the settlement contract
    (VApp.v) on the one side, staking, provers, $iPROVE and the governor (Governor.v) on the other.  They share one
    $PROVE.  The settlement contract asks the staking contract who is a prover and deposits rewards into $iPROVE
    (contracts/src/SuccinctVApp.sol 445-460); the staking contract registers new provers with it
    (contracts/src/libraries/ProverRegistry.sol 139).

    Not modelled: proposals that deposit, make steps or create provers; the setters of the deployer
    (AtomicDeployer.sol 51-97), whose values are the parameters here; addresses are given. *)
From Verif Require Export Governor VApp.
Open Scope N_scope.

(** The addresses of the contracts, external code, and the settings that nothing changes later
    (contracts/script/utils/AtomicDeployer.sol 99-171). *)
Record net_env : Type := NetEnv {
  ne_staking : N;
  ne_vapp : N;
  ne_iprove : N;
  ne_governor : N;
  ne_verify : N -> N -> bytes -> bytes -> bool;
  ne_decode : bytes -> option step_pv;
  ne_create2 : N -> N -> N -> N;
  ne_id : list gov_action -> N -> N;
  ne_restricted : N -> option N;
  ne_min_stake : N;
  ne_max_requests : N;
  ne_unstake_period : N;
  ne_cancel_period : N
}.
(** What the settlement contract knows, contracts/script/utils/AtomicDeployer.sol 133-154. *)
Definition net_l1 (Y : net_env) : l1_env := L1Env (ne_vapp Y) (ne_iprove Y) (ne_verify Y) (ne_decode Y).
(** What the staking contract knows, contracts/script/utils/AtomicDeployer.sol 156-168. *)
Definition net_staking (Y : net_env) : staking_env :=
  StakingEnv (ne_staking Y) (ne_iprove Y) (ne_vapp Y) (ne_min_stake Y) (ne_max_requests Y) (ne_unstake_period Y)
    (ne_cancel_period Y) (ne_create2 Y).
(** What the governor knows, contracts/script/utils/AtomicDeployer.sol 121-131. *)
Definition net_gov (Y : net_env) : gov_env := GovEnv (net_staking Y) (ne_governor Y) (ne_id Y) (ne_restricted Y).

(** The state of all contracts.  $PROVE is the one in [nw_world]; the copy in [nw_vapp] is not used, see [vapp_of].
    (contracts/script/utils/AtomicDeployer.sol 99-171.) *)
Record network : Type := Network { nw_vapp : l1_state; nw_world : world }.
(** The $PROVE token, contracts/src/tokens/Succinct.sol 20. *)
Definition prove_of (w : world) : token := bk_prove (sk_bank (w_staking w)).
(** $PROVE after a call of it, contracts/src/tokens/Succinct.sol 20. *)
Definition set_prove (t : token) (w : world) : world :=
  World (sk_set_bank (bk_set_prove t (sk_bank (w_staking w))) (w_staking w)) (w_votes w) (w_governor w).
(** The settlement contract and the token as it is, contracts/src/SuccinctVApp.sol 52-88. *)
Definition vapp_of (n : network) : l1_state := va_set_prove (prove_of (nw_world n)) (nw_vapp n).

(** What a call sees of the chain: sender, time, whether a permit signature is valid, and what contracts other than
    those modelled answer: to [isProver] (contracts/src/SuccinctVApp.sol 451, if its owner has set another staking
    contract), and to [owner] (210). *)
Record net_ctx : Type := NetCtx {
  nx_sender : N;
  nx_time : N;
  nx_permit_valid : bool;
  nx_elsewhere : N -> bool;
  nx_owner_of : N -> N
}.
(** Why a call reverts (as in the contracts called; contracts/src/interfaces/ISuccinctVApp.sol,
    ISuccinctStaking.sol, IProverRegistry.sol 12-30). *)
Inductive net_error : Type := NVApp (e : l1_error) | NWorld (e : gov_error) | NNoSuchCall.
(** A revert inside a call propagates (EVM; as in contracts/src/SuccinctVApp.sol 366-460). *)
Definition net_bind {X Y} (r : result X net_error) (f : X -> result Y net_error) : result Y net_error :=
  match r with Ok x => f x | Err e => Err e end.
Notation "'net!' x := m 'in' k" := (net_bind m (fun x => k))
  (at level 200, x pattern, m at level 100, k at level 200, right associativity).

(** The answer of the staking contract that the settlement contract is set to, to [isProver],
    contracts/src/SuccinctVApp.sol 451. *)
Definition sees_prover (Y : net_env) (x : net_ctx) (n : network) (a : N) : bool :=
  if va_staking (nw_vapp n) =? ne_staking Y then is_prover (w_staking (nw_world n)) a else nx_elsewhere x a.
(** What a call of the settlement contract sees (contracts/src/SuccinctVApp.sol 195, 210, 451).  Whether the vault
    accepts a deposit is decided by the vault, see [net_withdraw]. *)
Definition l1_ctx_of (Y : net_env) (x : net_ctx) (n : network) : l1_ctx :=
  L1Ctx (nx_sender x) (nx_time x) (sees_prover Y x n) (nx_owner_of x) (fun _ _ => true) (nx_permit_valid x).
(** What a call of the other contracts sees (contracts/src/SuccinctStaking.sol 269, 403-404,
    contracts/src/libraries/ProverRegistry.sol 139). *)
Definition world_ctx (sender : N) (x : net_ctx) (accepts : bool) : staking_ctx :=
  StakingCtx sender (nx_time x) 0 0 (nx_permit_valid x) accepts.

(** A part of the settlement contract that calls only $PROVE (contracts/src/SuccinctVApp.sol 179-219, 268-418). *)
Definition on_vapp (f : l1_state -> result l1_state l1_error) (n : network) : result network net_error :=
  match f (vapp_of n) with
  | Ok v => Ok (Network v (set_prove (va_prove v) (nw_world n)))
  | Err e => Err (NVApp e)
  end.
(** A call of the other contracts (contracts/src/SuccinctStaking.sol 248-523,
    contracts/src/SuccinctGovernor.sol 26). *)
Definition on_world (Y : net_env) (x : staking_ctx) (c : world_call) (n : network) : result network net_error :=
  match world_run (net_gov Y) x c (nw_world n) with
  | Ok w => Ok (Network (nw_vapp n) w)
  | Err e => Err (NWorld e)
  end.

(** [_processWithdraw], contracts/src/SuccinctVApp.sol 445-460: a prover gets the amount as a deposit into $iPROVE,
    made by the settlement contract; everybody else gets $PROVE.  Simplified: if the owner has set another staking
    contract, $iPROVE for accounts that are provers only there is not modelled; such a withdrawal reverts here. *)
Definition net_withdraw (Y : net_env) (x : net_ctx) (to amount : N) (n : network) : result network net_error :=
  if sees_prover Y x n to
  then on_world Y (world_ctx (ne_vapp Y) x false) (WStaking (KReward to amount)) n
  else on_world Y (world_ctx (ne_vapp Y) x false) (WToken (OTransfer (ne_vapp Y) to amount)) n.

(** [_handleOffchainReceipt], contracts/src/SuccinctVApp.sol 421-442. *)
Definition net_offchain_receipt (Y : net_env) (x : net_ctx) (r : sol_receipt) (n : network)
    : result network net_error :=
  match sr_status r with
  | StNone | StPending => Err (NVApp L1StatusInvalid)
  | StReverted => Ok n
  | StCompleted =>
      match sr_variant r with
      | VWithdraw =>
          match l1_decode_withdraw (sr_action r) with
          | Ok w => net_withdraw Y x (wa_account w) (wa_amount w) n
          | Err e => Err (NVApp e)
          end
      | _ => Err (NVApp L1VariantInvalid)
      end
  end.
(** [_handleReceipts], contracts/src/SuccinctVApp.sol 366-375. *)
Fixpoint net_receipts (Y : net_env) (x : net_ctx) (rs : list sol_receipt) (n : network) : result network net_error :=
  match rs with
  | [] => Ok n
  | r :: rest =>
      net! n1 := (if negb (sr_tx_id r =? u64_max) then on_vapp (handle_onchain_receipt r) n
                  else net_offchain_receipt Y x r n) in
      net_receipts Y x rest n1
  end.
(** The first part of [step], up to the new block, contracts/src/SuccinctVApp.sol 222-254. *)
Definition open_block (L : l1_env) (x : l1_ctx) (public_values proof : bytes) (p : step_pv) (v : l1_state)
    : result l1_state l1_error :=
  let? _ := l1_require (cx_sender x =? va_auctioneer v) L1NotAuctioneer in
  let? _ := l1_require (negb (va_paused v)) L1Paused in
  let? _ := l1_require (le_verify L (va_verifier v) (va_vkey v) public_values proof) L1ProofRejected in
  let? _ := l1_require (negb (pv_new_root p =? 0)) L1InvalidRoot in
  let? _ := l1_require (va_root v =? pv_old_root p) L1InvalidOldRoot in
  let? _ := l1_require (pv_timestamp p <=? cx_time x) L1InvalidTimestamp in
  let? _ := l1_require (va_timestamp v <=? pv_timestamp p) L1TimestampInPast in
  let? _ := l1_require (cx_time x - pv_timestamp p <=? 3600) L1TimestampTooOld in
  let? block := l1_succ (va_block v) in
  Ok (va_set_block block (pv_new_root p) (pv_timestamp p) v).
(** [step], contracts/src/SuccinctVApp.sol 222-261.  The public values are decoded first here, after the check of the
    proof there (236), which matters only for the error reported. *)
Definition net_step (Y : net_env) (x : net_ctx) (public_values proof : bytes) (n : network) : result network net_error :=
  match ne_decode Y public_values with
  | None => Err (NVApp L1BadEncoding)
  | Some p =>
      net! n1 := on_vapp (open_block (net_l1 Y) (l1_ctx_of Y x n) public_values proof p) n in
      net_receipts Y x (pv_receipts p) n1
  end.

(** The address of the prover that the sender creates, contracts/src/libraries/ProverRegistry.sol 119-132. *)
Definition new_prover (Y : net_env) (x : net_ctx) (bips : N) (n : network) : N :=
  ne_create2 Y (nx_sender x) ((rg_count (sk_registry (w_staking (nw_world n))) + 1) mod two256) bips.
(** The call of [createProver] of the settlement contract by the staking contract,
    contracts/src/libraries/ProverRegistry.sol 139; the new prover answers its owner
    (contracts/src/tokens/SuccinctProver.sol 78). *)
Definition register_prover (Y : net_env) (x : net_ctx) (bips : N) (n : network) : result l1_state l1_error :=
  let p := new_prover Y x bips n in
  l1_create_prover
    (L1Ctx (ne_staking Y) (nx_time x) (sees_prover Y x n)
       (fun a => if a =? p then nx_sender x else nx_owner_of x a) (fun _ _ => true) (nx_permit_valid x))
    p (nx_sender x) bips (vapp_of n).
(** [createProver] of the staking contract, contracts/src/libraries/ProverRegistry.sol 96-145. *)
Definition net_create_prover (Y : net_env) (x : net_ctx) (bips : N) (n : network) : result network net_error :=
  let registered := register_prover Y x bips n in
  net! n1 := on_world Y (world_ctx (nx_sender x) x (match registered with Ok _ => true | Err _ => false end))
               (WStaking (KCreateProver bips)) n in
  match registered with
  | Ok v => Ok (Network v (nw_world n1))
  | Err e => Err (NVApp e)
  end.

(** What the calls of a proposal to the settlement contract do, made by the governor, in order
    (contracts/src/SuccinctGovernor.sol 27; contracts/src/SuccinctVApp.sol 264-326).  Modelled are the calls for its
    owner; others revert here. *)
Fixpoint vapp_actions (Y : net_env) (x : net_ctx) (actions : list gov_action) (v : l1_state) : result l1_state l1_error :=
  match actions with
  | [] => Ok v
  | GaVApp c :: rest =>
      match c with
      | CFork _ _ | CAdmin _ =>
          let? v1 := l1_run (net_l1 Y) (L1Ctx (ne_governor Y) (nx_time x) (nx_elsewhere x) (nx_owner_of x) (fun _ _ => true)
                                          (nx_permit_valid x)) c v in
          vapp_actions Y x rest v1
      | _ => Err L1BadEncoding
      end
  | _ :: rest => vapp_actions Y x rest v
  end.
(** Whether a proposal creates a prover, which is not modelled (contracts/src/libraries/ProverRegistry.sol 96-106). *)
Definition creates_prover (a : gov_action) : bool := match a with GaStaking (KCreateProver _) => true | _ => false end.
(** [execute] of the governor, contracts/src/SuccinctGovernor.sol 27: all actions, or none.  Those on the settlement
    contract and those on the other contracts do not concern each other. *)
Definition net_execute (Y : net_env) (x : net_ctx) (actions : list gov_action) (desc : N) (others : bool) (n : network)
    : result network net_error :=
  if existsb creates_prover actions then Err NNoSuchCall else
  let settled := vapp_actions Y x actions (nw_vapp n) in
  net! n1 := on_world Y (world_ctx (nx_sender x) x (match settled with Ok _ => true | Err _ => false end))
               (WExecute actions desc others) n in
  match settled with
  | Ok v => Ok (Network v (nw_world n1))
  | Err e => Err (NVApp e)
  end.

(** The calls of anyone, contracts/src/SuccinctVApp.sol 179-326, contracts/src/SuccinctStaking.sol 248-523,
    contracts/src/SuccinctGovernor.sol 26. *)
Inductive net_call : Type := CVApp (c : l1_call) | CWorld (c : world_call).
(** Their dispatch.  The reward of a prover is not a call of its own.  (contracts/src/SuccinctVApp.sol 179-326,
    contracts/src/SuccinctStaking.sol 248-523, contracts/src/SuccinctGovernor.sol 26.) *)
Definition net_run_call (Y : net_env) (x : net_ctx) (c : net_call) (n : network) : result network net_error :=
  match c with
  | CVApp (CStep pv proof) => net_step Y x pv proof n
  | CVApp c => on_vapp (l1_run (net_l1 Y) (l1_ctx_of Y x n) c) n
  | CWorld (WStaking (KCreateProver bips)) => net_create_prover Y x bips n
  | CWorld (WStaking (KReward _ _)) => Err NNoSuchCall
  | CWorld (WExecute actions desc others) => net_execute Y x actions desc others n
  | CWorld c => on_world Y (world_ctx (nx_sender x) x false) c n
  end.

(** ** Deployment *)

(** The parameters of the deployer, contracts/script/utils/AtomicDeployer.sol 12-38 (those not in [net_env]). *)
Record deploy_params : Type := DeployParams {
  dy_prove : N;
  dy_delay : N;
  dy_period : N;
  dy_threshold : N;
  dy_quorum : N;
  dy_owner : N;
  dy_auctioneer : N;
  dy_verifier : N;
  dy_min_deposit : N;
  dy_vkey : N;
  dy_dispenser : N;
  dy_genesis : N
}.
(** [deploy], contracts/script/utils/AtomicDeployer.sol 99-171, at time [t], with the given $PROVE token; [None] is a
    revert. *)
Definition atomic_deploy (Y : net_env) (P : deploy_params) (prove : token) (t : N) : option network :=
  match governor_start t (dy_delay P) (dy_period P) (dy_threshold P) (dy_quorum P) with
  | None => None
  | Some g =>
      match l1_initialize (net_l1 Y) prove (dy_owner P) (dy_prove P) (dy_auctioneer P) (ne_staking Y)
              (dy_verifier P) (dy_min_deposit P) (dy_vkey P) (dy_genesis P) with
      | None => None
      | Some v =>
          match staking_initialize (net_staking Y) (va_prove v) (dy_owner P) (ne_governor Y) (dy_prove P)
                  (dy_dispenser P) with
          | None => None
          | Some s => Some (Network v (World s (Votes ∅ ∅ []) g))
          end
      end
  end.
