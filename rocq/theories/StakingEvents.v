(** The events and the returned values of the staking contract, contracts/src/SuccinctStaking.sol, with those of its
    parents.  [Staking.v] models what its functions do and the events about amounts; here is everything the same functions
    emit when they do not revert.  Of the events of the $iPROVE vault only the deposit of a reward is included, because no
    event of the staking contract tells it.  [Initialized] of OpenZeppelin's Initializable is left out. *)
From Verif Require Export Staking.
Open Scope N_scope.

(** contracts/src/interfaces/ISuccinctStaking.sol 39-80, contracts/src/interfaces/IProverRegistry.sol 5-9; of OpenZeppelin
    [OwnershipTransferred] (Ownable, contracts/src/SuccinctStaking.sol 32), [Transfer] of $stPROVE (ERC20,
    contracts/src/tokens/StakedSuccinct.sol 17) and [Deposit] of $iPROVE (ERC4626,
    contracts/src/tokens/IntermediateSuccinct.sol 30). *)
Inductive staking_log : Type :=
| LgAmounts (e : staking_event)
| LgTransfer (from to amount : N)
| LgBound (staker prover : N)
| LgUnbound (staker prover : N)
| LgDispenser (old new : N)
| LgRate (old new : N)
| LgDeploy (prover owner bips : N)
| LgDeactivation (prover : N)
| LgOwner (old new : N)
| LgReward (prover prove iprove : N).

(** [_mint] and [_burn] of $stPROVE emit [Transfer] before [_stake] and [requestUnstake] emit theirs,
    contracts/src/SuccinctStaking.sol 574-577, 586-590 and 328. *)
Definition with_transfer (e : staking_event) : list staking_log :=
  match e with
  | EvStake staker _ _ _ stprove => [LgTransfer 0 staker stprove; LgAmounts e]
  | EvUnstakeRequest staker _ stprove _ => [LgTransfer staker 0 stprove; LgAmounts e]
  | _ => [LgAmounts e]
  end.

(** [_stake], contracts/src/SuccinctStaking.sol 531-578, from state [s], with the events about amounts [evs]. *)
Definition stake_logs (staker p : N) (s : staking) (evs : list staking_event) : list staking_log :=
  (if bound_to s staker =? 0 then [LgBound staker p] else []) ++ flat_map with_transfer evs.

(** [finishUnstake], contracts/src/SuccinctStaking.sol 332-361, from [s] to [s']. *)
Definition finish_unstake_logs (staker : N) (s s' : staking) (evs : list staking_event) : list staking_log :=
  map LgAmounts evs ++
  (if (stake_of (sk_bank s') staker =? 0) && (length (claims_of s' staker) =? 0)%nat
   then [LgUnbound staker (bound_to s staker)] else []).

(** [_deactivateProverIfPriceBelowMin], contracts/src/libraries/ProverRegistry.sol 155-173, with the tokens [b]. *)
Definition deactivate_logs (p : N) (s : staking) (b : bank) : list staking_log :=
  if is_deactivated s p then []
  else if shares_of b p =? 0 then []
  else if v_assets p b * 10 ^ 18 / shares_of b p <? min_price_per_share then [LgDeactivation p] else [].

(** [finishSlash], contracts/src/SuccinctStaking.sol 423-490, from [s] to [s']. *)
Definition finish_slash_logs (p : N) (s s' : staking) (evs : list staking_event) : list staking_log :=
  map LgAmounts evs ++ deactivate_logs p s (sk_bank s').

(** [_deployProver], contracts/src/libraries/ProverRegistry.sol 109-145. *)
Definition create_prover_address (K : staking_env) (x : staking_ctx) (bips : N) (s : staking) : N :=
  ke_create2 K (kx_sender x) ((rg_count (sk_registry s) + 1) mod two256) bips.

(** [initialize], contracts/src/SuccinctStaking.sol 105-142: the first dispenser is set without an event (132). *)
Definition staking_initialize_logs (owner : N) : list staking_log := [LgOwner 0 owner].

(** What an accepted call emits, contracts/src/SuccinctStaking.sol 248-523, contracts/src/libraries/ProverRegistry.sol
    96-106, contracts/src/SuccinctVApp.sol 453: it led from [s] to [s'], with the events about amounts [evs]. *)
Definition staking_logs (K : staking_env) (x : staking_ctx) (c : staking_call) (s s' : staking)
    (evs : list staking_event) : list staking_log :=
  match c with
  | KStake p _ => stake_logs (kx_sender x) p s evs
  | KPermitAndStake p from _ => stake_logs from p s evs
  | KRequestUnstake _ => flat_map with_transfer evs
  | KFinishUnstake staker => finish_unstake_logs staker s s' evs
  | KRequestSlash _ _ | KCancelSlash _ _ | KDispense _ => map LgAmounts evs
  | KFinishSlash p _ => finish_slash_logs p s s' evs
  | KSetDispenser a => [LgDispenser (dp_dispenser (sk_dispensing s)) a]
  | KUpdateRate rate => [LgRate (dp_rate (sk_dispensing s)) rate]
  | KCreateProver bips => [LgDeploy (create_prover_address K x bips s) (kx_sender x) bips]
  | KReward p amount =>
      match i_preview_deposit K amount (sk_bank s) with Ok shares => [LgReward p amount shares] | Err _ => [] end
  | KTransferOwnership a => [LgOwner (sk_owner s) a]
  | KRenounceOwnership => [LgOwner (sk_owner s) 0]
  end.

(** ** Returned values *)

(** The result of [_stake], contracts/src/SuccinctStaking.sol 563-569, on the tokens [b]. *)
Definition stake_returns (K : staking_env) (p amount : N) (b : bank) : option N :=
  match i_deposit K (ke_self K) (ke_self K) amount b with
  | Ok (b1, iprove) => match v_deposit K p iprove b1 with Ok (_, stprove) => Some stprove | Err _ => None end
  | Err _ => None
  end.

(** What an accepted call returns, contracts/src/SuccinctStaking.sol 248-490 and
    contracts/src/libraries/ProverRegistry.sol 96-106; [None] where nothing is returned. *)
Definition staking_returns (K : staking_env) (x : staking_ctx) (c : staking_call) (s : staking) : option N :=
  let b := sk_bank s in
  match c with
  | KStake p amount =>
      match tk_transfer_from (bk_prove b) (ke_self K) (kx_sender x) (ke_self K) amount with
      | Ok t => stake_returns K p amount (bk_set_prove t b)
      | Err _ => None
      end
  | KPermitAndStake p from amount =>
      let t1 := if tk_allowance (bk_prove b) from p =? amount then bk_prove b else tk_approve (bk_prove b) from p amount in
      match tk_transfer_from t1 p from (ke_self K) amount with
      | Ok t => stake_returns K p amount (bk_set_prove t b)
      | Err _ => None
      end
  | KFinishUnstake staker =>
      match finish_loop K (kx_time x) staker (bound_to s staker) (length (claims_of s staker)) 0 (claims_of s staker)
              (pool_of s (bound_to s staker)) b with
      | Ok (_, _, _, prove, _) => Some prove
      | Err _ => None
      end
  | KRequestSlash p _ => Some (N.of_nat (length (slashes_of s p)))
  | KFinishSlash p i =>
      match slash_at s p i with
      | Ok c =>
          let total := v_assets p b + ep_escrow (pool_of s p) in
          Some (if total <? sc_amount c then total else sc_amount c)
      | Err _ => None
      end
  | KCreateProver bips => Some (create_prover_address K x bips s)
  | _ => None
  end.
