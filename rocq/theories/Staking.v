(** The staking contract, contracts/src/SuccinctStaking.sol, with the prover registry it inherits
    (contracts/src/libraries/ProverRegistry.sol), its receipt token $stPROVE
    (contracts/src/tokens/StakedSuccinct.sol), the $iPROVE vault
    (contracts/src/tokens/IntermediateSuccinct.sol) and the prover vaults $PROVER-N
    (contracts/src/tokens/SuccinctProver.sol).

    The vaults inherit ERC4626 of OpenZeppelin 5, whose source is not in the repository; modelled is its
    documented behaviour with decimals offset 0.  Checked arithmetic of Solidity is modelled where a value
    can leave 256 bits.

    Not modelled here: gas, the proxy and its upgrades, governance and voting power (Governor.v), the code of a deployed
    prover other than its vault.  Allowances of $iPROVE and $PROVER-N play no part: the staking contract
    needs none (IntermediateSuccinct.sol 99-105, SuccinctProver.sol 136-142), a prover is given an
    unlimited one when deployed (ProverRegistry.sol 140-142), and for everybody else
    every movement of these tokens reverts (IntermediateSuccinct.sol 73-96, SuccinctProver.sol 127-133; see
    [Shares.v]). *)
From Verif Require Export Token.
Open Scope N_scope.

(** [SCALAR], contracts/src/SuccinctStaking.sol 44. *)
Definition slash_scalar : N := 10 ^ 27.
(** [MIN_PROVER_PRICE_PER_SHARE], contracts/src/libraries/ProverRegistry.sol 22. *)
Definition min_price_per_share : N := 10 ^ 9.
(** The largest supply of a token with votes (OpenZeppelin's ERC20Votes, inherited by
    contracts/src/tokens/IntermediateSuccinct.sol 30). *)
Definition max_votes_supply : N := 2 ^ 208 - 1.

(** [UnstakeClaim], contracts/src/interfaces/ISuccinctStaking.sol 7-16. *)
Record unstake_claim : Type := UnstakeClaim { uc_escrow : N; uc_factor : N; uc_time : N }.
(** [SlashClaim], contracts/src/interfaces/ISuccinctStaking.sol 18-27. *)
Record slash_claim : Type := SlashClaim { sc_amount : N; sc_time : N; sc_resolved : bool }.
(** [EscrowPool], contracts/src/interfaces/ISuccinctStaking.sol 29-37. *)
Record escrow_pool : Type := EscrowPool { ep_escrow : N; ep_factor : N }.

(** The tokens: $PROVE, $iPROVE with its total supply, the total supply of each $PROVER-N (all of which
    belongs to the staking contract), $stPROVE with its total supply.  (contracts/src/tokens/Succinct.sol
    20, IntermediateSuccinct.sol 30, SuccinctProver.sol 27, StakedSuccinct.sol 17: state of ERC20.) *)
Record bank : Type := Bank {
  bk_prove : token;
  bk_iprove : token;
  bk_isupply : N;
  bk_shares : gmap N N;
  bk_stakes : gmap N N;
  bk_stsupply : N
}.

(** Storage of the registry, contracts/src/libraries/ProverRegistry.sol 24-48. *)
Record registry : Type := Registry {
  rg_provers : gset N;
  rg_deactivated : gset N;
  rg_owners : gmap N N;
  rg_count : N
}.

(** Storage for dispensing rewards, contracts/src/SuccinctStaking.sol 47, 62-71. *)
Record dispensing : Type := Dispensing {
  dp_dispenser : N;
  dp_rate : N;
  dp_since : N;
  dp_earned : N;
  dp_distributed : N
}.

(** Storage of the staking contract, contracts/src/SuccinctStaking.sol 46-86, and of its parents. *)
Record staking : Type := Staking {
  sk_owner : N;
  sk_bank : bank;
  sk_registry : registry;
  sk_dispensing : dispensing;
  sk_bound : gmap N N;
  sk_claims : gmap N (list unstake_claim);
  sk_slashes : gmap N (list slash_claim);
  sk_pending : gmap N N;
  sk_pools : gmap N escrow_pool
}.

(** Deployment constants: the contract's own address, those of the $iPROVE vault and of the settlement
    contract, the settings of [initialize] that nothing changes later
    (contracts/src/SuccinctStaking.sol 105-142), and the CREATE2 address of a prover by owner, number and
    fee (contracts/src/libraries/ProverRegistry.sol 124-132). *)
Record staking_env : Type := StakingEnv {
  ke_self : N;
  ke_iprove : N;
  ke_vapp : N;
  ke_min_stake : N;
  ke_max_requests : N;
  ke_unstake_period : N;
  ke_cancel_period : N;
  ke_create2 : N -> N -> N -> N
}.

(** What a call sees of the chain: sender, time, the governor's voting delay and period
    (contracts/src/SuccinctStaking.sol 403-404), whether a permit signature is valid (269), whether the
    settlement contract accepts the registration of a prover
    (contracts/src/libraries/ProverRegistry.sol 139). *)
Record staking_ctx : Type := StakingCtx {
  kx_sender : N;
  kx_time : N;
  kx_voting_delay : N;
  kx_voting_period : N;
  kx_permit_valid : bool;
  kx_vapp_accepts : bool
}.

(** Why a call reverts: the errors of contracts/src/interfaces/ISuccinctStaking.sol,
    contracts/src/interfaces/IProverRegistry.sol and of the tokens; [KArithmetic] is a checked overflow,
    underflow, division by zero or index out of range.  (ISuccinctStaking.sol 84-137, IProverRegistry.sol
    12-30.) *)
Inductive staking_error : Type :=
| KNotOwner | KNotVApp | KNotDispenser | KProverNotFound | KProverNotActive | KProverHasSlashRequest
| KZeroAmount | KZeroAddress | KBelowMinimum | KOtherProver | KZeroReceipt | KNotStaked | KTooManyRequests
| KInsufficientStake | KNoRequests | KAlreadyResolved | KNotReadyToCancel | KExceedsAvailable
| KInvalidFee | KProverExists | KDeployFailed | KVAppRejected | KPermitRejected | KNonTransferable
| KExceededMaxRedeem | KExceededSupply | KInvalidAddress | KArithmetic | KToken (e : token_error).

(** Events, contracts/src/interfaces/ISuccinctStaking.sol 39-80 (those about amounts). *)
Inductive staking_event : Type :=
| EvStake (staker prover prove iprove stprove : N)
| EvUnstakeRequest (staker prover stprove iprove : N)
| EvUnstake (staker prover prove iprove : N)
| EvSlashRequest (prover iprove index : N)
| EvSlashCancel (prover iprove index : N)
| EvSlash (prover prove iprove index : N)
| EvDispense (amount : N).

(** A revert inside a call propagates (EVM).  (As in contracts/src/SuccinctStaking.sol 248-523.) *)
Definition sk_bind {X Y} (r : result X staking_error) (f : X -> result Y staking_error)
    : result Y staking_error :=
  match r with Ok x => f x | Err e => Err e end.
Notation "'let!' x := m 'in' k" := (sk_bind m (fun x => k))
  (at level 200, x pattern, m at level 100, k at level 200, right associativity).

(** [if (!b) revert e].  (As in contracts/src/SuccinctStaking.sol 248-523.) *)
Definition sk_require (b : bool) (e : staking_error) : result unit staking_error :=
  if b then Ok tt else Err e.
(** A call of the token; its revert propagates.  (As in contracts/src/SuccinctStaking.sol 531-645.) *)
Definition sk_token {X} (r : result X token_error) : result X staking_error :=
  match r with Ok x => Ok x | Err e => Err (KToken e) end.
(** Checked [uint256] operations of Solidity.  (As in contracts/src/SuccinctStaking.sol 531-666.) *)
Definition sk_add (a b : N) : result N staking_error :=
  if a + b <? two256 then Ok (a + b) else Err KArithmetic.
(** Checked subtraction, as in contracts/src/SuccinctStaking.sol 531-666. *)
Definition sk_sub (a b : N) : result N staking_error := if b <=? a then Ok (a - b) else Err KArithmetic.
(** Checked multiplication, as in contracts/src/SuccinctStaking.sol 531-666. *)
Definition sk_mul (a b : N) : result N staking_error :=
  if a * b <? two256 then Ok (a * b) else Err KArithmetic.
(** OpenZeppelin's [Math.mulDiv], rounding down (used in contracts/src/SuccinctStaking.sol 456, 479, 481,
    603). *)
Definition mul_div (a b d : N) : result N staking_error :=
  if d =? 0 then Err KArithmetic else if a * b / d <? two256 then Ok (a * b / d) else Err KArithmetic.

(** $PROVE after a call of it, contracts/src/tokens/Succinct.sol 20. *)
Definition bk_set_prove (t : token) (b : bank) : bank :=
  Bank t (bk_iprove b) (bk_isupply b) (bk_shares b) (bk_stakes b) (bk_stsupply b).
(** $iPROVE after a call of it, contracts/src/tokens/IntermediateSuccinct.sol 30. *)
Definition bk_set_iprove (t : token) (supply : N) (b : bank) : bank :=
  Bank (bk_prove b) t supply (bk_shares b) (bk_stakes b) (bk_stsupply b).
(** A $PROVER-N after a call of it, contracts/src/tokens/SuccinctProver.sol 27. *)
Definition bk_set_share (p n : N) (b : bank) : bank :=
  Bank (bk_prove b) (bk_iprove b) (bk_isupply b) (<[p := n]> (bk_shares b)) (bk_stakes b) (bk_stsupply b).
(** $stPROVE after a mint or burn, contracts/src/tokens/StakedSuccinct.sol 17. *)
Definition bk_set_stake (a n supply : N) (b : bank) : bank :=
  Bank (bk_prove b) (bk_iprove b) (bk_isupply b) (bk_shares b) (<[a := n]> (bk_stakes b)) supply.
(** Assignment of the owner (contracts/src/SuccinctStaking.sol 32: OwnableUpgradeable). *)
Definition sk_set_owner (o : N) (s : staking) : staking :=
  Staking o (sk_bank s) (sk_registry s) (sk_dispensing s) (sk_bound s) (sk_claims s) (sk_slashes s)
    (sk_pending s) (sk_pools s).
(** The tokens after calls of them, contracts/src/SuccinctStaking.sol 531-645. *)
Definition sk_set_bank (b : bank) (s : staking) : staking :=
  Staking (sk_owner s) b (sk_registry s) (sk_dispensing s) (sk_bound s) (sk_claims s) (sk_slashes s)
    (sk_pending s) (sk_pools s).
(** Assignment to the registry, contracts/src/libraries/ProverRegistry.sol 24-46. *)
Definition sk_set_registry (r : registry) (s : staking) : staking :=
  Staking (sk_owner s) (sk_bank s) r (sk_dispensing s) (sk_bound s) (sk_claims s) (sk_slashes s)
    (sk_pending s) (sk_pools s).
(** Assignment to the dispensing fields, contracts/src/SuccinctStaking.sol 46-71. *)
Definition sk_set_dispensing (d : dispensing) (s : staking) : staking :=
  Staking (sk_owner s) (sk_bank s) (sk_registry s) d (sk_bound s) (sk_claims s) (sk_slashes s)
    (sk_pending s) (sk_pools s).
(** Assignment to [stakerToProver], contracts/src/SuccinctStaking.sol 74. *)
Definition sk_set_bound (a p : N) (s : staking) : staking :=
  Staking (sk_owner s) (sk_bank s) (sk_registry s) (sk_dispensing s) (<[a := p]> (sk_bound s)) (sk_claims s)
    (sk_slashes s) (sk_pending s) (sk_pools s).
(** Assignment to [unstakeClaims], contracts/src/SuccinctStaking.sol 77. *)
Definition sk_set_claims (a : N) (l : list unstake_claim) (s : staking) : staking :=
  Staking (sk_owner s) (sk_bank s) (sk_registry s) (sk_dispensing s) (sk_bound s) (<[a := l]> (sk_claims s))
    (sk_slashes s) (sk_pending s) (sk_pools s).
(** Assignment to [slashClaims] and [slashClaimCount], contracts/src/SuccinctStaking.sol 80-83. *)
Definition sk_set_slashes (p : N) (l : list slash_claim) (pending : N) (s : staking) : staking :=
  Staking (sk_owner s) (sk_bank s) (sk_registry s) (sk_dispensing s) (sk_bound s) (sk_claims s)
    (<[p := l]> (sk_slashes s)) (<[p := pending]> (sk_pending s)) (sk_pools s).
(** Assignment to [escrowPools], contracts/src/SuccinctStaking.sol 86. *)
Definition sk_set_pool (p : N) (pool : escrow_pool) (s : staking) : staking :=
  Staking (sk_owner s) (sk_bank s) (sk_registry s) (sk_dispensing s) (sk_bound s) (sk_claims s)
    (sk_slashes s) (sk_pending s) (<[p := pool]> (sk_pools s)).

(** [balanceOf] of $stPROVE, contracts/src/tokens/StakedSuccinct.sol 17 (ERC20).  An unused entry of a
    mapping reads as zero. *)
Definition stake_of (b : bank) (a : N) : N := default 0 (bk_stakes b !! a).
(** [totalSupply] of a prover vault, contracts/src/tokens/SuccinctProver.sol 27 (ERC20). *)
Definition shares_of (b : bank) (p : N) : N := default 0 (bk_shares b !! p).
(** [stakerToProver], contracts/src/SuccinctStaking.sol 74. *)
Definition bound_to (s : staking) (a : N) : N := default 0 (sk_bound s !! a).
(** [unstakeClaims], contracts/src/SuccinctStaking.sol 77. *)
Definition claims_of (s : staking) (a : N) : list unstake_claim := default [] (sk_claims s !! a).
(** [slashClaims], contracts/src/SuccinctStaking.sol 80. *)
Definition slashes_of (s : staking) (p : N) : list slash_claim := default [] (sk_slashes s !! p).
(** [slashClaimCount], contracts/src/SuccinctStaking.sol 83. *)
Definition pending_of (s : staking) (p : N) : N := default 0 (sk_pending s !! p).
(** [escrowPools], contracts/src/SuccinctStaking.sol 86. *)
Definition pool_of (s : staking) (p : N) : escrow_pool := default (EscrowPool 0 0) (sk_pools s !! p).
(** [isProver], contracts/src/libraries/ProverRegistry.sol 81-83. *)
Definition is_prover (s : staking) (p : N) : bool := bool_decide (p ∈ rg_provers (sk_registry s)).
(** [isDeactivatedProver], contracts/src/libraries/ProverRegistry.sol 86-88. *)
Definition is_deactivated (s : staking) (p : N) : bool := bool_decide (p ∈ rg_deactivated (sk_registry s)).

(** ** The $iPROVE vault *)

(** [totalAssets] of $iPROVE: the $PROVE it holds
    (contracts/src/tokens/IntermediateSuccinct.sol 30, ERC4626). *)
Definition i_assets (K : staking_env) (b : bank) : N := tk_balance (bk_prove b) (ke_iprove K).
(** [previewDeposit] (contracts/src/tokens/IntermediateSuccinct.sol 30, ERC4626). *)
Definition i_preview_deposit (K : staking_env) (assets : N) (b : bank) : result N staking_error :=
  mul_div assets (bk_isupply b + 1) (i_assets K b + 1).
(** [previewRedeem] (contracts/src/tokens/IntermediateSuccinct.sol 30, ERC4626). *)
Definition i_preview_redeem (K : staking_env) (shares : N) (b : bank) : result N staking_error :=
  mul_div shares (i_assets K b + 1) (bk_isupply b + 1).

(** [_mint] with the supply limit of ERC20Votes (contracts/src/tokens/IntermediateSuccinct.sol 73-96). *)
Definition i_mint (to amount : N) (b : bank) : result bank staking_error :=
  let! _ := sk_require (negb (to =? 0)) KInvalidAddress in
  let! _ := sk_require (bk_isupply b + amount <=? max_votes_supply) KExceededSupply in
  Ok (bk_set_iprove (tk_mint (bk_iprove b) to amount) (bk_isupply b + amount) b).
(** [_burn] (contracts/src/tokens/IntermediateSuccinct.sol 73-96). *)
Definition i_burn (from amount : N) (b : bank) : result bank staking_error :=
  let! _ := sk_require (negb (from =? 0)) KInvalidAddress in
  let! t := sk_token (tk_burn (bk_iprove b) from amount) in
  Ok (bk_set_iprove t (bk_isupply b - amount) b).

(** [deposit(assets, receiver)] called by [caller]
    (contracts/src/tokens/IntermediateSuccinct.sol 30, ERC4626). *)
Definition i_deposit (K : staking_env) (caller receiver assets : N) (b : bank)
    : result (bank * N) staking_error :=
  let! shares := i_preview_deposit K assets b in
  let! t := sk_token (tk_transfer_from (bk_prove b) (ke_iprove K) caller (ke_iprove K) assets) in
  let! b1 := i_mint receiver shares (bk_set_prove t b) in
  Ok (b1, shares).
(** [redeem(shares, receiver, owner)] called by the staking contract
    (contracts/src/tokens/IntermediateSuccinct.sol 30, 99-105, ERC4626). *)
Definition i_redeem (K : staking_env) (shares receiver owner : N) (b : bank)
    : result (bank * N) staking_error :=
  let! _ := sk_require (shares <=? tk_balance (bk_iprove b) owner) KExceededMaxRedeem in
  let! assets := i_preview_redeem K shares b in
  let! b1 := i_burn owner shares b in
  let! t := sk_token (tk_transfer (bk_prove b1) (ke_iprove K) receiver assets) in
  Ok (bk_set_prove t b1, assets).
(** [burn], contracts/src/tokens/IntermediateSuccinct.sol 43-56. *)
Definition i_slash (K : staking_env) (from shares : N) (b : bank) : result (bank * N) staking_error :=
  let! assets := i_preview_redeem K shares b in
  let! t := sk_token (tk_burn (bk_prove b) (ke_iprove K) assets) in
  let! b1 := i_burn from shares (bk_set_prove t b) in
  Ok (b1, assets).

(** ** Prover vaults *)

(** [totalAssets] of a prover vault: the $iPROVE it holds
    (contracts/src/tokens/SuccinctProver.sol 27, ERC4626). *)
Definition v_assets (p : N) (b : bank) : N := tk_balance (bk_iprove b) p.
(** [previewRedeem] (contracts/src/tokens/SuccinctProver.sol 27, ERC4626). *)
Definition v_preview_redeem (p shares : N) (b : bank) : result N staking_error :=
  let! supply1 := sk_add (shares_of b p) 1 in
  mul_div shares (v_assets p b + 1) supply1.
(** [deposit(assets, staking)] called by the staking contract, which holds the $iPROVE
    (contracts/src/tokens/SuccinctProver.sol 27, 127-133, ERC4626). *)
Definition v_deposit (K : staking_env) (p assets : N) (b : bank) : result (bank * N) staking_error :=
  let! supply1 := sk_add (shares_of b p) 1 in
  let! shares := mul_div assets supply1 (v_assets p b + 1) in
  let! t := sk_token (tk_transfer (bk_iprove b) (ke_self K) p assets) in
  let! supply := sk_add (shares_of b p) shares in
  Ok (bk_set_share p supply (bk_set_iprove t (bk_isupply b) b), shares).
(** [redeem(shares, staking, staking)] called by the staking contract
    (contracts/src/tokens/SuccinctProver.sol 27, 127-133, ERC4626). *)
Definition v_redeem (K : staking_env) (p shares : N) (b : bank) : result (bank * N) staking_error :=
  let! _ := sk_require (shares <=? shares_of b p) KExceededMaxRedeem in
  let! assets := v_preview_redeem p shares b in
  let! t := sk_token (tk_transfer (bk_iprove b) p (ke_self K) assets) in
  Ok (bk_set_share p (shares_of b p - shares) (bk_set_iprove t (bk_isupply b) b), assets).

(** ** $stPROVE *)

(** [_mint], contracts/src/tokens/StakedSuccinct.sol 46-55 (ERC20; inside a staking operation). *)
Definition st_mint (to amount : N) (b : bank) : result bank staking_error :=
  let! _ := sk_require (negb (to =? 0)) KInvalidAddress in
  let! supply := sk_add (bk_stsupply b) amount in
  Ok (bk_set_stake to (stake_of b to + amount) supply b).
(** [_burn], contracts/src/tokens/StakedSuccinct.sol 46-55 (ERC20; inside a staking operation). *)
Definition st_burn (from amount : N) (b : bank) : result bank staking_error :=
  let! _ := sk_require (negb (from =? 0)) KInvalidAddress in
  let! _ := sk_require (amount <=? stake_of b from) KInsufficientStake in
  Ok (bk_set_stake from (stake_of b from - amount) (bk_stsupply b - amount) b).

(** ** Views *)

(** [previewUnstake], contracts/src/SuccinctStaking.sol 218-230. *)
Definition preview_unstake (K : staking_env) (p stprove : N) (b : bank) : result N staking_error :=
  let! iprove := v_preview_redeem p stprove b in
  i_preview_redeem K iprove b.
(** [staked], contracts/src/SuccinctStaking.sol 155-163. *)
Definition staked (K : staking_env) (a : N) (s : staking) : result N staking_error :=
  if bound_to s a =? 0 then Ok 0 else preview_unstake K (bound_to s a) (stake_of (sk_bank s) a) (sk_bank s).
(** [proverStaked], contracts/src/SuccinctStaking.sol 166-172. *)
Definition prover_staked (K : staking_env) (p : N) (s : staking) : result N staking_error :=
  i_preview_redeem K (tk_balance (bk_iprove (sk_bank s)) p) (sk_bank s).
(** The loop of [unstakePending], contracts/src/SuccinctStaking.sol 207-214. *)
Fixpoint pending_loop (K : staking_env) (factor : N) (claims : list unstake_claim) (b : bank) (prove : N)
    : result N staking_error :=
  match claims with
  | [] => Ok prove
  | c :: rest =>
      let! iprove := mul_div (uc_escrow c) factor (uc_factor c) in
      let! value := i_preview_redeem K iprove b in
      let! prove1 := sk_add prove value in
      pending_loop K factor rest b prove1
  end.
(** [unstakePending], contracts/src/SuccinctStaking.sol 195-215. *)
Definition unstake_pending (K : staking_env) (a : N) (s : staking) : result N staking_error :=
  if bound_to s a =? 0 then Ok 0
  else let factor := ep_factor (pool_of s (bound_to s a)) in
       if factor =? 0 then Ok 0 else pending_loop K factor (claims_of s a) (sk_bank s) 0.
(** [maxDispense], contracts/src/SuccinctStaking.sol 233-241. *)
Definition max_dispense (x : staking_ctx) (d : dispensing) : result N staking_error :=
  let! elapsed := sk_sub (kx_time x) (dp_since d) in
  let! current := sk_mul elapsed (dp_rate d) in
  let! total := sk_add (dp_earned d) current in
  sk_sub total (dp_distributed d).

(** ** Staking *)

(** [_requireProverWithoutSlashRequests], contracts/src/SuccinctStaking.sol 679-681. *)
Definition no_slash_requests (s : staking) (p : N) : result unit staking_error :=
  sk_require (negb (0 <? pending_of s p)) KProverHasSlashRequest.

(** [_stake], contracts/src/SuccinctStaking.sol 531-578. *)
Definition stake_for (K : staking_env) (staker p amount : N) (s : staking)
    : result (staking * list staking_event) staking_error :=
  let! _ := sk_require (negb (amount =? 0)) KZeroAmount in
  let! _ := sk_require (negb (amount <? ke_min_stake K)) KBelowMinimum in
  let! _ := sk_require (negb (is_deactivated s p)) KProverNotActive in
  let! _ := no_slash_requests s p in
  let! _ := sk_require ((bound_to s staker =? 0) || (bound_to s staker =? p)) KOtherProver in
  let s1 := if bound_to s staker =? 0 then sk_set_bound staker p s else s in
  let! (b1, iprove) := i_deposit K (ke_self K) (ke_self K) amount (sk_bank s1) in
  let! _ := sk_require (negb (iprove =? 0)) KZeroReceipt in
  let! (b2, stprove) := v_deposit K p iprove b1 in
  let! _ := sk_require (negb (stprove =? 0)) KZeroReceipt in
  let! b3 := st_mint staker stprove b2 in
  Ok (sk_set_bank b3 s1, [EvStake staker p amount iprove stprove]).

(** [stake], contracts/src/SuccinctStaking.sol 248-258. *)
Definition k_stake (K : staking_env) (x : staking_ctx) (p amount : N) (s : staking)
    : result (staking * list staking_event) staking_error :=
  let! _ := sk_require (is_prover s p) KProverNotFound in
  let! t := sk_token (tk_transfer_from (bk_prove (sk_bank s)) (ke_self K) (kx_sender x) (ke_self K) amount) in
  stake_for K (kx_sender x) p amount (sk_set_bank (bk_set_prove t (sk_bank s)) s).

(** [permitAndStake], contracts/src/SuccinctStaking.sol 261-281, with [transferProveToStaking],
    contracts/src/tokens/SuccinctProver.sol 118-124.  The permit is the token's: it sets the allowance if
    the signature is valid. *)
Definition k_permit_and_stake (K : staking_env) (x : staking_ctx) (p from amount : N) (s : staking)
    : result (staking * list staking_event) staking_error :=
  let! _ := sk_require (is_prover s p) KProverNotFound in
  let! t1 :=
    (if tk_allowance (bk_prove (sk_bank s)) from p =? amount then Ok (bk_prove (sk_bank s))
     else if kx_permit_valid x then Ok (tk_approve (bk_prove (sk_bank s)) from p amount)
     else Err KPermitRejected) in
  let! t2 := sk_token (tk_transfer_from t1 p from (ke_self K) amount) in
  stake_for K from p amount (sk_set_bank (bk_set_prove t2 (sk_bank s)) s).

(** [requestUnstake], contracts/src/SuccinctStaking.sol 284-329, with [_escrowUnstakeRequest], 581-591.
    Pushing to an array fails when it already has 2^64 elements. *)
Definition k_request_unstake (K : staking_env) (x : staking_ctx) (stprove : N) (s : staking)
    : result (staking * list staking_event) staking_error :=
  let a := kx_sender x in
  let! _ := sk_require (negb (stprove =? 0)) KZeroAmount in
  let p := bound_to s a in
  let! _ := sk_require (negb (p =? 0)) KNotStaked in
  let! _ := sk_require (negb (ke_max_requests K <=? N.of_nat (length (claims_of s a)))) KTooManyRequests in
  let! _ := no_slash_requests s p in
  let! _ := sk_require (negb (stake_of (sk_bank s) a <? stprove)) KInsufficientStake in
  let! b1 := st_burn a stprove (sk_bank s) in
  let! (b2, escrowed) := v_redeem K p stprove b1 in
  let pool := pool_of s p in
  let factor := if ep_factor pool =? 0 then slash_scalar else ep_factor pool in
  let! escrow := sk_add (ep_escrow pool) escrowed in
  let! _ := sk_require (N.of_nat (length (claims_of s a)) <? two64) KArithmetic in
  Ok (sk_set_claims a (claims_of s a ++ [UnstakeClaim escrowed factor (kx_time x)])
        (sk_set_pool p (EscrowPool escrow factor) (sk_set_bank b2 s)),
      [EvUnstakeRequest a p stprove escrowed]).

(** [_finishUnstakeRequest], contracts/src/SuccinctStaking.sol 594-621. *)
Definition finish_request (K : staking_env) (staker p : N) (c : unstake_claim) (pool : escrow_pool) (b : bank)
    : result (escrow_pool * bank * N * staking_event) staking_error :=
  let! scaled := mul_div (uc_escrow c) (ep_factor pool) (uc_factor c) in
  let paid := if ep_escrow pool <? scaled then ep_escrow pool else scaled in
  if paid =? 0 then Ok (pool, b, 0, EvUnstake staker p 0 paid)
  else
    let! (b1, prove) := i_redeem K paid staker (ke_self K) b in
    Ok (EscrowPool (ep_escrow pool - paid) (ep_factor pool), b1, prove, EvUnstake staker p prove paid).

(** [_claims[i] = _claims[_claims.length - 1]; _claims.pop();], contracts/src/SuccinctStaking.sol
    636-637. *)
Definition swap_remove (i : nat) (l : list unstake_claim) : list unstake_claim :=
  match last l with
  | Some z => take (length l - 1) (<[i := z]> l)
  | None => l
  end.

(** [_finishUnstake], contracts/src/SuccinctStaking.sol 625-645.  The loop handles one claim per round, so
    [fuel] rounds with [fuel] the number of claims are enough. *)
Fixpoint finish_loop (K : staking_env) (now staker p : N) (fuel i : nat) (claims : list unstake_claim)
    (pool : escrow_pool) (b : bank)
    : result (list unstake_claim * escrow_pool * bank * N * list staking_event) staking_error :=
  match fuel, claims !! i with
  | S fuel', Some c =>
      let! ready := sk_add (uc_time c) (ke_unstake_period K) in
      if ready <=? now then
        let! (pool1, b1, prove, ev) := finish_request K staker p c pool b in
        let! (claims', pool', b', total, evs) :=
          finish_loop K now staker p fuel' i (swap_remove i claims) pool1 b1 in
        let! total' := sk_add prove total in
        Ok (claims', pool', b', total', ev :: evs)
      else finish_loop K now staker p fuel' (S i) claims pool b
  | _, _ => Ok (claims, pool, b, 0, [])
  end.

(** [finishUnstake], contracts/src/SuccinctStaking.sol 332-361. *)
Definition k_finish_unstake (K : staking_env) (x : staking_ctx) (staker : N) (s : staking)
    : result (staking * list staking_event) staking_error :=
  let p := bound_to s staker in
  let! _ := sk_require (negb (p =? 0)) KNotStaked in
  let! _ := sk_require (negb (length (claims_of s staker) =? 0)%nat) KNoRequests in
  let! _ := no_slash_requests s p in
  let! (claims, pool, b, _, evs) :=
    finish_loop K (kx_time x) staker p (length (claims_of s staker)) 0 (claims_of s staker) (pool_of s p)
      (sk_bank s) in
  let pool' := if (ep_escrow pool =? 0) && negb (ep_factor pool =? slash_scalar)
               then EscrowPool (ep_escrow pool) slash_scalar else pool in
  let s1 := sk_set_claims staker claims (sk_set_pool p pool' (sk_set_bank b s)) in
  let s2 := if (stake_of b staker =? 0) && (length claims =? 0)%nat then sk_set_bound staker 0 s1 else s1 in
  Ok (s2, evs).

(** ** Slashing *)

(** [requestSlash], contracts/src/SuccinctStaking.sol 368-390. *)
Definition k_request_slash (K : staking_env) (x : staking_ctx) (p amount : N) (s : staking)
    : result (staking * list staking_event) staking_error :=
  let! _ := sk_require (kx_sender x =? ke_vapp K) KNotVApp in
  let! _ := sk_require (is_prover s p) KProverNotFound in
  let! _ := sk_require (negb (amount =? 0)) KZeroAmount in
  let! _ := sk_require (N.of_nat (length (slashes_of s p)) <? two64) KArithmetic in
  Ok (sk_set_slashes p (slashes_of s p ++ [SlashClaim amount (kx_time x) false])
        ((pending_of s p + 1) mod two256) s,
      [EvSlashRequest p amount (N.of_nat (length (slashes_of s p)))]).

(** [slashClaims[_prover][_index]], checked index, contracts/src/SuccinctStaking.sol 395, 431. *)
Definition slash_at (s : staking) (p i : N) : result slash_claim staking_error :=
  match slashes_of s p !! N.to_nat i with Some c => Ok c | None => Err KArithmetic end.
(** [claim.resolved = true; unchecked { --slashClaimCount[_prover]; }],
    contracts/src/SuccinctStaking.sol 412-417, 445-450. *)
Definition resolve_slash (p i : N) (c : slash_claim) (s : staking) : staking :=
  sk_set_slashes p (<[N.to_nat i := SlashClaim (sc_amount c) (sc_time c) true]> (slashes_of s p))
    ((pending_of s p + (two256 - 1)) mod two256) s.

(** [cancelSlash], contracts/src/SuccinctStaking.sol 393-420. *)
Definition k_cancel_slash (K : staking_env) (x : staking_ctx) (p i : N) (s : staking)
    : result (staking * list staking_event) staking_error :=
  let! _ := sk_require (is_prover s p) KProverNotFound in
  let! c := slash_at s p i in
  let! _ := sk_require (negb (sc_resolved c)) KAlreadyResolved in
  let! d1 := sk_add (sc_time c) (ke_cancel_period K) in
  let! d2 := sk_add d1 (kx_voting_delay x) in
  let! deadline := sk_add d2 (kx_voting_period x) in
  let! _ := sk_require (negb (kx_time x <? deadline)) KNotReadyToCancel in
  Ok (resolve_slash p i c s, [EvSlashCancel p (sc_amount c) i]).

(** [_deactivateProverIfPriceBelowMin], contracts/src/libraries/ProverRegistry.sol 155-173. *)
Definition deactivate_if_below_min (p : N) (s : staking) : result staking staking_error :=
  if is_deactivated s p then Ok s
  else if shares_of (sk_bank s) p =? 0 then Ok s
  else
    let! price := mul_div (v_assets p (sk_bank s)) (10 ^ 18) (shares_of (sk_bank s) p) in
    if price <? min_price_per_share then
      let r := sk_registry s in
      Ok (sk_set_registry (Registry (rg_provers r) ({[p]} ∪ rg_deactivated r) (rg_owners r) (rg_count r)) s)
    else Ok s.

(** A slash of $iPROVE that is skipped when the amount is zero, contracts/src/SuccinctStaking.sol
    459-469. *)
Definition slash_if_nonzero (K : staking_env) (from amount : N) (b : bank) : result (bank * N) staking_error :=
  if amount =? 0 then Ok (b, 0) else i_slash K from amount b.

(** The new slash factor, contracts/src/SuccinctStaking.sol 472-483. *)
Definition slashed_factor (factor total remaining : N) : result N staking_error :=
  if remaining =? 0 then Ok 0
  else
    let! ratio := mul_div remaining slash_scalar total in
    mul_div (if factor =? 0 then slash_scalar else factor) ratio slash_scalar.

(** [finishSlash], contracts/src/SuccinctStaking.sol 423-490. *)
Definition k_finish_slash (K : staking_env) (x : staking_ctx) (p i : N) (s : staking)
    : result (staking * list staking_event) staking_error :=
  let! _ := sk_require (kx_sender x =? sk_owner s) KNotOwner in
  let! _ := sk_require (is_prover s p) KProverNotFound in
  let! c := slash_at s p i in
  let! _ := sk_require (negb (sc_resolved c)) KAlreadyResolved in
  let pool := pool_of s p in
  let! total := sk_add (v_assets p (sk_bank s)) (ep_escrow pool) in
  let amount := if total <? sc_amount c then total else sc_amount c in
  let s1 := resolve_slash p i c s in
  let! (s2, burned) :=
    (if amount =? 0 then Ok (s1, 0)
     else
       let! from_escrow := mul_div amount (ep_escrow pool) total in
       let from_vault := amount - from_escrow in
       let! (b1, prove1) := slash_if_nonzero K (ke_self K) from_escrow (sk_bank s1) in
       let! (b2, prove2) := slash_if_nonzero K p from_vault b1 in
       let! factor := slashed_factor (ep_factor pool) total (total - amount) in
       let! prove := sk_add prove1 prove2 in
       Ok (sk_set_pool p (EscrowPool (ep_escrow pool - from_escrow) factor) (sk_set_bank b2 s1), prove)) in
  let! s3 := deactivate_if_below_min p s2 in
  Ok (s3, [EvSlash p burned amount i]).

(** ** Dispensing rewards *)

(** [dispense], contracts/src/SuccinctStaking.sol 493-513. *)
Definition k_dispense (K : staking_env) (x : staking_ctx) (amount : N) (s : staking)
    : result (staking * list staking_event) staking_error :=
  let d := sk_dispensing s in
  let! _ := sk_require (kx_sender x =? dp_dispenser d) KNotDispenser in
  let! available := max_dispense x d in
  let amount' := if amount =? u256_max then available else amount in
  let! _ := sk_require (negb (amount' =? 0)) KZeroAmount in
  let! _ := sk_require (negb (available <? amount')) KExceedsAvailable in
  let! distributed := sk_add (dp_distributed d) amount' in
  let! t := sk_token (tk_transfer (bk_prove (sk_bank s)) (ke_self K) (ke_iprove K) amount') in
  Ok (sk_set_bank (bk_set_prove t (sk_bank s))
        (sk_set_dispensing (Dispensing (dp_dispenser d) (dp_rate d) (dp_since d) (dp_earned d) distributed) s),
      [EvDispense amount']).

(** [setDispenser], contracts/src/SuccinctStaking.sol 516-518, 648-652. *)
Definition k_set_dispenser (x : staking_ctx) (a : N) (s : staking)
    : result (staking * list staking_event) staking_error :=
  let! _ := sk_require (kx_sender x =? sk_owner s) KNotOwner in
  let d := sk_dispensing s in
  Ok (sk_set_dispensing (Dispensing a (dp_rate d) (dp_since d) (dp_earned d) (dp_distributed d)) s, []).

(** [updateDispenseRate], contracts/src/SuccinctStaking.sol 521-523, 655-666. *)
Definition k_update_rate (x : staking_ctx) (rate : N) (s : staking)
    : result (staking * list staking_event) staking_error :=
  let! _ := sk_require (kx_sender x =? sk_owner s) KNotOwner in
  let d := sk_dispensing s in
  let! elapsed := sk_sub (kx_time x) (dp_since d) in
  let! current := sk_mul elapsed (dp_rate d) in
  let! earned := sk_add (dp_earned d) current in
  Ok (sk_set_dispensing (Dispensing (dp_dispenser d) rate (kx_time x) earned (dp_distributed d)) s, []).

(** ** Provers *)

(** [createProver] and [_deployProver], contracts/src/libraries/ProverRegistry.sol 96-145.  Deploying
    twice to the same address fails. *)
Definition k_create_prover (K : staking_env) (x : staking_ctx) (bips : N) (s : staking)
    : result (staking * list staking_event) staking_error :=
  let r := sk_registry s in
  let o := kx_sender x in
  let! _ := sk_require (negb (10000 <? bips)) KInvalidFee in
  let! _ := sk_require (default 0 (rg_owners r !! o) =? 0) KProverExists in
  let count := (rg_count r + 1) mod two256 in
  let p := ke_create2 K o count bips in
  let! _ := sk_require (negb (is_prover s p)) KDeployFailed in
  let! _ := sk_require (kx_vapp_accepts x) KVAppRejected in
  Ok (sk_set_registry (Registry ({[p]} ∪ rg_provers r) (rg_deactivated r) (<[o := p]> (rg_owners r)) count) s, []).

(** The settlement contract pays a prover by depositing into $iPROVE,
    contracts/src/SuccinctVApp.sol 451-453; allowed by
    contracts/src/tokens/IntermediateSuccinct.sol 83-88. *)
Definition k_reward (K : staking_env) (p amount : N) (s : staking)
    : result (staking * list staking_event) staking_error :=
  let! _ := sk_require (is_prover s p) KNonTransferable in
  let! (b, _) := i_deposit K (ke_vapp K) p amount (sk_bank s) in
  Ok (sk_set_bank b s, []).

(** [transferOwnership] of OpenZeppelin's Ownable, contracts/src/SuccinctStaking.sol 32. *)
Definition k_transfer_ownership (x : staking_ctx) (a : N) (s : staking)
    : result (staking * list staking_event) staking_error :=
  let! _ := sk_require (kx_sender x =? sk_owner s) KNotOwner in
  let! _ := sk_require (negb (a =? 0)) KZeroAddress in
  Ok (sk_set_owner a s, []).
(** [renounceOwnership] of OpenZeppelin's Ownable, contracts/src/SuccinctStaking.sol 32. *)
Definition k_renounce_ownership (x : staking_ctx) (s : staking) : result (staking * list staking_event) staking_error :=
  let! _ := sk_require (kx_sender x =? sk_owner s) KNotOwner in
  Ok (sk_set_owner 0 s, []).

(** The calls, contracts/src/SuccinctStaking.sol and contracts/src/libraries/ProverRegistry.sol 96; the
    reward is paid by contracts/src/SuccinctVApp.sol 453. *)
Inductive staking_call : Type :=
| KStake (p amount : N)
| KPermitAndStake (p from amount : N)
| KRequestUnstake (stprove : N)
| KFinishUnstake (staker : N)
| KRequestSlash (p amount : N)
| KCancelSlash (p index : N)
| KFinishSlash (p index : N)
| KDispense (amount : N)
| KSetDispenser (a : N)
| KUpdateRate (rate : N)
| KCreateProver (bips : N)
| KReward (p amount : N)
| KTransferOwnership (a : N)
| KRenounceOwnership.

(** Dispatch of a call, contracts/src/SuccinctStaking.sol 248-523. *)
Definition staking_run (K : staking_env) (x : staking_ctx) (c : staking_call) (s : staking)
    : result (staking * list staking_event) staking_error :=
  match c with
  | KStake p amount => k_stake K x p amount s
  | KPermitAndStake p from amount => k_permit_and_stake K x p from amount s
  | KRequestUnstake stprove => k_request_unstake K x stprove s
  | KFinishUnstake staker => k_finish_unstake K x staker s
  | KRequestSlash p amount => k_request_slash K x p amount s
  | KCancelSlash p index => k_cancel_slash K x p index s
  | KFinishSlash p index => k_finish_slash K x p index s
  | KDispense amount => k_dispense K x amount s
  | KSetDispenser a => k_set_dispenser x a s
  | KUpdateRate rate => k_update_rate x rate s
  | KCreateProver bips => k_create_prover K x bips s
  | KReward p amount => k_reward K p amount s
  | KTransferOwnership a => k_transfer_ownership x a s
  | KRenounceOwnership => k_renounce_ownership x s
  end.

(** [initialize], contracts/src/SuccinctStaking.sol 105-142, on fresh $iPROVE and any $PROVE token. *)
Definition staking_initialize (K : staking_env) (prove : token) (owner governor prove_address dispenser : N)
    : option staking :=
  if forallb (fun a => negb (a =? 0))
       [owner; governor; ke_vapp K; prove_address; ke_iprove K; dispenser; ke_max_requests K;
        ke_unstake_period K; ke_cancel_period K]
  then Some (Staking owner
    (Bank (tk_approve prove (ke_self K) (ke_iprove K) u256_max) (Token ∅ ∅) 0 ∅ ∅ 0)
    (Registry ∅ ∅ ∅ 0) (Dispensing dispenser 0 0 0 0) ∅ ∅ ∅ ∅ ∅)
  else None.
