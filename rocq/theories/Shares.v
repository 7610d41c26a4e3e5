(** The receipt tokens as contracts that anyone can call: $iPROVE
    (contracts/src/tokens/IntermediateSuccinct.sol), the prover vaults $PROVER-N
    (contracts/src/tokens/SuccinctProver.sol) and $stPROVE (contracts/src/tokens/StakedSuccinct.sol), with the
    functions they inherit from ERC20 and ERC4626 of OpenZeppelin 5 (whose source is not in the repository;
    modelled is the documented behaviour).

    Not modelled here: votes and delegation (Votes.v), the nonces of permits (whether a permit is valid is part of the call). *)
From Verif Require Export Staking.
Open Scope N_scope.

(** The staking contract with its tokens, and the allowances of the receipt tokens: those of $iPROVE, of each
    $PROVER-N and of $stPROVE (contracts/src/tokens/IntermediateSuccinct.sol 30, SuccinctProver.sol 27,
    StakedSuccinct.sol 17: state of ERC20). *)
Record system : Type := System {
  sy_staking : staking;
  sy_iallowed : gmap (N * N) N;
  sy_pallowed : gmap N (gmap (N * N) N);
  sy_stallowed : gmap (N * N) N
}.

(** Which token is called: contracts/src/tokens/IntermediateSuccinct.sol 30, SuccinctProver.sol 27,
    StakedSuccinct.sol 17. *)
Inductive share_token : Type := ShIprove | ShProver (p : N) | ShStprove.

(** The calls: ERC20 ([transfer], [transferFrom], [approve]), ERC20Permit, ERC4626 ([deposit], [mint],
    [withdraw], [redeem]), [burn] (contracts/src/tokens/IntermediateSuccinct.sol 43-56) and
    [transferProveToStaking] (contracts/src/tokens/SuccinctProver.sol 118-124). *)
Inductive share_call : Type :=
| ShTransfer (to n : N)
| ShTransferFrom (from to n : N)
| ShApprove (spender n : N)
| ShPermit (owner spender n : N) (valid : bool)
| ShDeposit (assets receiver : N)
| ShMint (shares receiver : N)
| ShWithdraw (assets receiver owner : N)
| ShRedeem (shares receiver owner : N)
| ShBurn (from n : N)
| ShPull (from n : N).

(** Assignment of the token balances, contracts/src/tokens/IntermediateSuccinct.sol 30. *)
Definition sy_set_bank (b : bank) (y : system) : system :=
  System (sk_set_bank b (sy_staking y)) (sy_iallowed y) (sy_pallowed y) (sy_stallowed y).
(** The token balances, contracts/src/tokens/IntermediateSuccinct.sol 30. *)
Definition sy_bank (y : system) : bank := sk_bank (sy_staking y).

(** OpenZeppelin's [Math.mulDiv], rounding up (ERC4626 of contracts/src/tokens/IntermediateSuccinct.sol 30 and
    SuccinctProver.sol 27). *)
Definition mul_div_up (a b d : N) : result N staking_error :=
  if d =? 0 then Err KArithmetic
  else let n := a * b / d + (if (a * b) mod d =? 0 then 0 else 1) in
       if n <? two256 then Ok n else Err KArithmetic.

(** An entry of an allowance mapping; an unused entry reads as zero
    (contracts/src/tokens/IntermediateSuccinct.sol 30, ERC20). *)
Definition allowance_in (m : gmap (N * N) N) (owner spender : N) : N := default 0 (m !! (owner, spender)).

(** [_spendAllowance] of ERC20, before the overrides (contracts/src/tokens/IntermediateSuccinct.sol 104,
    SuccinctProver.sol 141). *)
Definition spend_in (m : gmap (N * N) N) (owner spender n : N) : result (gmap (N * N) N) staking_error :=
  if allowance_in m owner spender =? u256_max then Ok m
  else if allowance_in m owner spender <? n then Err (KToken TkInsufficientAllowance)
  else Ok (<[(owner, spender) := allowance_in m owner spender - n]> m).

(** [approve]: the zero address cannot be given an allowance (ERC20 of
    contracts/src/tokens/IntermediateSuccinct.sol 30, SuccinctProver.sol 27, StakedSuccinct.sol 17). *)
Definition approve_in (m : gmap (N * N) N) (owner spender n : N) : result (gmap (N * N) N) staking_error :=
  let! _ := sk_require (negb (owner =? 0)) KInvalidAddress in
  let! _ := sk_require (negb (spender =? 0)) KInvalidAddress in
  Ok (<[(owner, spender) := n]> m).

(** ** $iPROVE *)

(** [_spendAllowance], contracts/src/tokens/IntermediateSuccinct.sol 99-105. *)
Definition i_spend (K : staking_env) (owner spender n : N) (y : system) : result system staking_error :=
  if spender =? ke_self K then Ok y
  else
    let! m := spend_in (sy_iallowed y) owner spender n in
    Ok (System (sy_staking y) m (sy_pallowed y) (sy_stallowed y)).

(** The check of [_update] when called by [caller], contracts/src/tokens/IntermediateSuccinct.sol 73-93. *)
Definition i_guard (K : staking_env) (caller from to : N) (y : system) : bool :=
  (caller =? ke_self K)
  || (is_prover (sy_staking y) caller && ((from =? ke_self K) || (to =? ke_self K)))
  || ((caller =? ke_vapp K) && (from =? 0) && is_prover (sy_staking y) to).

(** [_transfer] with [_update], contracts/src/tokens/IntermediateSuccinct.sol 73-96. *)
Definition i_move (K : staking_env) (caller from to n : N) (y : system) : result system staking_error :=
  let! _ := sk_require (negb (from =? 0) && negb (to =? 0)) KInvalidAddress in
  let! _ := sk_require (i_guard K caller from to y) KNonTransferable in
  let! t := sk_token (tk_transfer (bk_iprove (sy_bank y)) from to n) in
  Ok (sy_set_bank (bk_set_iprove t (bk_isupply (sy_bank y)) (sy_bank y)) y).
(** [_mint] with [_update], contracts/src/tokens/IntermediateSuccinct.sol 73-96. *)
Definition i_create (K : staking_env) (caller to n : N) (y : system) : result system staking_error :=
  let! _ := sk_require (negb (to =? 0)) KInvalidAddress in
  let! _ := sk_require (i_guard K caller 0 to y) KNonTransferable in
  let! b := i_mint to n (sy_bank y) in
  Ok (sy_set_bank b y).
(** [_burn] with [_update], contracts/src/tokens/IntermediateSuccinct.sol 73-96. *)
Definition i_destroy (K : staking_env) (caller from n : N) (y : system) : result system staking_error :=
  let! _ := sk_require (negb (from =? 0)) KInvalidAddress in
  let! _ := sk_require (i_guard K caller from 0 y) KNonTransferable in
  let! b := i_burn from n (sy_bank y) in
  Ok (sy_set_bank b y).

(** ERC4626 [_deposit] of $iPROVE: take the $PROVE, then mint
    (contracts/src/tokens/IntermediateSuccinct.sol 30). *)
Definition i_take (K : staking_env) (caller receiver assets shares : N) (y : system) : result system staking_error :=
  let! t := sk_token (tk_transfer_from (bk_prove (sy_bank y)) (ke_iprove K) caller (ke_iprove K) assets) in
  i_create K caller receiver shares (sy_set_bank (bk_set_prove t (sy_bank y)) y).
(** ERC4626 [_withdraw] of $iPROVE: spend the allowance, burn, then send the $PROVE
    (contracts/src/tokens/IntermediateSuccinct.sol 30). *)
Definition i_give (K : staking_env) (caller receiver owner assets shares : N) (y : system)
    : result system staking_error :=
  let! y1 := if caller =? owner then Ok y else i_spend K owner caller shares y in
  let! y2 := i_destroy K caller owner shares y1 in
  let! t := sk_token (tk_transfer (bk_prove (sy_bank y2)) (ke_iprove K) receiver assets) in
  Ok (sy_set_bank (bk_set_prove t (sy_bank y2)) y2).

(** A call of $iPROVE by [caller], contracts/src/tokens/IntermediateSuccinct.sol 30, 43-105.  A function that
    does not exist reverts. *)
Definition iprove_call (K : staking_env) (caller : N) (c : share_call) (y : system) : result system staking_error :=
  let b := sy_bank y in
  match c with
  | ShTransfer to n => i_move K caller caller to n y
  | ShTransferFrom from to n => let! y1 := i_spend K from caller n y in i_move K caller from to n y1
  | ShApprove spender n =>
      let! m := approve_in (sy_iallowed y) caller spender n in
      Ok (System (sy_staking y) m (sy_pallowed y) (sy_stallowed y))
  | ShPermit owner spender n valid =>
      let! _ := sk_require valid KPermitRejected in
      let! m := approve_in (sy_iallowed y) owner spender n in
      Ok (System (sy_staking y) m (sy_pallowed y) (sy_stallowed y))
  | ShDeposit assets receiver =>
      let! shares := i_preview_deposit K assets b in i_take K caller receiver assets shares y
  | ShMint shares receiver =>
      let! assets := mul_div_up shares (i_assets K b + 1) (bk_isupply b + 1) in
      i_take K caller receiver assets shares y
  | ShWithdraw assets receiver owner =>
      let! most := i_preview_redeem K (tk_balance (bk_iprove b) owner) b in
      let! _ := sk_require (assets <=? most) KExceededMaxRedeem in
      let! shares := mul_div_up assets (bk_isupply b + 1) (i_assets K b + 1) in
      i_give K caller receiver owner assets shares y
  | ShRedeem shares receiver owner =>
      let! _ := sk_require (shares <=? tk_balance (bk_iprove b) owner) KExceededMaxRedeem in
      let! assets := i_preview_redeem K shares b in
      i_give K caller receiver owner assets shares y
  | ShBurn from n =>
      let! _ := sk_require (caller =? ke_self K) KNonTransferable in
      let! (b1, _) := i_slash K from n b in
      Ok (sy_set_bank b1 y)
  | ShPull _ _ => Err KNonTransferable
  end.

(** ** Prover vaults *)

(** Allowances of a prover vault, contracts/src/tokens/SuccinctProver.sol 27 (ERC20). *)
Definition p_allowances (p : N) (y : system) : gmap (N * N) N := default ∅ (sy_pallowed y !! p).
(** Their assignment, contracts/src/tokens/SuccinctProver.sol 27 (ERC20). *)
Definition p_set_allowances (p : N) (m : gmap (N * N) N) (y : system) : system :=
  System (sy_staking y) (sy_iallowed y) (<[p := m]> (sy_pallowed y)) (sy_stallowed y).
(** [balanceOf] of a prover vault: all shares belong to the staking contract, as only it can have them moved
    (contracts/src/tokens/SuccinctProver.sol 127-133) and only to itself
    (contracts/src/SuccinctStaking.sol 531-591). *)
Definition p_balance (K : staking_env) (p a : N) (y : system) : N :=
  if a =? ke_self K then shares_of (sy_bank y) p else 0.

(** [_spendAllowance], contracts/src/tokens/SuccinctProver.sol 136-142. *)
Definition p_spend (K : staking_env) (p owner spender n : N) (y : system) : result system staking_error :=
  if spender =? ke_self K then Ok y
  else let! m := spend_in (p_allowances p y) owner spender n in Ok (p_set_allowances p m y).

(** [_mint] with [_update], contracts/src/tokens/SuccinctProver.sol 127-133.  Modelled are shares of the staking
    contract only. *)
Definition p_create (K : staking_env) (p caller to n : N) (y : system) : result system staking_error :=
  let! _ := sk_require (negb (to =? 0)) KInvalidAddress in
  let! _ := sk_require (caller =? ke_self K) KNonTransferable in
  let! supply := sk_add (shares_of (sy_bank y) p) n in
  Ok (sy_set_bank (bk_set_share p supply (sy_bank y)) y).
(** [_burn] with [_update], contracts/src/tokens/SuccinctProver.sol 127-133. *)
Definition p_destroy (K : staking_env) (p caller from n : N) (y : system) : result system staking_error :=
  let! _ := sk_require (negb (from =? 0)) KInvalidAddress in
  let! _ := sk_require (caller =? ke_self K) KNonTransferable in
  let! _ := sk_require (n <=? p_balance K p from y) (KToken TkInsufficientBalance) in
  Ok (sy_set_bank (bk_set_share p (shares_of (sy_bank y) p - n) (sy_bank y)) y).
(** [_transfer] with [_update], contracts/src/tokens/SuccinctProver.sol 127-133.  The staking contract makes no
    such transfer, so its effect is not modelled. *)
Definition p_move (K : staking_env) (p caller from to n : N) (y : system) : result system staking_error :=
  let! _ := sk_require (negb (from =? 0) && negb (to =? 0)) KInvalidAddress in
  let! _ := sk_require (caller =? ke_self K) KNonTransferable in
  let! _ := sk_require (n <=? p_balance K p from y) (KToken TkInsufficientBalance) in
  Ok y.

(** ERC4626 [_deposit] of a prover vault: the vault has $iPROVE transferred from the caller, then mints
    (contracts/src/tokens/SuccinctProver.sol 27). *)
Definition p_take (K : staking_env) (p caller receiver assets shares : N) (y : system) : result system staking_error :=
  let! y1 := iprove_call K p (ShTransferFrom caller p assets) y in
  p_create K p caller receiver shares y1.
(** ERC4626 [_withdraw] of a prover vault (contracts/src/tokens/SuccinctProver.sol 27). *)
Definition p_give (K : staking_env) (p caller receiver owner assets shares : N) (y : system)
    : result system staking_error :=
  let! y1 := if caller =? owner then Ok y else p_spend K p owner caller shares y in
  let! y2 := p_destroy K p caller owner shares y1 in
  iprove_call K p (ShTransfer receiver assets) y2.

(** A call of the vault of prover [p] by [caller], contracts/src/tokens/SuccinctProver.sol 27, 118-142.  It has
    neither permits nor [burn]. *)
Definition prover_call (K : staking_env) (p caller : N) (c : share_call) (y : system) : result system staking_error :=
  let b := sy_bank y in
  match c with
  | ShTransfer to n => p_move K p caller caller to n y
  | ShTransferFrom from to n => let! y1 := p_spend K p from caller n y in p_move K p caller from to n y1
  | ShApprove spender n =>
      let! m := approve_in (p_allowances p y) caller spender n in Ok (p_set_allowances p m y)
  | ShDeposit assets receiver =>
      let! supply1 := sk_add (shares_of b p) 1 in
      let! shares := mul_div assets supply1 (v_assets p b + 1) in
      p_take K p caller receiver assets shares y
  | ShMint shares receiver =>
      let! supply1 := sk_add (shares_of b p) 1 in
      let! assets := mul_div_up shares (v_assets p b + 1) supply1 in
      p_take K p caller receiver assets shares y
  | ShWithdraw assets receiver owner =>
      let! most := v_preview_redeem p (p_balance K p owner y) b in
      let! _ := sk_require (assets <=? most) KExceededMaxRedeem in
      let! supply1 := sk_add (shares_of b p) 1 in
      let! shares := mul_div_up assets supply1 (v_assets p b + 1) in
      p_give K p caller receiver owner assets shares y
  | ShRedeem shares receiver owner =>
      let! _ := sk_require (shares <=? p_balance K p owner y) KExceededMaxRedeem in
      let! assets := v_preview_redeem p shares b in
      p_give K p caller receiver owner assets shares y
  | ShPull from n =>
      let! _ := sk_require (caller =? ke_self K) KNonTransferable in
      let! t := sk_token (tk_transfer_from (bk_prove b) p from (ke_self K) n) in
      Ok (sy_set_bank (bk_set_prove t b) y)
  | ShPermit _ _ _ _ | ShBurn _ _ => Err KNonTransferable
  end.

(** ** $stPROVE *)

(** A call of $stPROVE by [caller] outside of a staking operation, contracts/src/tokens/StakedSuccinct.sol 17-55:
    ERC20 without permits; every movement reverts because [isStakingOperation] is not set. *)
Definition stprove_call (caller : N) (c : share_call) (y : system) : result system staking_error :=
  match c with
  | ShTransfer to n =>
      let! _ := sk_require (negb (caller =? 0) && negb (to =? 0)) KInvalidAddress in
      Err KNonTransferable
  | ShTransferFrom from to n =>
      let! _ := spend_in (sy_stallowed y) from caller n in
      let! _ := sk_require (negb (from =? 0) && negb (to =? 0)) KInvalidAddress in
      Err KNonTransferable
  | ShApprove spender n =>
      let! m := approve_in (sy_stallowed y) caller spender n in
      Ok (System (sy_staking y) (sy_iallowed y) (sy_pallowed y) m)
  | _ => Err KNonTransferable
  end.

(** A call of a receipt token.  At an address that is no registered prover there is no vault
    (contracts/src/libraries/ProverRegistry.sol 110-145). *)
Definition share_run (K : staking_env) (caller : N) (t : share_token) (c : share_call) (y : system)
    : result system staking_error :=
  match t with
  | ShIprove => iprove_call K caller c y
  | ShProver p => if is_prover (sy_staking y) p then prover_call K p caller c y else Err KProverNotFound
  | ShStprove => stprove_call caller c y
  end.

(** A call of the staking contract.  Creating a prover also gives it an unlimited allowance of the staking
    contract's $iPROVE, contracts/src/libraries/ProverRegistry.sol 140-142. *)
Definition system_run (K : staking_env) (x : staking_ctx) (c : staking_call) (y : system)
    : result (system * list staking_event) staking_error :=
  let! (s, evs) := staking_run K x c (sy_staking y) in
  let m := match c with
           | KCreateProver bips =>
               <[(ke_self K, ke_create2 K (kx_sender x) (rg_count (sk_registry s)) bips) := u256_max]> (sy_iallowed y)
           | _ => sy_iallowed y
           end in
  Ok (System s m (sy_pallowed y) (sy_stallowed y), evs).
