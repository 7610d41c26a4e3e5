(** The $PROVE token, contracts/src/tokens/Succinct.sol.

    Succinct.sol inherits ERC20, ERC20Permit and ERC20Burnable of OpenZeppelin 5, whose source is not in
    the repository (contracts/lib is empty); modelled here is their documented behaviour.  Balances are
    unbounded numbers: OpenZeppelin's additions cannot overflow because the total supply is checked. *)
From Verif Require Export Base Fee.
Open Scope N_scope.

(** Balances and allowances, contracts/src/tokens/Succinct.sol 20 (state of ERC20). *)
Record token : Type := Token {
  tk_balances : gmap N N;
  tk_allowances : gmap (N * N) N
}.

(** [balanceOf], contracts/src/tokens/Succinct.sol 20 (ERC20). *)
Definition tk_balance (t : token) (a : N) : N := default 0 (tk_balances t !! a).
(** [allowance], contracts/src/tokens/Succinct.sol 20 (ERC20). *)
Definition tk_allowance (t : token) (owner spender : N) : N :=
  default 0 (tk_allowances t !! (owner, spender)).

(** Why the token reverts.  (contracts/src/tokens/Succinct.sol 20: errors of ERC20.) *)
Inductive token_error : Type := TkInvalidAddress | TkInsufficientBalance | TkInsufficientAllowance.

(** [type(uint256).max].  (contracts/src/tokens/Succinct.sol 20: an unlimited allowance of ERC20.) *)
Definition u256_max : N := two256 - 1.

(** [ERC20._transfer], contracts/src/tokens/Succinct.sol 20: the zero address neither sends nor
    receives. *)
Definition tk_transfer (t : token) (from to amount : N) : result token token_error :=
  if (from =? 0) || (to =? 0) then Err TkInvalidAddress
  else if tk_balance t from <? amount then Err TkInsufficientBalance
  else
    let b1 := <[from := tk_balance t from - amount]> (tk_balances t) in
    let b2 := <[to := default 0 (b1 !! to) + amount]> b1 in
    Ok (Token b2 (tk_allowances t)).

(** [ERC20._approve], contracts/src/tokens/Succinct.sol 20. *)
Definition tk_approve (t : token) (owner spender amount : N) : token :=
  Token (tk_balances t) (<[(owner, spender) := amount]> (tk_allowances t)).

(** [ERC20._spendAllowance]: the maximal allowance is unlimited, contracts/src/tokens/Succinct.sol 20. *)
Definition tk_spend (t : token) (owner spender amount : N) : result token token_error :=
  let current := tk_allowance t owner spender in
  if current =? u256_max then Ok t
  else if current <? amount then Err TkInsufficientAllowance
  else Ok (tk_approve t owner spender (current - amount)).

(** [ERC20.transferFrom] called by [spender], contracts/src/tokens/Succinct.sol 20. *)
Definition tk_transfer_from (t : token) (spender from to amount : N) : result token token_error :=
  match tk_spend t from spender amount with
  | Ok t1 => tk_transfer t1 from to amount
  | Err e => Err e
  end.

(** [ERC20Burnable.burn] called by [from], contracts/src/tokens/Succinct.sol 20. *)
Definition tk_burn (t : token) (from amount : N) : result token token_error :=
  if tk_balance t from <? amount then Err TkInsufficientBalance
  else Ok (Token (<[from := tk_balance t from - amount]> (tk_balances t)) (tk_allowances t)).

(** [mint], contracts/src/tokens/Succinct.sol 23-25 (the caller's right to mint is not modelled). *)
Definition tk_mint (t : token) (to amount : N) : token :=
  Token (<[to := tk_balance t to + amount]> (tk_balances t)) (tk_allowances t).

(** Calls of the token, contracts/src/tokens/Succinct.sol 20-25 (ERC20, ERC20Burnable, [mint]). *)
Inductive token_op : Type :=
| OTransfer (by_ to amount : N)
| OTransferFrom (spender from to amount : N)
| OApprove (owner spender amount : N)
| OBurn (by_ amount : N)
| OBurnFrom (spender from amount : N)
| OMint (to amount : N).

(** Their dispatch, contracts/src/tokens/Succinct.sol 20-25. *)
Definition run_token_op (t : token) (o : token_op) : result token token_error :=
  match o with
  | OTransfer by_ to amount => tk_transfer t by_ to amount
  | OTransferFrom spender from to amount => tk_transfer_from t spender from to amount
  | OApprove owner spender amount => Ok (tk_approve t owner spender amount)
  | OBurn by_ amount => tk_burn t by_ amount
  | OBurnFrom spender from amount =>
      match tk_spend t from spender amount with Ok t1 => tk_burn t1 from amount | Err e => Err e end
  | OMint to amount => Ok (tk_mint t to amount)
  end.
