(** Vocabulary for the properties of the receipt tokens. *)
From Verif Require Export Shares StakingSpec.
Open Scope N_scope.

(** The allowance that [owner] has given to [spender] for a receipt token. *)
Definition granted (y : system) (t : share_token) (owner spender : N) : N :=
  match t with
  | ShIprove => default 0 (sy_iallowed y !! (owner, spender))
  | ShProver p => default 0 (default ∅ (sy_pallowed y !! p) !! (owner, spender))
  | ShStprove => default 0 (sy_stallowed y !! (owner, spender))
  end.

(** Anyone who is not one of the contracts: neither the staking contract, nor the $iPROVE vault, nor the
    settlement contract, nor a prover. *)
Definition bystander (K : staking_env) (y : system) (a : N) : Prop :=
  outside K a /\ a <> ke_vapp K /\ a ∉ rg_provers (sk_registry (sy_staking y)).

(** Contracts sign no permits. *)
Definition signed_outside (K : staking_env) (c : share_call) : Prop :=
  match c with ShPermit owner _ _ _ => outside K owner | _ => True end.

(** Logs: calls of the staking contract, of the $PROVE token, and of the receipt tokens. *)
Inductive sys_entry : Type :=
| YStaking (e : stk_entry)
| YShares (caller : N) (t : share_token) (c : share_call) (accepted : bool).

Inductive sys_history (K : staking_env) : system -> list sys_entry -> system -> Prop :=
| yh_nil y : sys_history K y [] y
| yh_accepted y x c y1 evs log y' :
    system_run K x c y = Ok (y1, evs) -> sys_history K y1 log y' ->
    sys_history K y (YStaking (KAccepted x c evs (sy_staking y1)) :: log) y'
| yh_reverted y x c e log y' :
    system_run K x c y = Err e -> sys_history K y log y' ->
    sys_history K y (YStaking (KReverted x c e) :: log) y'
| yh_token y o t log y' :
    run_token_op (bk_prove (sy_bank y)) o = Ok t ->
    sys_history K (sy_set_bank (bk_set_prove t (sy_bank y)) y) log y' ->
    sys_history K y (YStaking (KTokenOp o) :: log) y'
| yh_shares y a t c y1 log y' :
    bystander K y a -> signed_outside K c -> share_run K a t c y = Ok y1 -> sys_history K y1 log y' ->
    sys_history K y (YShares a t c true :: log) y'
| yh_shares_reverted y a t c e log y' :
    bystander K y a -> share_run K a t c y = Err e -> sys_history K y log y' ->
    sys_history K y (YShares a t c false :: log) y'.

(** The part of a log that the staking contract sees. *)
Definition staking_part (log : list sys_entry) : list stk_entry :=
  flat_map (fun e => match e with YStaking e => [e] | YShares _ _ _ _ => [] end) log.

(** A deployment, followed by any calls. *)
Record sys_run (K : staking_env) (log : list sys_entry) (y : system) : Prop := {
  syr_addresses : stk_addresses_ok K;
  syr_start : exists prove owner governor prove_address dispenser s0,
    (forall a, tk_allowance prove (ke_self K) a = 0 /\ tk_allowance prove (ke_iprove K) a = 0) /\
    staking_initialize K prove owner governor prove_address dispenser = Some s0 /\
    sys_history K (System s0 ∅ ∅ ∅) log y;
  syr_outside : Forall (by_outsider K) (staking_part log)
}.

(** The outcome of an operation on the token balances, as an outcome of a call. *)
Definition lifted (y : system) (r : result (bank * N) staking_error) : result system staking_error :=
  match r with
  | Ok (b, _) => Ok (System (sk_set_bank b (sy_staking y)) (sy_iallowed y) (sy_pallowed y) (sy_stallowed y))
  | Err e => Err e
  end.
