(** Vocabulary for the properties of the staking contract. *)
From Verif Require Export Staking.
Open Scope N_scope.

(** ** Logs of calls *)

(** An accepted call with its events and the state after it, a reverted call, or a call of the $PROVE
    token by anyone. *)
Inductive stk_entry : Type :=
| KAccepted (x : staking_ctx) (c : staking_call) (evs : list staking_event) (after : staking)
| KReverted (x : staking_ctx) (c : staking_call) (e : staking_error)
| KTokenOp (o : token_op).

Inductive stk_history (K : staking_env) : staking -> list stk_entry -> staking -> Prop :=
| kh_nil s : stk_history K s [] s
| kh_accepted s x c s1 evs log s' :
    staking_run K x c s = Ok (s1, evs) -> stk_history K s1 log s' ->
    stk_history K s (KAccepted x c evs s1 :: log) s'
| kh_reverted s x c e log s' :
    staking_run K x c s = Err e -> stk_history K s log s' ->
    stk_history K s (KReverted x c e :: log) s'
| kh_token s o t log s' :
    run_token_op (bk_prove (sk_bank s)) o = Ok t ->
    stk_history K (sk_set_bank (bk_set_prove t (sk_bank s)) s) log s' ->
    stk_history K s (KTokenOp o :: log) s'.

(** ** Who acts *)

(** The addresses of a deployment are different from each other where they must be. *)
Record stk_addresses_ok (K : staking_env) : Prop := {
  sao_self : ke_self K <> 0;
  sao_iprove : ke_iprove K <> 0;
  sao_distinct : ke_self K <> ke_iprove K;
  sao_vapp : ke_vapp K <> ke_self K /\ ke_vapp K <> ke_iprove K;
  sao_create2 : forall o n f, ke_create2 K o n f <> 0 /\ ke_create2 K o n f <> ke_self K /\
    ke_create2 K o n f <> ke_iprove K
}.

Definition outside (K : staking_env) (a : N) : Prop := a <> ke_self K /\ a <> ke_iprove K.

(** The staking contract and the $iPROVE vault do nothing but what their code says: they call nothing on
    their own and sign no permits. *)
Definition by_outsider (K : staking_env) (e : stk_entry) : Prop :=
  match e with
  | KAccepted x c _ _ =>
      outside K (kx_sender x) /\
      match c with KPermitAndStake _ from _ => outside K from | _ => True end
  | KReverted _ _ _ => True
  | KTokenOp o =>
      match o with
      | OTransfer a _ _ | OTransferFrom a _ _ _ | OApprove a _ _ | OBurn a _ | OBurnFrom a _ _ => outside K a
      | OMint _ _ => True
      end
  end.

(** A deployment, followed by any calls. *)
Record stk_run (K : staking_env) (log : list stk_entry) (s : staking) : Prop := {
  skr_addresses : stk_addresses_ok K;
  skr_start : exists prove owner governor prove_address dispenser s0,
    (forall a, tk_allowance prove (ke_self K) a = 0 /\ tk_allowance prove (ke_iprove K) a = 0) /\
    staking_initialize K prove owner governor prove_address dispenser = Some s0 /\
    stk_history K s0 log s;
  skr_outside : Forall (by_outsider K) log
}.

(** ** Sums *)

Definition map_total {V} (f : N -> V -> N) (m : gmap N V) : N := map_fold (fun k v acc => f k v + acc) 0 m.
Definition list_total {X} (f : X -> N) (l : list X) : N := fold_right (fun x acc => f x + acc) 0 l.

(** All that is escrowed, over all provers. *)
Definition all_escrow (s : staking) : N := map_total (fun _ pool => ep_escrow pool) (sk_pools s).

(** The events of a log, in order. *)
Definition events (log : list stk_entry) : list staking_event :=
  flat_map (fun e => match e with KAccepted _ _ evs _ => evs | _ => [] end) log.

(** $iPROVE put into escrow, paid out of escrow, and slashed in total, for prover [p]. *)
Definition ev_requested (p : N) (ev : staking_event) : N :=
  match ev with EvUnstakeRequest _ q _ i => if q =? p then i else 0 | _ => 0 end.
Definition ev_paid (p : N) (ev : staking_event) : N :=
  match ev with EvUnstake _ q _ i => if q =? p then i else 0 | _ => 0 end.
Definition ev_slashed (p : N) (ev : staking_event) : N :=
  match ev with EvSlash q _ i _ => if q =? p then i else 0 | _ => 0 end.
(** Requests made and claims finished by staker [a]. *)
Definition is_request (a : N) (ev : staking_event) : N :=
  match ev with EvUnstakeRequest b _ _ _ => if b =? a then 1 else 0 | _ => 0 end.
Definition is_unstake (a : N) (ev : staking_event) : N :=
  match ev with EvUnstake b _ _ _ => if b =? a then 1 else 0 | _ => 0 end.
(** $PROVE paid out for a claim. *)
Definition ev_prove (ev : staking_event) : N := match ev with EvUnstake _ _ n _ => n | _ => 0 end.
(** $PROVE dispensed. *)
Definition ev_dispensed (ev : staking_event) : N := match ev with EvDispense n => n | _ => 0 end.

(** ** Slash requests *)

(** Entry [e] cancels or finishes slash request [i] of prover [p]. *)
Definition resolves (p i : N) (e : stk_entry) : N :=
  match e with
  | KAccepted _ (KCancelSlash q j) _ _ | KAccepted _ (KFinishSlash q j) _ _ =>
      if (q =? p) && (j =? i) then 1 else 0
  | _ => 0
  end.

(** Prover [p] has a slash request that is neither cancelled nor finished. *)
Definition slash_pending (s : staking) (p : N) : Prop :=
  exists c, c ∈ slashes_of s p /\ sc_resolved c = false.

(** Anyone may cancel the slash request: the governor had the time to vote on it. *)
Definition cancellable (K : staking_env) (x : staking_ctx) (c : slash_claim) : Prop :=
  sc_time c + ke_cancel_period K + kx_voting_delay x + kx_voting_period x <= kx_time x.

(** How a call may change the slash requests of [p] from [l] to [l']. *)
Inductive slashes_change (K : staking_env) (x : staking_ctx) (owner : N) (l l' : list slash_claim) : Prop :=
| sc_requested n : kx_sender x = ke_vapp K -> n <> 0 ->
    l' = l ++ [SlashClaim n (kx_time x) false] -> slashes_change K x owner l l'
| sc_settled i c : l !! i = Some c -> sc_resolved c = false ->
    kx_sender x = owner \/ cancellable K x c ->
    l' = <[i := SlashClaim (sc_amount c) (sc_time c) true]> l -> slashes_change K x owner l l'.

(** ** Claims *)

(** The claim may be finished at time [now]. *)
Definition matured (K : staking_env) (now : N) (c : unstake_claim) : Prop :=
  uc_time c + ke_unstake_period K <= now.

(** What a claim is worth at slash factor [factor]: its escrow, reduced in proportion to the slashes since
    it was made. *)
Definition claim_value (factor : N) (c : unstake_claim) : N := uc_escrow c * factor / uc_factor c.

(** No slash of [p] left it with slash factor zero (by burning everything, or by rounding). *)
Definition not_wiped (p : N) (e : stk_entry) : Prop :=
  match e with
  | KAccepted _ (KFinishSlash q _) _ after => q = p -> ep_factor (pool_of after p) <> 0
  | _ => True
  end.

(** The values of all claims on prover [p]. *)
Definition all_claims_value (s : staking) (p : N) : N :=
  map_total (fun a l => if bound_to s a =? p
                        then list_total (claim_value (ep_factor (pool_of s p))) l else 0) (sk_claims s).

(** ** Stakes *)

(** $stPROVE of all stakers bound to [p]. *)
Definition stakes_on (s : staking) (p : N) : N :=
  map_total (fun a n => if bound_to s a =? p then n else 0) (bk_stakes (sk_bank s)).

(** What [n] shares of a vault are paid, and the shares issued for a payment of [n], when the vault has [assets]
    and [shares] have been issued: in proportion, with one unit added on both sides, rounded down. *)
Definition redeemed (n assets shares : N) : N := n * (assets + 1) / (shares + 1).
Definition issued (n assets shares : N) : N := n * (shares + 1) / (assets + 1).

(** $iPROVE that [n] $stPROVE staked on [p] are worth. *)
Definition share_worth (s : staking) (p n : N) : N :=
  redeemed n (tk_balance (bk_iprove (sk_bank s)) p) (stakes_on s p).
(** $PROVE that [n] $iPROVE are worth. *)
Definition iprove_worth (K : staking_env) (s : staking) (n : N) : N :=
  redeemed n (tk_balance (bk_prove (sk_bank s)) (ke_iprove K)) (bk_isupply (sk_bank s)).

(** $PROVE that the open claims of [a] are worth, one by one. *)
Definition pending_worth (K : staking_env) (s : staking) (a : N) : N :=
  list_total (fun c => iprove_worth K s (claim_value (ep_factor (pool_of s (bound_to s a))) c)) (claims_of s a).

(** [a] takes nothing out: no accepted unstake request by [a]. *)
Definition no_request_by (a : N) (e : stk_entry) : Prop :=
  match e with KAccepted x (KRequestUnstake _) _ _ => kx_sender x <> a | _ => True end.
(** [p] is not slashed. *)
Definition no_slash_of (p : N) (e : stk_entry) : Prop :=
  match e with KAccepted _ (KFinishSlash q _) _ _ => q <> p | _ => True end.

(** A share of the vault of [p] is worth less than the minimum ($iPROVE 10^-9 for 1). *)
Definition below_min (p : N) (b : bank) : Prop :=
  shares_of b p <> 0 /\ v_assets p b * 10 ^ 18 / shares_of b p < min_price_per_share.

(** ** Rewards *)

Definition entry_time (e : stk_entry) : option N :=
  match e with KAccepted x _ _ _ => Some (kx_time x) | _ => None end.

(** Accepted calls happen in the order of their times, and none after [now]. *)
Fixpoint in_order (since : N) (log : list stk_entry) (now : N) : Prop :=
  match log with
  | [] => since <= now
  | KAccepted x _ _ _ :: rest => since <= kx_time x /\ in_order (kx_time x) rest now
  | _ :: rest => in_order since rest now
  end.

(** The dispense rate in force during the second that starts at [t]: the one set last, at time [t] or
    before; zero if none was. *)
Fixpoint rate_at (rate : N) (log : list stk_entry) (t : N) : N :=
  match log with
  | [] => rate
  | KAccepted x (KUpdateRate r) _ _ :: rest => rate_at (if kx_time x <=? t then r else rate) rest t
  | _ :: rest => rate_at rate rest t
  end.

(** All rewards earned from time 0 to [now], second by second. *)
Definition earned (log : list stk_entry) (now : N) : N :=
  list_total (fun n => rate_at 0 log (N.of_nat n)) (seq 0 (N.to_nat now)).
