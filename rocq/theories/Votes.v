(** The votes of $iPROVE, contracts/src/tokens/IntermediateSuccinct.sol 30, 73-96, 111-117: ERC20Votes of
    OpenZeppelin 5.2 (.gitmodules 5-8; its source is not in the repository, modelled is the documented
    behaviour), and which movements of $iPROVE the calls of the staking contract make.

    Not modelled: the binary search in the checkpoints (modelled is what it looks for), delegation by signature
    (which does what [delegate] of the signer does), the limit of 2^32 checkpoints. *)
From Verif Require Export Staking.
Open Scope N_scope.

(** ** Movements *)

(** A call of [_update]: [n] $iPROVE from one account to another; from zero when minted, to zero when burned
    (contracts/src/tokens/IntermediateSuccinct.sol 73-76). *)
Record movement : Type := Movement { mv_from : N; mv_to : N; mv_amount : N }.

(** The movements that go with an event of the staking contract: those of [_stake]
    (contracts/src/SuccinctStaking.sol 561-569: a mint to the staking contract, then the deposit into the
    prover's vault), of [_escrowUnstakeRequest] (581-591) and of [_finishUnstakeRequest] (594-621). *)
Definition event_moves (K : staking_env) (ev : staking_event) : list movement :=
  match ev with
  | EvStake _ p _ i _ => [Movement 0 (ke_self K) i; Movement (ke_self K) p i]
  | EvUnstakeRequest _ p _ i => [Movement p (ke_self K) i]
  | EvUnstake _ _ _ i => if i =? 0 then [] else [Movement (ke_self K) 0 i]
  | _ => []
  end.
(** The burns of [finishSlash] for an event, contracts/src/SuccinctStaking.sol 452-469: from the escrow in
    proportion, the rest from the prover's vault; nothing is burned for zero. *)
Definition slash_moves (K : staking_env) (s : staking) (ev : staking_event) : list movement :=
  match ev with
  | EvSlash p _ amount _ =>
      let escrow := ep_escrow (pool_of s p) in
      let from_escrow := amount * escrow / (v_assets p (sk_bank s) + escrow) in
      (if from_escrow =? 0 then [] else [Movement (ke_self K) 0 from_escrow]) ++
      (if amount - from_escrow =? 0 then [] else [Movement p 0 (amount - from_escrow)])
  | _ => []
  end.
(** The movements of $iPROVE by an accepted call in state [s] that logged the events,
    contracts/src/SuccinctStaking.sol 248-523; a reward is a deposit for a prover
    (contracts/src/SuccinctVApp.sol 451-453). *)
Definition call_moves (K : staking_env) (c : staking_call) (s : staking) (evs : list staking_event) : list movement :=
  match c with
  | KReward p n => match i_preview_deposit K n (sk_bank s) with Ok i => [Movement 0 p i] | Err _ => [] end
  | KFinishSlash _ _ => flat_map (slash_moves K s) evs
  | _ => flat_map (event_moves K) evs
  end.

(** ** Checkpoints *)

(** Values with the time from which they hold, the oldest first (contracts/src/tokens/IntermediateSuccinct.sol 30:
    [Checkpoints.Trace208] of ERC20Votes). *)
Definition checkpoints : Type := list (N * N).
(** [latest], contracts/src/tokens/IntermediateSuccinct.sol 30 (ERC20Votes). *)
Definition latest (l : checkpoints) : N := match last l with Some (_, v) => v | None => 0 end.
(** [upperLookupRecent]: the value of the last checkpoint that is not later than [t],
    contracts/src/tokens/IntermediateSuccinct.sol 30 (ERC20Votes). *)
Fixpoint lookup_at (t : N) (l : checkpoints) : N :=
  match l with
  | [] => 0
  | (k, v) :: rest => if k <=? t then match rest with
                                      | (k', _) :: _ => if k' <=? t then lookup_at t rest else v
                                      | [] => v
                                      end
                      else 0
  end.
(** [push]: a checkpoint of the same time is overwritten, an earlier time is an error,
    contracts/src/tokens/IntermediateSuccinct.sol 30 (ERC20Votes). *)
Definition push (now v : N) (l : checkpoints) : option checkpoints :=
  match last l with
  | None => Some [(now, v)]
  | Some (k, _) =>
      if now <? k then None
      else if k =? now then Some (take (length l - 1) l ++ [(now, v)])
      else Some (l ++ [(now, v)])
  end.
(** Adding to the latest value and subtracting from it, with the checks for 208 bits,
    contracts/src/tokens/IntermediateSuccinct.sol 30 (ERC20Votes). *)
Definition push_add (now n : N) (l : checkpoints) : option checkpoints :=
  if latest l + n <? 2 ^ 208 then push now (latest l + n) l else None.
(** See [push_add], contracts/src/tokens/IntermediateSuccinct.sol 30 (ERC20Votes). *)
Definition push_sub (now n : N) (l : checkpoints) : option checkpoints :=
  if n <=? latest l then push now (latest l - n) l else None.

(** [clock], contracts/src/tokens/IntermediateSuccinct.sol 111-113. *)
Definition clock (now : N) : N := now mod 2 ^ 48.

(** ** Votes *)

(** The delegates, the votes of each delegate, and the total supply, over time
    (contracts/src/tokens/IntermediateSuccinct.sol 30: state of ERC20Votes). *)
Record votes : Type := Votes {
  vt_delegates : gmap N N;
  vt_votes : gmap N checkpoints;
  vt_total : checkpoints
}.
(** [delegates], contracts/src/tokens/IntermediateSuccinct.sol 30 (ERC20Votes). *)
Definition delegate_of (v : votes) (a : N) : N := default 0 (vt_delegates v !! a).
(** The checkpoints of a delegate, contracts/src/tokens/IntermediateSuccinct.sol 30 (ERC20Votes). *)
Definition votes_trace (v : votes) (a : N) : checkpoints := default [] (vt_votes v !! a).
(** [getVotes], contracts/src/tokens/IntermediateSuccinct.sol 30 (ERC20Votes). *)
Definition get_votes (v : votes) (a : N) : N := latest (votes_trace v a).
(** [getPastVotes]: only for times before the present, contracts/src/tokens/IntermediateSuccinct.sol 30
    (ERC20Votes). *)
Definition get_past_votes (now : N) (v : votes) (a t : N) : option N :=
  if t <? clock now then Some (lookup_at t (votes_trace v a)) else None.
(** [getPastTotalSupply], contracts/src/tokens/IntermediateSuccinct.sol 30 (ERC20Votes). *)
Definition get_past_supply (now : N) (v : votes) (t : N) : option N :=
  if t <? clock now then Some (lookup_at t (vt_total v)) else None.

(** One side of [_moveDelegateVotes]: no votes are kept for the zero address,
    contracts/src/tokens/IntermediateSuccinct.sol 30 (ERC20Votes). *)
Definition change_votes (change : checkpoints -> option checkpoints) (d : N) (v : votes) : option votes :=
  if d =? 0 then Some v
  else match change (votes_trace v d) with
       | Some l => Some (Votes (vt_delegates v) (<[d := l]> (vt_votes v)) (vt_total v))
       | None => None
       end.
(** [_moveDelegateVotes], contracts/src/tokens/IntermediateSuccinct.sol 30 (ERC20Votes). *)
Definition move_votes (now from to n : N) (v : votes) : option votes :=
  if (from =? to) || (n =? 0) then Some v
  else match change_votes (push_sub now n) from v with
       | Some v1 => change_votes (push_add now n) to v1
       | None => None
       end.
(** The total supply after a movement: [_transferVotingUnits], contracts/src/tokens/IntermediateSuccinct.sol 30
    (ERC20Votes). *)
Definition move_total (now : N) (m : movement) (l : checkpoints) : option checkpoints :=
  match (if mv_from m =? 0 then push_add now (mv_amount m) l else Some l) with
  | Some l1 => if mv_to m =? 0 then push_sub now (mv_amount m) l1 else Some l1
  | None => None
  end.
(** The part of [_update] about votes, contracts/src/tokens/IntermediateSuccinct.sol 95 (ERC20Votes). *)
Definition vote_move (now : N) (m : movement) (v : votes) : option votes :=
  match move_total now m (vt_total v) with
  | Some l => move_votes now (delegate_of v (mv_from m)) (delegate_of v (mv_to m)) (mv_amount m)
                (Votes (vt_delegates v) (vt_votes v) l)
  | None => None
  end.
(** The movements of a call, one after the other, contracts/src/tokens/IntermediateSuccinct.sol 95. *)
Fixpoint vote_moves (now : N) (l : list movement) (v : votes) : option votes :=
  match l with
  | [] => Some v
  | m :: rest => match vote_move now m v with Some v1 => vote_moves now rest v1 | None => None end
  end.
(** [delegate] by an account with this balance of $iPROVE, contracts/src/tokens/IntermediateSuccinct.sol 30
    (ERC20Votes). *)
Definition delegate (now a d balance : N) (v : votes) : option votes :=
  move_votes now (delegate_of v a) d balance (Votes (<[a := d]> (vt_delegates v)) (vt_votes v) (vt_total v)).
