(** The governor, contracts/src/SuccinctGovernor.sol 26-73, and how provers take part in governance,
    contracts/src/tokens/SuccinctProver.sol 46-111.

    The governor inherits Governor, GovernorSettings, GovernorCountingSimple, GovernorVotes and
    GovernorVotesQuorumFraction of OpenZeppelin 5.2 (.gitmodules 5-8; the source is not in the repository,
    modelled is the documented behaviour).

    Not modelled: Ether, votes and delegations by signature (which do what the signer's own call does), reasons,
    [relay], and actions that call the governor's functions for proposals and votes or the votes of $iPROVE. *)
From Verif Require Export VApp Votes.
Open Scope N_scope.

(** What a proposal does when executed: a call of the staking contract, a change of the governor's settings
    (contracts/src/SuccinctGovernor.sol 28, 31: [setVotingDelay], [setVotingPeriod], [setProposalThreshold],
    [updateQuorumNumerator]), a call of $PROVE, a call of the settlement contract, or a call of another contract. *)
Inductive gov_action : Type :=
| GaStaking (c : staking_call)
| GaDelay (n : N)
| GaPeriod (n : N)
| GaThreshold (n : N)
| GaQuorum (n : N)
| GaToken (o : token_op)
| GaVApp (c : l1_call)
| GaOther (target : N).

(** A proposal with its votes (contracts/src/SuccinctGovernor.sol 27, 29: state of Governor and
    GovernorCountingSimple). *)
Record proposal : Type := Proposal {
  pr_proposer : N;
  pr_start : N;
  pr_duration : N;
  pr_executed : bool;
  pr_canceled : bool;
  pr_against : N;
  pr_for : N;
  pr_abstain : N;
  pr_voted : gset N
}.
(** Storage of the governor, contracts/src/SuccinctGovernor.sol 26-45: settings, the quorum in percent over time,
    and the proposals by number. *)
Record governor : Type := Governor {
  gv_delay : N;
  gv_period : N;
  gv_threshold : N;
  gv_quorum : checkpoints;
  gv_proposals : gmap N proposal
}.

(** The constants of the deployment: those of staking, the address of the governor, the number of a proposal (a
    hash of its actions and its description), and to which proposer a description restricts it
    (contracts/src/SuccinctGovernor.sol 27: [hashProposal] and [_isValidDescriptionForProposer] of Governor). *)
Record gov_env : Type := GovEnv {
  ge_staking : staking_env;
  ge_self : N;
  ge_id : list gov_action -> N -> N;
  ge_restricted : N -> option N
}.

(** Everything together: contracts/src/SuccinctStaking.sol, tokens/IntermediateSuccinct.sol and
    SuccinctGovernor.sol 26. *)
Record world : Type := World {
  w_staking : staking;
  w_votes : votes;
  w_governor : governor
}.

(** Why a call reverts, contracts/src/interfaces/IProver.sol 5-14 and the errors of Governor
    (contracts/src/SuccinctGovernor.sol 27). *)
Inductive gov_error : Type :=
| GStaking (e : staking_error) | GToken (e : token_error) | GVotes | GNoProver | GNotProverOwner | GFutureLookup
| GRestricted | GInsufficientVotes | GInvalidLength | GExists | GNonexistent | GUnexpectedState | GOnlyProposer
| GAlreadyVoted | GInvalidVoteType | GInvalidPeriod | GInvalidQuorum | GOverflow | GActionFailed.

(** A revert inside a call propagates (EVM; as in contracts/src/tokens/SuccinctProver.sol 90, 100, 110). *)
Definition gv_bind {X Y} (r : result X gov_error) (f : X -> result Y gov_error) : result Y gov_error :=
  match r with Ok x => f x | Err e => Err e end.
Notation "'gov!' x := m 'in' k" := (gv_bind m (fun x => k))
  (at level 200, x pattern, m at level 100, k at level 200, right associativity).
(** [if (!b) revert e], as in contracts/src/tokens/SuccinctProver.sol 47. *)
Definition gv_require (b : bool) (e : gov_error) : result unit gov_error := if b then Ok tt else Err e.
(** A reverting call of the votes, contracts/src/SuccinctGovernor.sol 30. *)
Definition gv_option {X} (o : option X) (e : gov_error) : result X gov_error :=
  match o with Some x => Ok x | None => Err e end.

(** Assignment of the proposals, contracts/src/SuccinctGovernor.sol 27. *)
Definition gv_set_proposal (id : N) (p : proposal) (g : governor) : governor :=
  Governor (gv_delay g) (gv_period g) (gv_threshold g) (gv_quorum g) (<[id := p]> (gv_proposals g)).
(** Assignment of the governor, contracts/src/SuccinctGovernor.sol 26. *)
Definition w_set_governor (g : governor) (w : world) : world := World (w_staking w) (w_votes w) g.

(** ** Staking with votes *)

(** What the staking contract sees of the chain: delay and period are the governor's,
    contracts/src/SuccinctStaking.sol 403-404. *)
Definition ctx_in (w : world) (x : staking_ctx) : staking_ctx :=
  StakingCtx (kx_sender x) (kx_time x) (gv_delay (w_governor w)) (gv_period (w_governor w))
    (kx_permit_valid x) (kx_vapp_accepts x).
(** A call of the staking contract, with its effect on the votes of $iPROVE
    (contracts/src/tokens/IntermediateSuccinct.sol 95).  A new prover delegates its votes to itself,
    contracts/src/tokens/SuccinctProver.sol 80, in its constructor
    (contracts/src/libraries/ProverRegistry.sol 124-132). *)
Definition staking_step (G : gov_env) (x : staking_ctx) (c : staking_call) (w : world) : result world gov_error :=
  match staking_run (ge_staking G) (ctx_in w x) c (w_staking w) with
  | Err e => Err (GStaking e)
  | Ok (s, evs) =>
      let now := clock (kx_time x) in
      gov! v := gv_option (vote_moves now (call_moves (ge_staking G) c (w_staking w) evs) (w_votes w)) GVotes in
      gov! v1 :=
        match c with
        | KCreateProver bips =>
            let p := ke_create2 (ge_staking G) (kx_sender x) (rg_count (sk_registry s)) bips in
            gv_option (delegate now p p (tk_balance (bk_iprove (sk_bank s)) p) v) GVotes
        | _ => Ok v
        end in
      Ok (World s v1 (w_governor w))
  end.
(** A call of $PROVE, contracts/src/tokens/Succinct.sol 20-25. *)
Definition token_step (o : token_op) (w : world) : result world gov_error :=
  match run_token_op (bk_prove (sk_bank (w_staking w))) o with
  | Err e => Err (GToken e)
  | Ok t => Ok (World (sk_set_bank (bk_set_prove t (sk_bank (w_staking w))) (w_staking w)) (w_votes w) (w_governor w))
  end.

(** ** Proposals *)

(** [ProposalState], contracts/src/SuccinctGovernor.sol 27 (Governor; without a timelock nothing is queued or
    expires). *)
Inductive proposal_state : Type := PsPending | PsActive | PsCanceled | PsDefeated | PsSucceeded | PsExecuted.

(** [quorum], contracts/src/SuccinctGovernor.sol 57-64: a part of the supply at that time, by the numerator at that
    time. *)
Definition quorum_at (now t : N) (w : world) : result N gov_error :=
  gov! supply := gv_option (get_past_supply now (w_votes w) t) GFutureLookup in
  Ok (supply * lookup_at t (gv_quorum (w_governor w)) / 100).
(** [state], contracts/src/SuccinctGovernor.sol 27, 29 (Governor, with [_quorumReached] and [_voteSucceeded] of
    GovernorCountingSimple). *)
Definition state_of (now id : N) (w : world) : result proposal_state gov_error :=
  gov! p := gv_option (gv_proposals (w_governor w) !! id) GNonexistent in
  if pr_executed p then Ok PsExecuted
  else if pr_canceled p then Ok PsCanceled
  else if pr_start p =? 0 then Err GNonexistent
  else if clock now <=? pr_start p then Ok PsPending
  else if clock now <=? pr_start p + pr_duration p then Ok PsActive
  else
    gov! quorum := quorum_at now (pr_start p) w in
    if (quorum <=? pr_for p + pr_abstain p) && (pr_against p <? pr_for p) then Ok PsSucceeded else Ok PsDefeated.
(** [_validateStateBitmap], contracts/src/SuccinctGovernor.sol 27 (Governor). *)
Definition in_state (now id : N) (wanted : proposal_state -> bool) (w : world) : result unit gov_error :=
  gov! st := state_of now id w in gv_require (wanted st) GUnexpectedState.

(** [propose] by [proposer], contracts/src/SuccinctGovernor.sol 27 (Governor). *)
Definition propose (G : gov_env) (now proposer : N) (actions : list gov_action) (desc : N) (w : world)
    : result world gov_error :=
  let g := w_governor w in
  gov! _ := gv_require (match ge_restricted G desc with Some a => a =? proposer | None => true end) GRestricted in
  gov! _ :=
    (if gv_threshold g =? 0 then Ok tt
     else
       gov! _ := gv_require (negb (clock now =? 0)) GOverflow in
       gov! power := gv_option (get_past_votes now (w_votes w) proposer (clock now - 1)) GFutureLookup in
       gv_require (negb (power <? gv_threshold g)) GInsufficientVotes) in
  let id := ge_id G actions desc in
  gov! _ := gv_require (negb (length actions =? 0)%nat) GInvalidLength in
  gov! _ := gv_require (match gv_proposals g !! id with Some p => pr_start p =? 0 | None => true end) GExists in
  let start := clock now + gv_delay g in
  gov! _ := gv_require (start <? 2 ^ 48) GOverflow in
  gov! _ := gv_require (gv_period g <? 2 ^ 32) GOverflow in
  Ok (w_set_governor (gv_set_proposal id (Proposal proposer start (gv_period g) false false 0 0 0 ∅) g) w).

(** [cancel] by [caller]: only the proposer, before the vote starts, contracts/src/SuccinctGovernor.sol 27
    (Governor). *)
Definition cancel_proposal (G : gov_env) (now caller : N) (actions : list gov_action) (desc : N) (w : world)
    : result world gov_error :=
  let id := ge_id G actions desc in
  gov! _ := in_state now id (fun st => match st with PsPending => true | _ => false end) w in
  gov! p := gv_option (gv_proposals (w_governor w) !! id) GNonexistent in
  gov! _ := gv_require (caller =? pr_proposer p) GOnlyProposer in
  Ok (w_set_governor (gv_set_proposal id
        (Proposal (pr_proposer p) (pr_start p) (pr_duration p) (pr_executed p) true (pr_against p) (pr_for p)
           (pr_abstain p) (pr_voted p)) (w_governor w)) w).

(** [castVote] by [voter], contracts/src/SuccinctGovernor.sol 27, 29 (Governor, [_countVote] of
    GovernorCountingSimple): 0 against, 1 for, 2 abstain. *)
Definition cast_vote (now voter id support : N) (w : world) : result world gov_error :=
  gov! _ := in_state now id (fun st => match st with PsActive => true | _ => false end) w in
  gov! p := gv_option (gv_proposals (w_governor w) !! id) GNonexistent in
  gov! weight := gv_option (get_past_votes now (w_votes w) voter (pr_start p)) GFutureLookup in
  gov! _ := gv_require (negb (bool_decide (voter ∈ pr_voted p))) GAlreadyVoted in
  gov! _ := gv_require (support <=? 2) GInvalidVoteType in
  let add k n := if support =? k then n + weight else n in
  gov! _ := gv_require ((add 0 (pr_against p) <? two256) && (add 1 (pr_for p) <? two256) &&
                        (add 2 (pr_abstain p) <? two256)) GOverflow in
  Ok (w_set_governor (gv_set_proposal id
        (Proposal (pr_proposer p) (pr_start p) (pr_duration p) (pr_executed p) (pr_canceled p)
           (add 0 (pr_against p)) (add 1 (pr_for p)) (add 2 (pr_abstain p)) ({[voter]} ∪ pr_voted p))
        (w_governor w)) w).

(** Who calls $PROVE, contracts/src/tokens/Succinct.sol 20-25; minting is for its owner. *)
Definition token_caller (o : token_op) : option N :=
  match o with
  | OTransfer a _ _ | OTransferFrom a _ _ _ | OApprove a _ _ | OBurn a _ | OBurnFrom a _ _ => Some a
  | OMint _ _ => None
  end.
(** One action of a proposal, called by the governor, contracts/src/SuccinctGovernor.sol 27, 28, 31: the settings
    have 48, 32 and 256 bits, a period of zero and a quorum above 100 percent are refused.  Calls of other
    contracts succeed if [others], calls of the settlement contract if it accepts them (Network.v).  (Rewards are
    paid by the settlement contract, not by a call of staking.) *)
Definition run_action (G : gov_env) (x : staking_ctx) (others : bool) (a : gov_action) (w : world)
    : result world gov_error :=
  let g := w_governor w in
  match a with
  | GaStaking (KReward _ _) => Err GActionFailed
  | GaStaking c => staking_step G (StakingCtx (ge_self G) (kx_time x) 0 0 (kx_permit_valid x) (kx_vapp_accepts x)) c w
  | GaDelay n =>
      gov! _ := gv_require (n <? 2 ^ 48) GOverflow in
      Ok (w_set_governor (Governor n (gv_period g) (gv_threshold g) (gv_quorum g) (gv_proposals g)) w)
  | GaPeriod n =>
      gov! _ := gv_require (n <? 2 ^ 32) GOverflow in
      gov! _ := gv_require (negb (n =? 0)) GInvalidPeriod in
      Ok (w_set_governor (Governor (gv_delay g) n (gv_threshold g) (gv_quorum g) (gv_proposals g)) w)
  | GaThreshold n =>
      gov! _ := gv_require (n <? two256) GOverflow in
      Ok (w_set_governor (Governor (gv_delay g) (gv_period g) n (gv_quorum g) (gv_proposals g)) w)
  | GaQuorum n =>
      gov! _ := gv_require (n <=? 100) GInvalidQuorum in
      gov! l := gv_option (push (clock (kx_time x)) n (gv_quorum g)) GVotes in
      Ok (w_set_governor (Governor (gv_delay g) (gv_period g) (gv_threshold g) l (gv_proposals g)) w)
  | GaToken o =>
      gov! _ := gv_require (match token_caller o with Some b => b =? ge_self G | None => false end) GActionFailed in
      token_step o w
  | GaVApp _ => gov! _ := gv_require (kx_vapp_accepts x) GActionFailed in Ok w
  | GaOther _ => gov! _ := gv_require others GActionFailed in Ok w
  end.
(** The actions in order; if one fails, all are undone, contracts/src/SuccinctGovernor.sol 27 (Governor). *)
Fixpoint run_actions (G : gov_env) (x : staking_ctx) (others : bool) (l : list gov_action) (w : world)
    : result world gov_error :=
  match l with
  | [] => Ok w
  | a :: rest => gov! w1 := run_action G x others a w in run_actions G x others rest w1
  end.
(** [execute], by anyone, contracts/src/SuccinctGovernor.sol 27 (Governor). *)
Definition execute_proposal (G : gov_env) (x : staking_ctx) (others : bool) (actions : list gov_action) (desc : N) (w : world)
    : result world gov_error :=
  let id := ge_id G actions desc in
  gov! _ := in_state (kx_time x) id (fun st => match st with PsSucceeded => true | _ => false end) w in
  gov! p := gv_option (gv_proposals (w_governor w) !! id) GNonexistent in
  run_actions G x others actions
    (w_set_governor (gv_set_proposal id
       (Proposal (pr_proposer p) (pr_start p) (pr_duration p) true (pr_canceled p) (pr_against p) (pr_for p)
          (pr_abstain p) (pr_voted p)) (w_governor w)) w).

(** ** Calls *)

(** Through a prover or directly: the account that the governor sees.  The functions of a prover are for its owner
    (contracts/src/tokens/SuccinctProver.sol 46-49, 84-111).  The owner is an immutable of the prover; modelled
    as the account to which the registry has assigned the prover
    (contracts/src/libraries/ProverRegistry.sol 124-136), which is done once. *)
Definition acting (w : world) (sender : N) (via : option N) : result N gov_error :=
  match via with
  | None => Ok sender
  | Some p =>
      gov! _ := gv_require (is_prover (w_staking w) p) GNoProver in
      gov! _ := gv_require (default 0 (rg_owners (sk_registry (w_staking w)) !! sender) =? p) GNotProverOwner in
      Ok p
  end.

(** The calls of anyone: of the staking contract, of $PROVE, [delegate] of $iPROVE, and of the governor, directly
    or through a prover ([propose], [cancel], [castVote] of contracts/src/tokens/SuccinctProver.sol 84-111). *)
Inductive world_call : Type :=
| WStaking (c : staking_call)
| WToken (o : token_op)
| WDelegate (d : N)
| WPropose (via : option N) (actions : list gov_action) (desc : N)
| WCancel (via : option N) (actions : list gov_action) (desc : N)
| WVote (via : option N) (id support : N)
| WExecute (actions : list gov_action) (desc : N) (others : bool).

(** Their dispatch, contracts/src/SuccinctStaking.sol 248-523, contracts/src/tokens/IntermediateSuccinct.sol 30,
    contracts/src/tokens/SuccinctProver.sol 84-111, contracts/src/SuccinctGovernor.sol 26. *)
Definition world_run (G : gov_env) (x : staking_ctx) (c : world_call) (w : world) : result world gov_error :=
  let now := kx_time x in
  match c with
  | WStaking c => staking_step G x c w
  | WToken o => token_step o w
  | WDelegate d =>
      gov! v := gv_option (delegate (clock now) (kx_sender x) d
                             (tk_balance (bk_iprove (sk_bank (w_staking w))) (kx_sender x)) (w_votes w)) GVotes in
      Ok (World (w_staking w) v (w_governor w))
  | WPropose via actions desc => gov! a := acting w (kx_sender x) via in propose G now a actions desc w
  | WCancel via actions desc => gov! a := acting w (kx_sender x) via in cancel_proposal G now a actions desc w
  | WVote via id support => gov! a := acting w (kx_sender x) via in cast_vote now a id support w
  | WExecute actions desc others => execute_proposal G x others actions desc w
  end.

(** The deployment of the governor at time [t], contracts/src/SuccinctGovernor.sol 33-45: refused with a period of
    zero or a quorum above 100 percent. *)
Definition governor_start (t delay period threshold quorum : N) : option governor :=
  if negb (period =? 0) && (quorum <=? 100) && (delay <? 2 ^ 48) && (period <? 2 ^ 32) && (threshold <? two256)
  then Some (Governor delay period threshold [(clock t, quorum)] ∅)
  else None.
