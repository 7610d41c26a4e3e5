(** Properties of governance. *)
From Verif Require Import ToyGovernor.
Open Scope N_scope.

(** ** C79: the votes are the $iPROVE in the vaults *)

(** The votes of an account are the $iPROVE in its vault; who is not a prover has none, whatever was delegated.
    *)
Theorem C79_votes G t0 w0 log w now a :
  forall (Hrun : gov_run G t0 w0 log w now), get_votes (w_votes w) a = staked_votes w a.
Proof. exact (C79_votes_proof G t0 w0 log w now a). Qed.
Print Assumptions C79_votes.

(** The votes and the supply that are answered for an earlier time are those at the end of that second. *)
Theorem C79_past G t0 w0 log w now a t :
  forall (Hrun : gov_run G t0 w0 log w now) (Hpast : t < now),
  get_past_votes now (w_votes w) a t = Some (staked_votes (world_at w0 log t) a) /\
  get_past_supply now (w_votes w) t = Some (iprove_supply (world_at w0 log t)).
Proof. exact (C79_past_proof G t0 w0 log w now a t). Qed.
Print Assumptions C79_past.

(** The votes of the provers and the $iPROVE in escrow are together all $iPROVE. *)
Theorem C79_total G t0 w0 log w now :
  forall (Hrun : gov_run G t0 w0 log w now),
  list_total (get_votes (w_votes w)) (elements (rg_provers (sk_registry (w_staking w)))) + all_escrow (w_staking w)
  = iprove_supply w.
Proof. exact (C79_total_proof G t0 w0 log w now). Qed.
Print Assumptions C79_total.

(** The counting of votes never makes a call of the staking contract fail. *)
Theorem C79_unimpeded G t0 w0 log w now x c :
  forall (Hrun : gov_run G t0 w0 log w now) (Htime : kx_time x = now) (Hby : by_anyone G w x (WStaking c)),
  match staking_run (ge_staking G)
          (StakingCtx (kx_sender x) now (gv_delay (w_governor w)) (gv_period (w_governor w)) (kx_permit_valid x) (kx_vapp_accepts x))
          c (w_staking w) with
  | Ok (s, _) => exists v, world_run G x (WStaking c) w = Ok (World s v (w_governor w))
  | Err e => world_run G x (WStaking c) w = Err (GStaking e)
  end.
Proof. exact (C79_unimpeded_proof G t0 w0 log w now x c). Qed.
Print Assumptions C79_unimpeded.

(** Delegating moves no votes: who may delegate has none. *)
Theorem C79_delegate G t0 w0 log w now x d :
  forall (Hrun : gov_run G t0 w0 log w now) (Htime : kx_time x = now) (Hby : by_anyone G w x (WDelegate d)),
  exists v, world_run G x (WDelegate d) w = Ok (World (w_staking w) v (w_governor w)) /\
    forall a, get_votes v a = get_votes (w_votes w) a.
Proof. exact (C79_delegate_proof G t0 w0 log w now x d). Qed.
Print Assumptions C79_delegate.

Example C79_example :
  gov_run toy_gov 1 toy_world (log_of gov_run1) (world_of gov_run1) (time_of gov_run1) /\
  map (get_votes (w_votes (world_of gov_run1))) [prover_c; prover_k; sk_alice; sk_bob] = [1000; 350; 0; 0] /\
  map (fun t => get_past_votes 30 (w_votes (world_of gov_run1)) prover_k t) [20; 21; 24; 25; 29; 30]
    = [Some 0; Some 400; Some 400; Some 350; Some 350; None] /\
  get_past_supply 30 (w_votes (world_of gov_run1)) 20 = Some 1000 /\
  all_escrow (w_staking (world_of gov_run1)) = 50 /\ iprove_supply (world_of gov_run1) = 1400.
Proof. split; [exact is_gov_run1|]. vm_compute; auto 20. Qed.

(** ** C80: proposals, votes and executions *)

(** What the governor answers about a proposal, from the log: see [described].  About a proposal of which it
    knows nothing, the log says nothing. *)
Theorem C80_record G t0 w0 log w now id :
  forall (Hrun : gov_run G t0 w0 log w now),
  match gv_proposals (w_governor w) !! id with
  | Some p => described G w0 log id p
  | None => Forall (fun e => concerns G id e = false) log
  end.
Proof. exact (C80_record_proof G t0 w0 log w now id). Qed.
Print Assumptions C80_record.

(** The votes on a proposal are together at most the $iPROVE at its start. *)
Theorem C80_total G t0 w0 log w now id p :
  forall (Hrun : gov_run G t0 w0 log w now) (Hp : gv_proposals (w_governor w) !! id = Some p),
  pr_against p + pr_for p + pr_abstain p <= iprove_supply (world_at w0 log (pr_start p)).
Proof. exact (C80_total_proof G t0 w0 log w now id p). Qed.
Print Assumptions C80_total.

(** When a proposal is accepted. *)
Theorem C80_propose G t0 w0 log w now x via actions desc :
  forall (Hrun : gov_run G t0 w0 log w now) (Htime : kx_time x = now),
  (exists w', world_run G x (WPropose via actions desc) w = Ok w') <->
  may_act w x via /\
  (forall a, ge_restricted G desc = Some a -> a = actor x via) /\
  gv_threshold (w_governor w) <= staked_votes (world_at w0 log (now - 1)) (actor x via) /\
  actions <> [] /\ Forall (fun e => proposes G (ge_id G actions desc) e = false) log /\
  now + gv_delay (w_governor w) < 2 ^ 48.
Proof. exact (C80_propose_proof G t0 w0 log w now x via actions desc). Qed.
Print Assumptions C80_propose.

(** When a cancellation is accepted. *)
Theorem C80_cancel G t0 w0 log w now x via actions desc :
  forall (Hrun : gov_run G t0 w0 log w now) (Htime : kx_time x = now),
  (exists w', world_run G x (WCancel via actions desc) w = Ok w') <->
  may_act w x via /\
  exists p, gv_proposals (w_governor w) !! ge_id G actions desc = Some p /\
    pr_executed p = false /\ pr_canceled p = false /\ now <= pr_start p /\ actor x via = pr_proposer p.
Proof. exact (C80_cancel_proof G t0 w0 log w now x via actions desc). Qed.
Print Assumptions C80_cancel.

(** When a vote is accepted. *)
Theorem C80_vote G t0 w0 log w now x via id support :
  forall (Hrun : gov_run G t0 w0 log w now) (Htime : kx_time x = now),
  (exists w', world_run G x (WVote via id support) w = Ok w') <->
  may_act w x via /\ support <= 2 /\
  exists p, gv_proposals (w_governor w) !! id = Some p /\
    pr_executed p = false /\ pr_canceled p = false /\ pr_start p < now <= pr_start p + pr_duration p /\
    ~ actor x via ∈ pr_voted p.
Proof. exact (C80_vote_proof G t0 w0 log w now x via id support). Qed.
Print Assumptions C80_vote.

(** When an execution is accepted, and what it does: the actions, in order, by the governor. *)
Theorem C80_execute G t0 w0 log w now x actions desc others :
  let id := ge_id G actions desc in
  let may_execute p :=
    gv_proposals (w_governor w) !! id = Some p /\
    pr_executed p = false /\ pr_canceled p = false /\ pr_start p + pr_duration p < now /\
    pr_against p < pr_for p /\
    (let w1 := world_at w0 log (pr_start p) in
     iprove_supply w1 * quorum_percent w1 / 100 <= pr_for p + pr_abstain p) in
  forall (Hrun : gov_run G t0 w0 log w now) (Htime : kx_time x = now) (Hby : by_anyone G w x (WExecute actions desc others)),
  match world_run G x (WExecute actions desc others) w with
  | Ok w' => exists p, may_execute p /\ actions_done G x others actions (marked_executed id p w) w'
  | Err _ => ~ exists p w', may_execute p /\ actions_done G x others actions (marked_executed id p w) w'
  end.
Proof. exact (C80_execute_proof G t0 w0 log w now x actions desc others). Qed.
Print Assumptions C80_execute.

(** Every executed proposal was proposed by somebody with enough votes, had a majority and the quorum when the
    vote was over, was not cancelled before or after, and is executed only once. *)
Theorem C80_passed G t0 w0 log w now l1 x actions desc others w' l2 :
  let id := ge_id G actions desc in
  forall (Hrun : gov_run G t0 w0 log w now) (Hlog : log = l1 ++ WAccepted x (WExecute actions desc others) w' :: l2),
  Forall (fun e => executes G id e = false) (l1 ++ l2) /\
  Forall (fun e => cancels G id e = false) (l1 ++ l2) /\
  exists l0 x0 via actions0 desc0 w1 l01,
    l1 = l0 ++ WAccepted x0 (WPropose via actions0 desc0) w1 :: l01 /\ ge_id G actions0 desc0 = id /\
    may_act (final w0 l0) x0 via /\
    gv_threshold (w_governor (final w0 l0)) <= staked_votes (world_at w0 l0 (kx_time x0 - 1)) (actor x0 via) /\
    let start := kx_time x0 + gv_delay (w_governor (final w0 l0)) in
    let then_ := world_at w0 l1 start in
    start + gv_period (w_governor (final w0 l0)) < kx_time x /\
    counted then_ 0 (ballots id l1) < counted then_ 1 (ballots id l1) /\
    iprove_supply then_ * quorum_percent then_ / 100 <= counted then_ 1 (ballots id l1) + counted then_ 2 (ballots id l1).
Proof. exact (C80_passed_proof G t0 w0 log w now l1 x actions desc others w' l2). Qed.
Print Assumptions C80_passed.

(** A vote that counts for anything is cast by the owner of a prover, through the prover. *)
Theorem C80_voice G t0 w0 log w now l1 x via id support w' l2 t :
  forall (Hrun : gov_run G t0 w0 log w now) (Hlog : log = l1 ++ WAccepted x (WVote via id support) w' :: l2)
    (Hcounts : staked_votes (world_at w0 l1 t) (actor x via) <> 0),
  exists p, via = Some p /\ rg_owners (sk_registry (w_staking (final w0 l1))) !! kx_sender x = Some p.
Proof. exact (C80_voice_proof G t0 w0 log w now l1 x via id support w' l2 t). Qed.
Print Assumptions C80_voice.

(** A vote on a slash: the first two proposals, votes at and after the start, by others, and executions too early, in
    time and again. *)
Example C80_example :
  gov_run toy_gov 1 toy_world (log_of gov_run3) (world_of gov_run3) (time_of gov_run3) /\
  outcomes (skipn 7 (log_of gov_run3)) =
    [Some GInsufficientVotes; None; Some GUnexpectedState; None; None; None; Some GNotProverOwner;
     Some (GStaking KNotReadyToCancel); Some GUnexpectedState; None; Some GUnexpectedState] /\
  ballots 7 (log_of gov_run3) = [(prover_c, 1); (prover_k, 0); (sk_alice, 2)] /\
  option_map (fun p => (pr_proposer p, pr_start p, pr_duration p, pr_executed p, pr_canceled p, pr_against p, pr_for p, pr_abstain p))
    (gv_proposals (w_governor (world_of gov_run3)) !! 7) = Some (prover_c, 45, 6, true, false, 350, 1000, 0) /\
  iprove_supply (world_at toy_world (log_of gov_run3) 45) = 1400 /\
  map sc_resolved (slashes_of (w_staking (world_of gov_run3)) prover_k) = [true].
Proof.
  split; [exact is_gov_run3|].
  vm_compute; auto 20.
Qed.

(** ** C81: what only a vote can change *)

(** As long as the governor owns the staking contract, the settings change, and slash requests are settled
    before everybody may cancel them, only when a proposal is executed. *)
Theorem C81_only_by_vote G t0 w0 log w now x c w' :
  forall (Hrun : gov_run G t0 w0 log w now) (Htime : kx_time x = now) (Hby : by_anyone G w x c)
    (Haccepted : world_run G x c w = Ok w') (Howner : sk_owner (w_staking w) = ge_self G)
    (Hchange : settings_changed w w' \/ early_settlement G x w w'),
  exists actions desc others, c = WExecute actions desc others.
Proof. exact (C81_only_by_vote_proof G t0 w0 log w now x c w'). Qed.
Print Assumptions C81_only_by_vote.

(** The governor remains the owner until an executed proposal hands the contract over. *)
Theorem C81_owner G t0 w0 log w now :
  forall (Hrun : gov_run G t0 w0 log w now) (Hstart : sk_owner (w_staking w0) = ge_self G)
    (Hkept : Forall (fun e => hands_over e = false) log),
  sk_owner (w_staking w) = ge_self G.
Proof. exact (C81_owner_proof G t0 w0 log w now). Qed.
Print Assumptions C81_owner.

(** Nobody can cancel a slash request while a vote is running on a proposal made within the cancellation period,
    if delay and period have not become shorter. *)
Theorem C81_in_time G t0 w0 log w now l1 x0 via actions desc w1 l2 p i c x :
  forall (Hrun : gov_run G t0 w0 log w now) (Hlog : log = l1 ++ WAccepted x0 (WPropose via actions desc) w1 :: l2)
    (Hrequest : slashes_of (w_staking w) p !! N.to_nat i = Some c)
    (Hearly : kx_time x0 < sc_time c + ke_cancel_period (ge_staking G))
    (Hvoting : now <= kx_time x0 + gv_delay (w_governor (final w0 l1)) + gv_period (w_governor (final w0 l1)))
    (Hkept : gv_delay (w_governor (final w0 l1)) + gv_period (w_governor (final w0 l1))
             <= gv_delay (w_governor w) + gv_period (w_governor w))
    (Htime : kx_time x = now),
  exists e, world_run G x (WStaking (KCancelSlash p i)) w = Err (GStaking e).
Proof. exact (C81_in_time_proof G t0 w0 log w now l1 x0 via actions desc w1 l2 p i c x). Qed.
Print Assumptions C81_in_time.

(** A slash that was voted for can be carried out by anybody while the request is open. *)
Theorem C81_enforced G t0 w0 log w now x p i desc others q c :
  let id := ge_id G [GaStaking (KFinishSlash p i)] desc in
  forall (Hrun : gov_run G t0 w0 log w now) (Htime : kx_time x = now)
    (Hby : by_anyone G w x (WExecute [GaStaking (KFinishSlash p i)] desc others))
    (Howner : sk_owner (w_staking w) = ge_self G)
    (Hproposal : gv_proposals (w_governor w) !! id = Some q)
    (Hends : pr_executed q = false /\ pr_canceled q = false /\ pr_start q + pr_duration q < now)
    (Hpassed : pr_against q < pr_for q /\
       let w1 := world_at w0 log (pr_start q) in iprove_supply w1 * quorum_percent w1 / 100 <= pr_for q + pr_abstain q)
    (Hprover : p ∈ rg_provers (sk_registry (w_staking w)))
    (Hrequest : slashes_of (w_staking w) p !! N.to_nat i = Some c) (Hopen : sc_resolved c = false)
    (Hsize : staked_votes w p * 10 ^ 18 < 2 ^ 256 /\
       tk_balance (bk_prove (sk_bank (w_staking w))) (ke_iprove (ge_staking G)) < 2 ^ 256),
  exists w', world_run G x (WExecute [GaStaking (KFinishSlash p i)] desc others) w = Ok w' /\
    slashes_of (w_staking w') p !! N.to_nat i = Some (SlashClaim (sc_amount c) (sc_time c) true).
Proof. exact (C81_enforced_proof G t0 w0 log w now x p i desc others q c). Qed.
Print Assumptions C81_enforced.

(** Without the condition on delay and period this is false: a vote can shorten them while another vote is running,
    and then the slash that is being voted on can be cancelled. *)
Theorem C81_in_time_refuted :
  exists G t0 w0 l1 x0 via p i desc w1 l2 w now c x w',
    gov_run G t0 w0 (l1 ++ WAccepted x0 (WPropose via [GaStaking (KFinishSlash p i)] desc) w1 :: l2) w now /\
    sk_owner (w_staking w) = ge_self G /\
    slashes_of (w_staking w) p !! N.to_nat i = Some c /\
    kx_time x0 < sc_time c + ke_cancel_period (ge_staking G) /\
    now <= kx_time x0 + gv_delay (w_governor (final w0 l1)) + gv_period (w_governor (final w0 l1)) /\
    kx_time x = now /\ by_anyone G w x (WStaking (KCancelSlash p i)) /\
    world_run G x (WStaking (KCancelSlash p i)) w = Ok w'.
Proof. exact C81_in_time_refuted_proof. Qed.
Print Assumptions C81_in_time_refuted.

(** The governor owns the contract; a proposal changes its settings, a slash is carried out. *)
Example C81_example :
  sk_owner (w_staking toy_world) = ge_self toy_gov /\
  gov_run toy_gov 1 toy_world (log_of gov_run4) (world_of gov_run4) (time_of gov_run4) /\
  existsb hands_over (log_of gov_run4) = false /\
  outcomes (skipn 18 (log_of gov_run4)) = [None; None; None; None; None; None; None] /\
  (let g := w_governor (world_of gov_run3) in (gv_delay g, gv_period g, latest (gv_quorum g))) = (5, 6, 4) /\
  (let g := w_governor (world_of gov_run4) in (gv_delay g, gv_period g, latest (gv_quorum g))) = (0, 1, 10) /\
  match world_run toy_gov (at_ sk_giver 52) (WExecute (slash_it 0) 7 true) (world_of gov_run2) with
  | Ok w' => slashes_of (w_staking w') prover_k = [SlashClaim 100 30 true]
  | Err _ => False
  end /\
  match world_run toy_gov (at_ sk_bob 51) (WStaking (KCancelSlash prover_k 0)) (world_of gov_run2) with
  | Ok _ => False
  | Err e => e = GStaking KNotReadyToCancel
  end /\
  match world_run toy_gov (at_ sk_keeper 52) (WStaking (KFinishSlash prover_k 0)) (world_of gov_run2) with
  | Ok _ => False
  | Err e => e = GStaking KNotOwner
  end.
Proof.
  split; [reflexivity|]. split; [exact is_gov_run4|].
  vm_compute; auto 20.
Qed.
