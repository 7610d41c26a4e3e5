(** Property of the contracts that the governor owns: the stakers decide.  The vocabulary is in [GovernedSpec.v]. *)
From Verif Require Import ToyLeave.
Open Scope N_scope.

(** ** C89: where the governor is the owner the rules change only by a vote of the stakers, and then they do *)

(** Every executed proposal has passed a vote. *)
Theorem C89_passed Y t0 n0 log n now l1 x actions desc others i m l2 :
  forall (Hrun : net_run Y t0 n0 log n now)
    (Hlog : log = l1 ++ NAccepted x (CWorld (WExecute actions desc others)) i m :: l2),
  passed Y n0 l1 (nx_time x) (ge_id (net_gov Y) actions desc).
Proof. exact (C89_passed_proof Y t0 n0 log n now l1 x actions desc others i m l2). Qed.
Print Assumptions C89_passed.

(** From the moment the governor owns the settlement contract, its settings and its ledger stay as they are, unless a
    proposal that changes them has passed and is executed. *)
Theorem C89_settlement Y t0 n0 log n now log' n' now' :
  forall (Hrun : net_run Y t0 n0 log n now) (Hrun' : net_run Y t0 n0 (log ++ log') n' now')
    (Hgoverned : va_owner (nw_vapp n) = ne_governor Y),
  (settings (nw_vapp n') = settings (nw_vapp n) /\ Forall no_fork (settlement Y log')) \/
  exists l1 x actions desc others i m l2,
    log' = l1 ++ NAccepted x (CWorld (WExecute actions desc others)) i m :: l2 /\
    Exists (fun a => match a with GaVApp (CAdmin _) | GaVApp (CFork _ _) => True | _ => False end) actions /\
    passed Y n0 (log ++ l1) (nx_time x) (ge_id (net_gov Y) actions desc).
Proof. exact (C89_settlement_proof Y t0 n0 log n now log' n' now'). Qed.
Print Assumptions C89_settlement.

(** Likewise owner, dispenser and rate of the staking contract. *)
Theorem C89_staking Y t0 n0 log n now log' n' now' :
  forall (Hrun : net_run Y t0 n0 log n now) (Hrun' : net_run Y t0 n0 (log ++ log') n' now')
    (Hgoverned : sk_owner (w_staking (nw_world n)) = ne_governor Y),
  staking_rules n' = staking_rules n \/
  exists l1 x actions desc others i m l2,
    log' = l1 ++ NAccepted x (CWorld (WExecute actions desc others)) i m :: l2 /\
    Exists (fun a => match a with GaStaking c => sets_staking c = true | _ => False end) actions /\
    passed Y n0 (log ++ l1) (nx_time x) (ge_id (net_gov Y) actions desc).
Proof. exact (C89_staking_proof Y t0 n0 log n now log' n' now'). Qed.
Print Assumptions C89_staking.

(** And a proposal about the settlement contract that has passed, and is neither executed nor cancelled yet, can be executed
    by anyone, if the contract accepts its calls from the governor; they have their effect. *)
Theorem C89_executable Y t0 n0 log n now x actions desc others v :
  let id := ge_id (net_gov Y) actions desc in
  forall (Hrun : net_run Y t0 n0 log n now) (Htime : nx_time x = now) (Hacts : net_acts Y n (nx_sender x))
    (Hpassed : passed Y n0 log now id)
    (Hopen : Forall (fun e => ends Y id e = false) log)
    (Hactions : Forall (fun a => match a with GaVApp _ => True | _ => False end) actions)
    (Hsettles : proposal_settles Y x actions (settlement_now n) v),
  exists n', net_run_call Y x (CWorld (WExecute actions desc others)) n = Ok n' /\ settlement_now n' = v.
Proof. exact (C89_executable_proof Y t0 n0 log n now x actions desc others v). Qed.
Print Assumptions C89_executable.

(** A proposal to pause the settlement contract and to replace its auctioneer, made and voted for through a prover. *)
Example C89_example :
  net_run toy_net 5 toy_net0 (net_log vote_run) (net_of vote_run) 42 /\ nx_time vote_ctx = 42 /\
  net_acts toy_net (net_of vote_run) (nx_sender vote_ctx) /\
  passed toy_net toy_net0 (net_log vote_run) (nx_time vote_ctx) 7 /\ Forall (fun e => ends toy_net 7 e = false) (net_log vote_run) /\
  Forall (fun a => match a with GaVApp _ => True | _ => False end) pause_it /\
  (exists v, proposal_settles toy_net vote_ctx pause_it (settlement_now (net_of vote_run)) v) /\
  net_run toy_net 5 toy_net0 (net_log vote_run ++ NAccepted vote_ctx vote_call [] vote_done :: net_log vote_last)
    (net_of vote_last) (net_time vote_last) /\
  va_owner (nw_vapp (net_of vote_run)) = ne_governor toy_net /\
  net_ballots 7 (net_log vote_run) = [(prover1, 1)] /\
  votes_for (net_at toy_net0 (net_log vote_run) 35) 1 (net_ballots 7 (net_log vote_run)) = 500 /\
  (va_paused (nw_vapp (net_of vote_run)), va_paused (nw_vapp vote_done), va_auctioneer (nw_vapp vote_done)) = (false, true, 77).
Proof.
  split; [exact is_vote_wait|]. split; [reflexivity|]. split; [exact vote_acts|]. split; [exact vote_passed|].
  split; [exact vote_open|]. split; [repeat constructor|]. split; [exact vote_settles|]. split; [exact is_vote_end|].
  repeat match goal with |- _ /\ _ => split end; vm_compute; reflexivity.
Qed.
