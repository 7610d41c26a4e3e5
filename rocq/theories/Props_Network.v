(** Properties of the contracts together.  The vocabulary is in [NetworkSpec.v]. *)
From Verif Require Import ToyNetwork.
Open Scope N_scope.

(** ** C82: the deployed contracts behave together as they do apart *)

(** The deployment succeeds exactly for parameters that are given and in range ... *)
Theorem C82_deploys Y P prove t : (exists n, atomic_deploy Y P prove t = Some n) <-> params_ok Y P.
Proof. exact (C82_deploys_proof Y P prove t). Qed.
Print Assumptions C82_deploys.

(** ... and then the contracts answer as the checks after a deployment expect. *)
Theorem C82_deployed Y P prove t n :
  forall (Hdiffer : ne_staking Y <> ne_vapp Y) (Hdeployed : atomic_deploy Y P prove t = Some n),
  as_deployed Y P prove t n.
Proof. exact (C82_deployed_proof Y P prove t n). Qed.
Print Assumptions C82_deployed.

(** What governance, staking and the tokens go through is a run of theirs as studied before (C79 - C81), with the calls
    that were made directly, and rewards and token calls by the settlement contract. *)
Theorem C82_governance Y t0 n0 log n now :
  forall (Hrun : net_run Y t0 n0 log n now),
  exists glog, gov_run (net_gov Y) t0 (nw_world n0) glog (nw_world n) now /\
    List.filter (not_vapp Y) glog = world_log log /\
    Forall (fun e => not_vapp Y e = true \/ vapp_does Y e) glog.
Proof. exact (C82_governance_proof Y t0 n0 log n now). Qed.
Print Assumptions C82_governance.

(** Likewise the staking contract (C33 - C41, C47, C67 - C69); the rewards are the withdrawals of provers in the
    accepted steps. *)
Theorem C82_staking Y t0 n0 log n now :
  forall (Hrun : net_run Y t0 n0 log n now),
  exists klog, stk_run (net_staking Y) klog (w_staking (nw_world n)) /\
    calls_of_others Y klog = staking_calls log /\ Forall (vapp_only_rewards Y) klog /\
    (Forall keeps_staking log -> rewards klog = all_prover_withdrawals Y log).
Proof. exact (C82_staking_proof Y t0 n0 log n now). Qed.
Print Assumptions C82_staking.

(** Likewise the settlement contract (C31, C32, C45, C46, C62, C63). *)
Theorem C82_settlement Y t0 n0 log n now :
  forall (Hrun : net_run Y t0 n0 log n now),
  exists llog, l1_history (net_l1 Y) (nw_vapp n0) llog (settlement_now n) /\
    List.filter is_call llog = settlement Y log /\ Forall (own_actions (net_l1 Y)) llog.
Proof. exact (net_settled Y t0 n0 log n now). Qed.
Print Assumptions C82_settlement.

(** A call is accepted if and only if the called contract on its own accepts it, a proposal is executed if and only if
    the governor and all called contracts accept.  (For steps see [C85_honest_step], for new provers [C84_create].) *)
Theorem C82_accepts Y x c n :
  let seen accepts := StakingCtx (nx_sender x) (nx_time x) 0 0 (nx_permit_valid x) accepts in
  match c with
  | CVApp (CStep _ _) | CWorld (WStaking (KCreateProver _)) => True
  | CWorld (WStaking (KReward _ _)) => exists e, net_run_call Y x c n = Err e
  | CVApp c1 => (exists n', net_run_call Y x c n = Ok n') <->
      exists v, l1_transact (net_l1 Y) (seen_by_settlement Y x n) c1 (settlement_now n) = (v, None)
  | CWorld (WExecute actions desc others) => (exists n', net_run_call Y x c n = Ok n') <->
      Forall (fun a => match a with GaStaking (KCreateProver _) => False | _ => True end) actions /\
      (exists v, proposal_settles Y x actions (settlement_now n) v) /\
      exists w, world_run (net_gov Y) (seen true) (WExecute actions desc others) (nw_world n) = Ok w
  | CWorld c1 => (exists n', net_run_call Y x c n = Ok n') <->
      exists w, world_run (net_gov Y) (seen false) c1 (nw_world n) = Ok w
  end.
Proof. exact (C82_accepts_proof Y x c n). Qed.
Print Assumptions C82_accepts.

(** Twelve calls after a deployment, the last one reverts: a prover, two deposits, a stake, two steps and a refused slash. *)
Example C82_example :
  atomic_deploy toy_net toy_params (Token ∅ ∅) 5 = Some toy_net0 /\
  net_run toy_net 5 toy_net0 (net_log net_run2) (net_of net_run2) (net_time net_run2) /\
  Forall keeps_staking (net_log net_run2) /\
  net_outcomes (net_log net_run2) = replicate 11 None ++ [Some (NWorld (GStaking KNotVApp))] /\
  staking_calls (net_log net_run2) = [(owner1, KCreateProver 1000); (alice, KStake prover1 500)] /\
  all_prover_withdrawals toy_net (net_log net_run2) = [(prover1, 100)] /\
  (length (world_log (net_log net_run2)), length (settlement toy_net (net_log net_run2))) = (7, 5)%nat.
Proof.
  split; [vm_compute; reflexivity|]. split; [exact is_net_run2|]. split; [exact toy_keeps2|].
  repeat match goal with |- _ /\ _ => split end; vm_compute; reflexivity.
Qed.

(** ** C83: everything owed is there at once *)

(** The settlement contract holds all balances of the ledger and the deposits not yet finalised; and, besides, the
    $iPROVE vault holds what is quoted to all stakers together. *)
Theorem C83_backed E sha verify domain Y t0 n0 log n now stakers values :
  forall (Hrun : sound_run E sha verify domain Y t0 n0 log n now)
    (Hhash : collision_free (keccak E) (log_strings E (full_new E domain) (settlement Y log)))
    (Hdistinct : NoDup stakers)
    (Hanswers : Forall2 (fun a v => staked (net_staking Y) a (w_staking (nw_world n)) = Ok v) stakers values),
  let ledger := ledger_after E (full_new E domain) (settlement Y log) in
  let prove := tk_balance (net_prove n) in
  ne_vapp Y <> ne_iprove Y /\ va_root (nw_vapp n) = full_root E ledger /\
  total_balance (accounts ledger) + pending_deposits (created (settlement Y log)) (finalised (net_l1 Y) (settlement Y log))
    <= prove (ne_vapp Y) /\
  list_total (fun v => v) values <= prove (ne_iprove Y).
Proof. exact (C83_backed_proof E sha verify domain Y t0 n0 log n now stakers values). Qed.
Print Assumptions C83_backed.

(** 1000 in the ledger and a deposit of 77; a stake of 500. *)
Example C83_example :
  sound_run toy_env toy_hash (fun _ => true) toy_domain toy_net 5 toy_net0
    (net_log net_run1) (net_of net_run1) (net_time net_run1) /\
  collision_free (keccak toy_env)
    (log_strings toy_env (full_new toy_env toy_domain) (settlement toy_net (net_log net_run1))) /\
  let log := settlement toy_net (net_log net_run1) in
  total_balance (accounts (ledger_after toy_env (full_new toy_env toy_domain) log)) = 1000 /\
  pending_deposits (created log) (finalised (net_l1 toy_net) log) = 77 /\
  map (tk_balance (net_prove (net_of net_run1))) [ne_vapp toy_net; ne_iprove toy_net] = [1077; 500] /\
  staked (net_staking toy_net) alice (w_staking (nw_world (net_of net_run1))) = Ok 500.
Proof.
  split; [exact toy_sound1|]. split; [exact toy_hash1|]. cbv zeta.
  repeat match goal with |- _ /\ _ => split end; vm_compute; reflexivity.
Qed.

(** ** C84: the owners of provers in the ledger are those who created them *)

(** Whoever the ledger holds for the owner of an account has created it as a prover with the staking contract, with
    that fee, and still is its owner there. *)
Theorem C84_owners E sha verify domain Y t0 n0 log n now p :
  forall (Hrun : sound_run E sha verify domain Y t0 n0 log n now)
    (Hhash : collision_free (keccak E) (log_strings E (full_new E domain) (settlement Y log)))
    (Hstaking : Forall keeps_staking log),
  let account := acct (accounts (ledger_after E (full_new E domain) (settlement Y log))) p in
  forall (Howner : acc_owner account <> 0),
  Exists (creates p (acc_owner account) (acc_bips account)) log /\
  rg_owners (sk_registry (w_staking (nw_world n))) !! acc_owner account = Some p /\
  p ∈ rg_provers (sk_registry (w_staking (nw_world n))) /\ acc_bips account <= 10000.
Proof. intros H1 H2 H3. exact (owner_created E sha verify domain Y t0 n0 log n now H1 H2 H3 p). Qed.
Print Assumptions C84_owners.

(** A created prover is in the queue of the settlement contract, and in the ledger once that part of the queue is
    finalised. *)
Theorem C84_queue E sha verify domain Y t0 n0 log n now p owner bips :
  forall (Hrun : sound_run E sha verify domain Y t0 n0 log n now)
    (Hhash : collision_free (keccak E) (log_strings E (full_new E domain) (settlement Y log)))
    (Hstaking : Forall keeps_staking log) (Hcreated : Exists (creates p owner bips) log),
  let account := acct (accounts (ledger_after E (full_new E domain) (settlement Y log))) p in
  exists k, created (settlement Y log) !! k = Some (QCreateProver (CreateProverAction p owner bips)) /\
    (acc_owner account, acc_bips account) = if N.of_nat k <? va_finalized (nw_vapp n) then (owner, bips) else (0, 0).
Proof. intros H1 H2 H3. exact (queue_position E sha verify domain Y t0 n0 log n now H1 H2 H3 p owner bips). Qed.
Print Assumptions C84_queue.

(** Everybody can create one prover, as long as the settlement contract is not paused. *)
Theorem C84_create Y t0 n0 log n now x bips :
  forall (Hrun : net_run Y t0 n0 log n now) (Hstaking : Forall keeps_staking log) (Hnow : nx_time x = now)
    (Hby : net_acts Y n (nx_sender x)),
  (exists n', net_run_call Y x (CWorld (WStaking (KCreateProver bips))) n = Ok n') <->
  bips <= 10000 /\ prover_of n (nx_sender x) = 0 /\ va_paused (nw_vapp n) = false /\
  va_current (nw_vapp n) + 1 < 2 ^ 64 /\
  ~ ne_create2 Y (nx_sender x) ((rg_count (sk_registry (w_staking (nw_world n))) + 1) mod 2 ^ 256) bips
      ∈ rg_provers (sk_registry (w_staking (nw_world n))).
Proof. exact (C84_create_proof Y t0 n0 log n now x bips). Qed.
Print Assumptions C84_create.

Example C84_example :
  sound_run toy_env toy_hash (fun _ => true) toy_domain toy_net 5 toy_net0
    (net_log net_run1) (net_of net_run1) (net_time net_run1) /\
  collision_free (keccak toy_env)
    (log_strings toy_env (full_new toy_env toy_domain) (settlement toy_net (net_log net_run1))) /\
  Forall keeps_staking (net_log net_run1) /\ Exists (creates prover1 owner1 1000) (net_log net_run1) /\
  va_finalized (nw_vapp (net_of net_run1)) = 2 /\
  (let a := acct (accounts (ledger_after toy_env (full_new toy_env toy_domain) (settlement toy_net (net_log net_run1)))) prover1 in
   (acc_owner a, acc_bips a)) = (owner1, 1000) /\
  net_acts toy_net (net_of net_run1) bob /\
  match net_run_call toy_net (net_ctx_at bob 1011) (CWorld (WStaking (KCreateProver 10000))) (net_of net_run1) with
  | Ok n' => prover_of n' bob = 9002
  | Err _ => False
  end.
Proof.
  split; [exact toy_sound1|]. split; [exact toy_hash1|]. split; [exact toy_keeps1|]. split; [exact toy_creates1|].
  split; [vm_compute; reflexivity|]. split; [vm_compute; reflexivity|].
  split; [apply net_actsb_ok; vm_compute; reflexivity|vm_compute; reflexivity].
Qed.

(** ** C85: withdrawals are paid, those of provers into the stakes *)

(** What an accepted step moves: of every withdrawal that its receipts report, the settlement contract pays the amount
    to the account, or into the $iPROVE vault if the account is a prover; nothing else moves. *)
Theorem C85_step_pays Y t0 n0 log n now x pv pf n' p :
  forall (Hrun : net_run Y t0 n0 log n now) (Hstaking : Forall keeps_staking log)
    (Haccepted : net_run_call Y x (CVApp (CStep pv pf)) n = Ok n') (Hdecoded : ne_decode Y pv = Some p),
  forall a, tk_balance (net_prove n') a +
      (if a =? ne_vapp Y then list_total snd (flat_map reported_withdrawal (pv_receipts p)) else 0)
    = tk_balance (net_prove n) a +
      list_total snd (List.filter (fun w => pay_to Y n w =? a) (flat_map reported_withdrawal (pv_receipts p))).
Proof. exact (step_pays Y t0 n0 log n now x pv pf n' p). Qed.
Print Assumptions C85_step_pays.

(** A reward raises the worth of the prover's vault by its amount, up to the worth of one unit of $iPROVE and one unit
    of $PROVE; it lowers nobody's, and changes nobody's stake. *)
Theorem C85_reward_value K log s x p a s' evs :
  forall (Hrun : stk_run K log s) (Haccepted : staking_run K x (KReward p a) s = Ok (s', evs)),
  let A := tk_balance (bk_prove (sk_bank s)) (ke_iprove K) in
  let worth s := iprove_worth K s (tk_balance (bk_iprove (sk_bank s)) p) in
  tk_balance (bk_prove (sk_bank s')) (ke_iprove K) = A + a /\
  tk_balance (bk_prove (sk_bank s')) (ke_vapp K) + a = tk_balance (bk_prove (sk_bank s)) (ke_vapp K) /\
  worth s' <= worth s + a /\ worth s + a <= worth s' + (A / (bk_isupply (sk_bank s) + 1) + 1) /\
  (forall n, iprove_worth K s n <= iprove_worth K s' n) /\
  (forall q, q <> p -> tk_balance (bk_iprove (sk_bank s')) q = tk_balance (bk_iprove (sk_bank s)) q) /\
  sk_bound s' = sk_bound s /\ bk_stakes (sk_bank s') = bk_stakes (sk_bank s).
Proof. exact (reward_value K log s x p a s' evs). Qed.
Print Assumptions C85_reward_value.

(** An honest step is accepted: in particular no vault and no token refuses a withdrawal. *)
Theorem C85_honest_step E sha verify domain Y t0 n0 log n now x p proof inputs :
  forall (Hrun : sound_run E sha verify domain Y t0 n0 log n now) (Hstaking : Forall keeps_staking log)
    (Hhash : collision_free (keccak E) (log_strings E (full_new E domain)
       (settlement Y log ++ [LAccepted (seen_by_settlement Y x n) (CStep (abi_step p) proof) inputs])))
    (Hmade : made_from E sha verify inputs (abi_step p))
    (Hallowed : step_allowed (net_l1 Y) (seen_by_settlement Y x n) (abi_step p) proof p (nw_vapp n))
    (Hnow : nx_time x = now) (Hblocks : va_block (nw_vapp n) + 1 < 2 ^ 64)
    (Hqueue : N.of_nat (length (created (settlement Y log))) < 2 ^ 64 - 1)
    (Hcopied : Forall (from_queue (created (settlement Y log))) (all_txs inputs))
    (Hreceivers : Forall (fun r => forall account amount, sr_variant r = VWithdraw ->
       withdrawal (sr_action r) = Some (account, amount) -> account <> 0) (pv_receipts p))
    (Hsupply : tk_balance (net_prove n) (ne_iprove Y) + tk_balance (net_prove n) (ne_vapp Y) < 2 ^ 208),
  exists n', net_run_call Y x (CVApp (CStep (abi_step p) proof)) n = Ok n'.
Proof. exact (C85_honest_step_proof E sha verify domain Y t0 n0 log n now x p proof inputs). Qed.
Print Assumptions C85_honest_step.

(** A second step with the deposit of Bob, a transfer to the prover and a withdrawal of 100 for the prover. *)
Example C85_example :
  sound_run toy_env toy_hash (fun _ => true) toy_domain toy_net 5 toy_net0
    (net_log net_run1) (net_of net_run1) 1010 /\
  Forall keeps_staking (net_log net_run1) /\
  collision_free (keccak toy_env) (log_strings toy_env (full_new toy_env toy_domain)
    (settlement toy_net (net_log net_run1) ++
     [LAccepted (seen_by_settlement toy_net net_step2 (net_of net_run1)) (CStep (abi_step step_n2) [7]) [input_n2]])) /\
  made_from toy_env toy_hash (fun _ => true) [input_n2] (abi_step step_n2) /\
  step_allowed (net_l1 toy_net) (seen_by_settlement toy_net net_step2 (net_of net_run1)) (abi_step step_n2) [7] step_n2
    (nw_vapp (net_of net_run1)) /\
  Forall (from_queue (created (settlement toy_net (net_log net_run1)))) (all_txs [input_n2]) /\
  flat_map reported_withdrawal (pv_receipts step_n2) = [(prover1, 100)] /\
  map (tk_balance (net_prove (net_of net_run1))) [ne_vapp toy_net; ne_iprove toy_net] = [1077; 500] /\
  match net_run_call toy_net net_step2 (CVApp (CStep (abi_step step_n2) [7])) (net_of net_run1) with
  | Ok n' => map (tk_balance (net_prove n')) [ne_vapp toy_net; ne_iprove toy_net] = [977; 600]
  | Err _ => False
  end.
Proof.
  split; [exact toy_sound_later|]. split; [exact toy_keeps1|]. split; [exact toy_hash2|]. split; [exact toy_made2|].
  split; [exact toy_allowed2|]. split; [exact toy_copied2|]. repeat match goal with |- _ /\ _ => split end; vm_compute; reflexivity.
Qed.

(** ** C86: nobody is slashed in the deployed system *)

(** There is never a request to slash a prover, no prover is ever deactivated, and every call to slash reverts: only
    the settlement contract may request slashes, and no function of it does. *)
Theorem C86_no_slash Y t0 n0 log n now :
  forall (Hrun : net_run Y t0 n0 log n now),
  (forall p, slashes_of (w_staking (nw_world n)) p = [] /\ is_deactivated (w_staking (nw_world n)) p = false) /\
  (forall x p k, net_acts Y n (nx_sender x) ->
     forall c, In c [KRequestSlash p k; KCancelSlash p k; KFinishSlash p k] ->
     exists e, net_run_call Y x (CWorld (WStaking c)) n = Err e).
Proof. exact (C86_no_slash_proof Y t0 n0 log n now). Qed.
Print Assumptions C86_no_slash.

(** Hence what is quoted for a stake never falls until the staker asks to unstake. *)
Theorem C86_stake_kept Y t0 n0 log n now log' n' now' a v v' :
  forall (Hrun : net_run Y t0 n0 log n now) (Hrun' : net_run Y t0 n0 (log ++ log') n' now')
    (Hperson : a <> ne_governor Y) (Hstays : forall amount, ~ (a, KRequestUnstake amount) ∈ staking_calls log')
    (Hbefore : staked (net_staking Y) a (w_staking (nw_world n)) = Ok v)
    (Hafter : staked (net_staking Y) a (w_staking (nw_world n')) = Ok v'),
  v <= v'.
Proof. exact (net_staked Y t0 n0 log n now log' n' now' a v v'). Qed.
Print Assumptions C86_stake_kept.

(** A withdrawal of the prover has raised Alice's stake; a request to slash was refused. *)
Example C86_example :
  net_run toy_net 5 toy_net0 (net_log net_run1) (net_of net_run1) (net_time net_run1) /\
  net_run toy_net 5 toy_net0 (net_log net_run2) (net_of net_run2) (net_time net_run2) /\
  net_log net_run2 = net_log net_run1 ++ net_log net_tail /\
  (length (net_log net_tail), staking_calls (net_log net_tail)) = (2%nat, []) /\
  staked (net_staking toy_net) alice (w_staking (nw_world (net_of net_run1))) = Ok 500 /\
  staked (net_staking toy_net) alice (w_staking (nw_world (net_of net_run2))) = Ok 599.
Proof.
  split; [exact is_net_run1|]. split; [exact is_net_run2|]. split; [exact (net_join_log net_run1 net_tail)|].
  repeat match goal with |- _ /\ _ => split end; vm_compute; reflexivity.
Qed.
