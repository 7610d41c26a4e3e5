(** Vocabulary for the properties of governance. *)
From Verif Require Export Governor StakingSpec.
Open Scope N_scope.

(** ** Logs of calls *)

(** An accepted call with the state after it, or a reverted call. *)
Inductive gov_entry : Type :=
| WAccepted (x : staking_ctx) (c : world_call) (after : world)
| WReverted (x : staking_ctx) (c : world_call) (e : gov_error).

(** [a] is nobody's contract here: not the staking contract, the $iPROVE vault, the governor or a prover. *)
Definition acts (G : gov_env) (w : world) (a : N) : Prop :=
  a <> 0 /\ outside (ge_staking G) a /\ a <> ge_self G /\ ~ a ∈ rg_provers (sk_registry (w_staking w)).

(** The contracts call nothing but what their code says, and sign no permits. *)
Definition no_permit_of_contracts (G : gov_env) (c : staking_call) : Prop :=
  match c with KPermitAndStake _ from _ => outside (ge_staking G) from | _ => True end.
Definition by_anyone (G : gov_env) (w : world) (x : staking_ctx) (c : world_call) : Prop :=
  acts G w (kx_sender x) /\
  match c with
  | WStaking c => no_permit_of_contracts G c
  | WToken o => by_outsider (ge_staking G) (KTokenOp o)
  | WExecute actions _ _ =>
      Forall (fun a => match a with GaStaking c => no_permit_of_contracts G c | _ => True end) actions
  | _ => True
  end.

(** The deployment of the contracts at time [t0]. *)
Record gov_start (G : gov_env) (t0 : N) (w0 : world) : Prop := {
  gs_addresses : stk_addresses_ok (ge_staking G);
  gs_self : ge_self G <> 0 /\ outside (ge_staking G) (ge_self G);
  gs_create2 : forall o n f, ke_create2 (ge_staking G) o n f <> ge_self G;
  gs_time : 0 < t0 < 2 ^ 48;
  gs_state : exists prove owner prove_address dispenser s0 delay period threshold quorum g0,
    (forall a, tk_allowance prove (ke_self (ge_staking G)) a = 0 /\ tk_allowance prove (ke_iprove (ge_staking G)) a = 0) /\
    staking_initialize (ge_staking G) prove owner (ge_self G) prove_address dispenser = Some s0 /\
    governor_start t0 delay period threshold quorum = Some g0 /\
    w0 = World s0 (Votes ∅ ∅ []) g0
}.

(** A deployment, any calls by anyone, and time passing (the times of blocks have fewer than 48 bits): the log, the
    state after it, and the present time. *)
Inductive gov_run (G : gov_env) (t0 : N) (w0 : world) : list gov_entry -> world -> N -> Prop :=
| gr_start : gov_start G t0 w0 -> gov_run G t0 w0 [] w0 t0
| gr_wait log w now now' :
    gov_run G t0 w0 log w now -> now <= now' -> now' < 2 ^ 48 -> gov_run G t0 w0 log w now'
| gr_accepted log w now x c w' :
    gov_run G t0 w0 log w now -> kx_time x = now -> by_anyone G w x c -> world_run G x c w = Ok w' ->
    gov_run G t0 w0 (log ++ [WAccepted x c w']) w' now
| gr_reverted log w now x c e :
    gov_run G t0 w0 log w now -> kx_time x = now -> by_anyone G w x c -> world_run G x c w = Err e ->
    gov_run G t0 w0 (log ++ [WReverted x c e]) w now.

(** The state at the end of second [t]: after the calls accepted at time [t] or before. *)
Definition world_at (w0 : world) (log : list gov_entry) (t : N) : world :=
  fold_left (fun w e => match e with
                        | WAccepted x _ w' => if kx_time x <=? t then w' else w
                        | WReverted _ _ _ => w
                        end) log w0.
(** The state after a log. *)
Definition final (w0 : world) (log : list gov_entry) : world :=
  fold_left (fun w e => match e with WAccepted _ _ w' => w' | WReverted _ _ _ => w end) log w0.

(** ** Votes *)

(** The $iPROVE in the vault of [a]; nothing if [a] is not a prover. *)
Definition staked_votes (w : world) (a : N) : N :=
  if bool_decide (a ∈ rg_provers (sk_registry (w_staking w))) then tk_balance (bk_iprove (sk_bank (w_staking w))) a else 0.
(** All $iPROVE. *)
Definition iprove_supply (w : world) : N := bk_isupply (sk_bank (w_staking w)).

(** ** Proposals *)

(** Whom the governor sees: the prover through which the call is made, or the caller. *)
Definition actor (x : staking_ctx) (via : option N) : N := match via with Some p => p | None => kx_sender x end.
(** The caller may act through the prover: it is the prover that the caller created. *)
Definition may_act (w : world) (x : staking_ctx) (via : option N) : Prop :=
  match via with Some p => rg_owners (sk_registry (w_staking w)) !! kx_sender x = Some p | None => True end.

(** The accepted votes on proposal [id], voter and choice, in order. *)
Definition ballots (id : N) (log : list gov_entry) : list (N * N) :=
  flat_map (fun e => match e with
                     | WAccepted x (WVote via i support) _ => if i =? id then [(actor x via, support)] else []
                     | _ => []
                     end) log.
(** What the votes for a choice add up to, with the stakes in [w]. *)
Definition counted (w : world) (choice : N) (l : list (N * N)) : N :=
  list_total (fun b => if snd b =? choice then staked_votes w (fst b) else 0) l.

(** Accepted calls that propose, cancel or execute proposal [id]. *)
Definition proposes (G : gov_env) (id : N) (e : gov_entry) : bool :=
  match e with WAccepted _ (WPropose _ actions desc) _ => ge_id G actions desc =? id | _ => false end.
Definition cancels (G : gov_env) (id : N) (e : gov_entry) : bool :=
  match e with WAccepted _ (WCancel _ actions desc) _ => ge_id G actions desc =? id | _ => false end.
Definition executes (G : gov_env) (id : N) (e : gov_entry) : bool :=
  match e with WAccepted _ (WExecute actions desc _) _ => ge_id G actions desc =? id | _ => false end.
Definition occurs (f : gov_entry -> bool) (log : list gov_entry) : nat := length (List.filter f log).

(** The part of the $iPROVE, in percent, that has to take part in a vote: as set last. *)
Definition quorum_percent (w : world) : N := latest (gv_quorum (w_governor w)).

(** A log entry about proposal [id]. *)
Definition concerns (G : gov_env) (id : N) (e : gov_entry) : bool :=
  proposes G id e || cancels G id e || executes G id e ||
  match e with WAccepted _ (WVote _ i _) _ => i =? id | _ => false end.

(** Votes are cast after the start and until the end of the vote; a proposal is cancelled before, executed after. *)
Definition in_time (G : gov_env) (id : N) (p : proposal) (e : gov_entry) : Prop :=
  match e with
  | WAccepted x (WVote _ i _) _ => i = id -> pr_start p < kx_time x <= pr_start p + pr_duration p
  | WAccepted x (WCancel _ actions desc) _ => ge_id G actions desc = id -> kx_time x <= pr_start p
  | WAccepted x (WExecute actions desc _) _ => ge_id G actions desc = id -> pr_start p + pr_duration p < kx_time x
  | _ => True
  end.

(** What the governor answers about a proposal (its proposer, start, duration, whether it was executed or cancelled,
    its votes and who has voted), from the log. *)
Record described (G : gov_env) (w0 : world) (log : list gov_entry) (id : N) (p : proposal) : Prop := {
  ds_proposed : exists log1 x via actions desc w1 log2,
    log = log1 ++ WAccepted x (WPropose via actions desc) w1 :: log2 /\ ge_id G actions desc = id /\
    Forall (fun e => concerns G id e = false) log1 /\ Forall (fun e => proposes G id e = false) log2 /\
    pr_proposer p = actor x via /\
    pr_start p = kx_time x + gv_delay (w_governor (final w0 log1)) /\
    pr_duration p = gv_period (w_governor (final w0 log1));
  ds_once : NoDup (map fst (ballots id log));
  ds_voted : forall a, a ∈ pr_voted p <-> a ∈ map fst (ballots id log);
  ds_choices : Forall (fun b => snd b <= 2) (ballots id log);
  ds_against : pr_against p = counted (world_at w0 log (pr_start p)) 0 (ballots id log);
  ds_for : pr_for p = counted (world_at w0 log (pr_start p)) 1 (ballots id log);
  ds_abstain : pr_abstain p = counted (world_at w0 log (pr_start p)) 2 (ballots id log);
  ds_times : Forall (in_time G id p) log;
  ds_executed : occurs (executes G id) log = if pr_executed p then 1%nat else 0%nat;
  ds_canceled : occurs (cancels G id) log = if pr_canceled p then 1%nat else 0%nat;
  ds_one_end : pr_executed p && pr_canceled p = false
}.

(** ** What an executed proposal does *)

(** One action: a call of the staking contract by the governor, a change of one of its settings, a call of $PROVE by
    the governor, or a successful call of the settlement contract or of another contract. *)
Inductive action_done (G : gov_env) (x : staking_ctx) (others : bool) : gov_action -> world -> world -> Prop :=
| ad_staking c w s evs v :
    match c with KReward _ _ => False | _ => True end ->
    staking_run (ge_staking G)
      (StakingCtx (ge_self G) (kx_time x) (gv_delay (w_governor w)) (gv_period (w_governor w)) (kx_permit_valid x) (kx_vapp_accepts x))
      c (w_staking w) = Ok (s, evs) ->
    action_done G x others (GaStaking c) w (World s v (w_governor w))
| ad_delay n w g : n < 2 ^ 48 ->
    g = Governor n (gv_period (w_governor w)) (gv_threshold (w_governor w)) (gv_quorum (w_governor w)) (gv_proposals (w_governor w)) ->
    action_done G x others (GaDelay n) w (World (w_staking w) (w_votes w) g)
| ad_period n w g : 0 < n < 2 ^ 32 ->
    g = Governor (gv_delay (w_governor w)) n (gv_threshold (w_governor w)) (gv_quorum (w_governor w)) (gv_proposals (w_governor w)) ->
    action_done G x others (GaPeriod n) w (World (w_staking w) (w_votes w) g)
| ad_threshold n w g : n < 2 ^ 256 ->
    g = Governor (gv_delay (w_governor w)) (gv_period (w_governor w)) n (gv_quorum (w_governor w)) (gv_proposals (w_governor w)) ->
    action_done G x others (GaThreshold n) w (World (w_staking w) (w_votes w) g)
| ad_quorum n w q g : n <= 100 ->
    g = Governor (gv_delay (w_governor w)) (gv_period (w_governor w)) (gv_threshold (w_governor w)) q (gv_proposals (w_governor w)) ->
    quorum_percent (World (w_staking w) (w_votes w) g) = n ->
    action_done G x others (GaQuorum n) w (World (w_staking w) (w_votes w) g)
| ad_token o w t :
    match o with
    | OTransfer a _ _ | OTransferFrom a _ _ _ | OApprove a _ _ | OBurn a _ | OBurnFrom a _ _ => a = ge_self G
    | OMint _ _ => False
    end ->
    run_token_op (bk_prove (sk_bank (w_staking w))) o = Ok t ->
    action_done G x others (GaToken o) w
      (World (sk_set_bank (bk_set_prove t (sk_bank (w_staking w))) (w_staking w)) (w_votes w) (w_governor w))
| ad_vapp c w : kx_vapp_accepts x = true -> action_done G x others (GaVApp c) w w
| ad_other target w : others = true -> action_done G x others (GaOther target) w w.

(** All actions, in order. *)
Inductive actions_done (G : gov_env) (x : staking_ctx) (others : bool) : list gov_action -> world -> world -> Prop :=
| as_nil w : actions_done G x others [] w w
| as_cons a l w w1 w' :
    action_done G x others a w w1 -> actions_done G x others l w1 w' -> actions_done G x others (a :: l) w w'.

(** The state in which proposal [id] counts as executed, nothing else changed. *)
Definition marked_executed (id : N) (p : proposal) (w : world) : world :=
  let g := w_governor w in
  World (w_staking w) (w_votes w)
    (Governor (gv_delay g) (gv_period g) (gv_threshold g) (gv_quorum g)
       (<[id := Proposal (pr_proposer p) (pr_start p) (pr_duration p) true (pr_canceled p) (pr_against p) (pr_for p)
                  (pr_abstain p) (pr_voted p)]> (gv_proposals g))).

(** ** What is the governor's to decide *)

(** Some slash request was settled by the call although not everyone could have cancelled it. *)
Definition early_settlement (G : gov_env) (x : staking_ctx) (w w' : world) : Prop :=
  exists p i c, slashes_of (w_staking w) p !! i = Some c /\ sc_resolved c = false /\
    slashes_of (w_staking w') p !! i <> Some c /\
    kx_time x < sc_time c + ke_cancel_period (ge_staking G) + gv_delay (w_governor w) + gv_period (w_governor w).

(** An executed proposal hands over or gives up the staking contract. *)
Definition hands_over (e : gov_entry) : bool :=
  match e with
  | WAccepted _ (WExecute actions _ _) _ =>
      existsb (fun a => match a with GaStaking (KTransferOwnership _ | KRenounceOwnership) => true | _ => false end) actions
  | _ => false
  end.

(** A call changed the owner of the staking contract, who pays out rewards, the rate of rewards, or one of the
    settings of the governor. *)
Definition settings_changed (w w' : world) : Prop :=
  sk_owner (w_staking w') <> sk_owner (w_staking w) \/
  dp_dispenser (sk_dispensing (w_staking w')) <> dp_dispenser (sk_dispensing (w_staking w)) \/
  dp_rate (sk_dispensing (w_staking w')) <> dp_rate (sk_dispensing (w_staking w)) \/
  gv_delay (w_governor w') <> gv_delay (w_governor w) \/
  gv_period (w_governor w') <> gv_period (w_governor w) \/
  gv_threshold (w_governor w') <> gv_threshold (w_governor w) \/
  quorum_percent w' <> quorum_percent w.
