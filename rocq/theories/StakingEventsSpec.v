(** Vocabulary for the theorems about the events of the staking contract. *)
From Verif Require Export StakingEvents StakingSpec.
Open Scope N_scope.

(** A history together with the events it leaves behind; reverted calls and calls of the $PROVE token leave none. *)
Inductive stk_observed (K : staking_env) : staking -> list stk_entry -> list staking_log -> staking -> Prop :=
| ko_nil s : stk_observed K s [] [] s
| ko_accepted s x c s1 evs log logs s' :
    staking_run K x c s = Ok (s1, evs) -> stk_observed K s1 log logs s' ->
    stk_observed K s (KAccepted x c evs s1 :: log) (staking_logs K x c s s1 evs ++ logs) s'
| ko_reverted s x c e log logs s' :
    staking_run K x c s = Err e -> stk_observed K s log logs s' ->
    stk_observed K s (KReverted x c e :: log) logs s'
| ko_token s o t log logs s' :
    run_token_op (bk_prove (sk_bank s)) o = Ok t ->
    stk_observed K (sk_set_bank (bk_set_prove t (sk_bank s)) s) log logs s' ->
    stk_observed K s (KTokenOp o :: log) logs s'.

(** A contract was deployed with [dispenser] as the first dispenser and went through [log]; [logs] are all its events. *)
Record stk_told (K : staking_env) (dispenser : N) (log : list stk_entry) (logs : list staking_log) (s : staking) : Prop := {
  skt_addresses : stk_addresses_ok K;
  skt_start : exists prove owner governor prove_address s0 later,
    (forall a, tk_allowance prove (ke_self K) a = 0 /\ tk_allowance prove (ke_iprove K) a = 0) /\
    staking_initialize K prove owner governor prove_address dispenser = Some s0 /\
    logs = staking_initialize_logs owner ++ later /\
    stk_observed K s0 log later s;
  skt_outside : Forall (by_outsider K) log
}.

(** ** Reading the events *)

(** Old and new values in a list of changes connect [first] to [now]. *)
Inductive connected : N -> list (N * N) -> N -> Prop :=
| cn_nil a : connected a [] a
| cn_cons a b l c : connected b l c -> connected a ((a, b) :: l) c.

Definition owner_step (e : staking_log) : option (N * N) := match e with LgOwner a b => Some (a, b) | _ => None end.
Definition dispenser_step (e : staking_log) : option (N * N) := match e with LgDispenser a b => Some (a, b) | _ => None end.
Definition rate_step (e : staking_log) : option (N * N) := match e with LgRate a b => Some (a, b) | _ => None end.
Definition dispensed (e : staking_log) : N := match e with LgAmounts (EvDispense n) => n | _ => 0 end.

(** From no prover to a prover and back. *)
Definition binding_step (a : N) (e : staking_log) : option (N * N) :=
  match e with
  | LgBound b p => if b =? a then Some (0, p) else None
  | LgUnbound b p => if b =? a then Some (p, 0) else None
  | _ => None
  end.

(** $stPROVE that [a] received, that [a] gave back, that were made and that were destroyed. *)
Definition received (a : N) (e : staking_log) : N := match e with LgTransfer _ to n => if to =? a then n else 0 | _ => 0 end.
Definition given (a : N) (e : staking_log) : N := match e with LgTransfer from _ n => if from =? a then n else 0 | _ => 0 end.
(** The same by the events of staking. *)
Definition staked_by (a : N) (e : staking_log) : N :=
  match e with LgAmounts (EvStake b _ _ _ n) => if b =? a then n else 0 | _ => 0 end.
Definition unstaked_by (a : N) (e : staking_log) : N :=
  match e with LgAmounts (EvUnstakeRequest b _ n _) => if b =? a then n else 0 | _ => 0 end.

(** Claims that [a] made, with their $iPROVE, and those that were finished. *)
Definition claim_made (a : N) (e : staking_log) : option N :=
  match e with LgAmounts (EvUnstakeRequest b _ _ i) => if b =? a then Some i else None | _ => None end.
Definition claim_done (a : N) (e : staking_log) : option N :=
  match e with LgAmounts (EvUnstake b _ n _) => if b =? a then Some n else None | _ => None end.

(** Provers. *)
Definition deployed (e : staking_log) : option (N * N * N) := match e with LgDeploy p o bips => Some (p, o, bips) | _ => None end.
Definition deactivation (e : staking_log) : option N := match e with LgDeactivation p => Some p | _ => None end.

(** Slash requests against [p] with their numbers, and the numbers of those that were cancelled or carried out. *)
Definition slash_asked (p : N) (e : staking_log) : option (N * N) :=
  match e with LgAmounts (EvSlashRequest q n i) => if q =? p then Some (i, n) else None | _ => None end.
Definition slash_ended (p : N) (e : staking_log) : option N :=
  match e with
  | LgAmounts (EvSlashCancel q _ i) | LgAmounts (EvSlash q _ _ i) => if q =? p then Some i else None
  | _ => None
  end.

(** $iPROVE put to work for [p] by stakers and by rewards, paid out to its stakers, and slashed. *)
Definition put_in (p : N) (e : staking_log) : N :=
  match e with
  | LgAmounts (EvStake _ q _ i _) => if q =? p then i else 0
  | LgReward q _ i => if q =? p then i else 0
  | _ => 0
  end.
Definition taken_out (p : N) (e : staking_log) : N :=
  match e with
  | LgAmounts (EvUnstake _ q _ i) => if q =? p then i else 0
  | LgAmounts (EvSlash q _ i _) => if q =? p then i else 0
  | _ => 0
  end.

(** $PROVE that [a] paid in and was paid out. *)
Definition paid_in_by (a : N) (e : staking_log) : N :=
  match e with LgAmounts (EvStake b _ n _ _) => if b =? a then n else 0 | _ => 0 end.
Definition paid_out_to (a : N) (e : staking_log) : N :=
  match e with LgAmounts (EvUnstake b _ n _) => if b =? a then n else 0 | _ => 0 end.
(** $PROVE that the $iPROVE vault received, paid out or destroyed. *)
Definition vault_gained (e : staking_log) : N :=
  match e with LgAmounts (EvStake _ _ n _ _) => n | LgAmounts (EvDispense n) => n | LgReward _ n _ => n | _ => 0 end.
Definition vault_lost (e : staking_log) : N :=
  match e with LgAmounts (EvUnstake _ _ n _) => n | LgAmounts (EvSlash _ n _ _) => n | _ => 0 end.
(** $PROVE that the settlement contract paid as rewards. *)
Definition rewarded (e : staking_log) : N := match e with LgReward _ n _ => n | _ => 0 end.

(** ** What the events tell *)

(** The settings; the first dispenser is not told. *)
Record settings_shown (dispenser : N) (logs : list staking_log) (s : staking) : Prop := {
  ss_owner : connected 0 (omap owner_step logs) (sk_owner s);
  ss_dispenser : connected dispenser (omap dispenser_step logs) (dp_dispenser (sk_dispensing s));
  ss_rate : connected 0 (omap rate_step logs) (dp_rate (sk_dispensing s));
  ss_distributed : dp_distributed (sk_dispensing s) = list_total dispensed logs
}.

(** The provers: each has one owner, each owner one prover. *)
Record provers_shown (logs : list staking_log) (s : staking) : Prop := {
  ps_prover : forall p, is_prover s p = true <-> exists o bips, LgDeploy p o bips ∈ logs;
  ps_owner : forall o p, rg_owners (sk_registry s) !! o = Some p <-> exists bips, LgDeploy p o bips ∈ logs;
  ps_once : NoDup (map (fun d => d.1.1) (omap deployed logs)) /\ NoDup (map (fun d => d.1.2) (omap deployed logs));
  ps_fees : forall p o bips, LgDeploy p o bips ∈ logs -> bips <= 10000;
  ps_count : rg_count (sk_registry s) = N.of_nat (length (omap deployed logs)) mod 2 ^ 256;
  ps_deactivated : forall p, is_deactivated s p = true <-> LgDeactivation p ∈ logs;
  ps_deactivated_once : NoDup (omap deactivation logs)
}.

(** The stakers: their prover, their stake, their claims. *)
Record stakers_shown (logs : list staking_log) (s : staking) : Prop := {
  sh_bound : forall a, connected 0 (omap (binding_step a) logs) (bound_to s a);
  sh_stake : forall a, a <> 0 -> stake_of (sk_bank s) a + list_total (given a) logs = list_total (received a) logs;
  sh_supply : bk_stsupply (sk_bank s) + list_total (received 0) logs = list_total (given 0) logs;
  sh_staked : forall a, stake_of (sk_bank s) a + list_total (unstaked_by a) logs = list_total (staked_by a) logs;
  sh_claims : forall a, (length (claims_of s a) + length (omap (claim_done a) logs) = length (omap (claim_made a) logs))%nat;
  sh_amounts : forall a, map uc_escrow (claims_of s a) ⊆+ omap (claim_made a) logs
}.

(** The slash requests: all of them in order, with their numbers, and which are still open. *)
Record slashes_shown (logs : list staking_log) (s : staking) : Prop := {
  sl_requests : forall p, omap (slash_asked p) logs = imap (fun i c => (N.of_nat i, sc_amount c)) (slashes_of s p);
  sl_resolved : forall p i c, slashes_of s p !! i = Some c ->
    sc_resolved c = true <-> N.of_nat i ∈ omap (slash_ended p) logs;
  sl_once : forall p, NoDup (omap (slash_ended p) logs);
  sl_known : forall p i, i ∈ omap (slash_ended p) logs -> i < N.of_nat (length (slashes_of s p));
  sl_open : forall p, pending_of s p + N.of_nat (length (omap (slash_ended p) logs))
    = N.of_nat (length (omap (slash_asked p) logs))
}.

(** What happened to the $PROVE balances during a call: stakers pay in and are paid out, the settlement contract
    pays rewards, the staking contract dispenses, and everything goes into or comes out of the $iPROVE vault. *)
Definition money_shown (K : staking_env) (logs : list staking_log) (before after : token) : Prop := forall a,
  tk_balance after a + list_total (paid_in_by a) logs
    + (if a =? ke_self K then list_total dispensed logs else 0)
    + (if a =? ke_vapp K then list_total rewarded logs else 0)
    + (if a =? ke_iprove K then list_total vault_lost logs else 0)
  = tk_balance before a + list_total (paid_out_to a) logs + (if a =? ke_iprove K then list_total vault_gained logs else 0).

(** The value that a caller gets back, in the events: shares for a stake, the number of a slash request, the
    $iPROVE slashed, the address of a new prover. *)
Definition answer (e : staking_log) : option N :=
  match e with
  | LgAmounts (EvStake _ _ _ _ n) => Some n
  | LgAmounts (EvSlashRequest _ _ i) => Some i
  | LgAmounts (EvSlash _ _ n _) => Some n
  | LgDeploy p _ _ => Some p
  | _ => None
  end.

(** Two contracts that look the same to those who know their events. *)
Record same_told (s s' : staking) : Prop := {
  sm_owner : sk_owner s = sk_owner s';
  sm_dispenser : dp_dispenser (sk_dispensing s) = dp_dispenser (sk_dispensing s');
  sm_rate : dp_rate (sk_dispensing s) = dp_rate (sk_dispensing s');
  sm_distributed : dp_distributed (sk_dispensing s) = dp_distributed (sk_dispensing s');
  sm_provers : forall p, is_prover s p = is_prover s' p /\ is_deactivated s p = is_deactivated s' p;
  sm_owners : rg_owners (sk_registry s) = rg_owners (sk_registry s');
  sm_count : rg_count (sk_registry s) = rg_count (sk_registry s');
  sm_stakers : forall a, bound_to s a = bound_to s' a /\ stake_of (sk_bank s) a = stake_of (sk_bank s') a /\
    length (claims_of s a) = length (claims_of s' a);
  sm_supply : bk_stsupply (sk_bank s) = bk_stsupply (sk_bank s');
  sm_slashes : forall p, map sc_amount (slashes_of s p) = map sc_amount (slashes_of s' p) /\
    map sc_resolved (slashes_of s p) = map sc_resolved (slashes_of s' p) /\ pending_of s p = pending_of s' p
}.
