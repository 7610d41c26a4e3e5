(** C93: the events of the staking contract tell its state. *)
From Verif Require Import ToyStakingEvents.
Open Scope N_scope.

(** Every history leaves one list of events. *)
Theorem C93_history K log s :
  forall (Hrun : stk_run K log s), exists dispenser logs, stk_told K dispenser log logs s.
Proof. exact (run_told K log s). Qed.
Print Assumptions C93_history.

(** The owner, the dispenser, the rate and what was dispensed. *)
Theorem C93_settings K dispenser log logs s :
  forall (Htold : stk_told K dispenser log logs s), settings_shown dispenser logs s.
Proof. exact (told_settings K dispenser log logs s). Qed.
Print Assumptions C93_settings.

(** The provers, their owners, and which of them are deactivated. *)
Theorem C93_provers K dispenser log logs s :
  forall (Htold : stk_told K dispenser log logs s), provers_shown logs s.
Proof. exact (told_provers K dispenser log logs s). Qed.
Print Assumptions C93_provers.

(** The prover, the stake and the claims of everyone. *)
Theorem C93_stakers K dispenser log logs s :
  forall (Htold : stk_told K dispenser log logs s), stakers_shown logs s.
Proof. exact (told_stakers K dispenser log logs s). Qed.
Print Assumptions C93_stakers.

(** The slash requests and which of them are open. *)
Theorem C93_slashes K dispenser log logs s :
  forall (Htold : stk_told K dispenser log logs s), slashes_shown logs s.
Proof. exact (told_slashes K dispenser log logs s). Qed.
Print Assumptions C93_slashes.

(** The $iPROVE at stake with a prover, in its vault and in escrow. *)
Theorem C93_held K dispenser log logs s p :
  forall (Htold : stk_told K dispenser log logs s) (Hother : p <> ke_self K),
  tk_balance (bk_iprove (sk_bank s)) p + ep_escrow (pool_of s p) + list_total (taken_out p) logs = list_total (put_in p) logs.
Proof. exact (told_held K dispenser log logs s p). Qed.
Print Assumptions C93_held.

(** Contracts with the same events and the same first dispenser are in the same state, as far as it is told. *)
Theorem C93_same_events K K' dispenser log log' logs s s' :
  forall (Htold : stk_told K dispenser log logs s) (Htold' : stk_told K' dispenser log' logs s'), same_told s s'.
Proof. exact (told_same K K' dispenser log log' logs s s'). Qed.
Print Assumptions C93_same_events.

(** The $PROVE that moves in a call is in its events. *)
Theorem C93_money K dispenser log logs s x c s' evs :
  forall (Htold : stk_told K dispenser log logs s) (Houtside : by_outsider K (KAccepted x c evs s'))
    (Haccepted : staking_run K x c s = Ok (s', evs)),
  money_shown K (staking_logs K x c s s' evs) (bk_prove (sk_bank s)) (bk_prove (sk_bank s')).
Proof. exact (told_call K dispenser log logs s x c s' evs). Qed.
Print Assumptions C93_money.

(** What a call returns is in its events: the $PROVE paid for finished unstakes, otherwise the answer in one event. *)
Theorem C93_returns K x c s s' evs :
  forall (Haccepted : staking_run K x c s = Ok (s', evs)),
  staking_returns K x c s =
    let logs := staking_logs K x c s s' evs in
    match c with KFinishUnstake _ => Some (list_total vault_lost logs) | _ => head (omap answer logs) end.
Proof. exact (call_returns K x c s s' evs). Qed.
Print Assumptions C93_returns.

(** Two stakers, one of whom leaves; a prover is slashed twice and deactivated; the owner and the dispenser change. *)
Example C93_example :
  stk_told toy_sk sk_giver toy_told_run.1 toy_told_logs toy_told_run.2 /\
  omap owner_step toy_told_logs = [(0, sk_keeper); (sk_keeper, 6); (6, 0)] /\
  omap dispenser_step toy_told_logs = [(sk_giver, sk_bob)] /\ omap rate_step toy_told_logs = [(0, 7)] /\
  omap deployed toy_told_logs = [(toy_prover, sk_carol, 500); (1002, sk_bob, 100)] /\
  omap deactivation toy_told_logs = [toy_prover] /\
  omap (binding_step sk_alice) toy_told_logs = [(0, toy_prover); (toy_prover, 0)] /\
  omap (claim_made sk_alice) toy_told_logs = [439; 540] /\ omap (claim_done sk_alice) toy_told_logs = [370; 556] /\
  omap (slash_asked toy_prover) toy_told_logs = [(0, 300); (1, 40); (2, 9000)] /\
  omap (slash_ended toy_prover) toy_told_logs = [0; 1; 2] /\
  stake_of (sk_bank toy_told_run.2) sk_bob = 400 /\ length (claims_of toy_told_run.2 sk_bob) = 1%nat.
Proof. exact C93_example_proof. Qed.

Example C93_held_example :
  stk_told toy_sk sk_giver toy_run34.1 toy_before_logs toy_run34.2 /\ toy_prover <> ke_self toy_sk /\
  (tk_balance (bk_iprove (sk_bank toy_run34.2)) toy_prover, ep_escrow (pool_of toy_run34.2 toy_prover),
   list_total (taken_out toy_prover) toy_before_logs, list_total (put_in toy_prover) toy_before_logs) = (900, 450, 300, 1650).
Proof. exact C93_held_example_proof. Qed.

(** Alice is paid, and what the caller is told. *)
Example C93_call_example :
  exists s', let call := KFinishUnstake sk_alice in let evs := [EvUnstake sk_alice toy_prover 370 359] in
  stk_told toy_sk sk_giver toy_run34.1 toy_before_logs toy_run34.2 /\
  staking_run toy_sk (at_ sk_carol 170) call toy_run34.2 = Ok (s', evs) /\
  by_outsider toy_sk (KAccepted (at_ sk_carol 170) call evs s') /\
  staking_returns toy_sk (at_ sk_carol 170) call toy_run34.2 = Some 370 /\
  staking_returns toy_sk (at_ 12 170) (KRequestSlash toy_prover 5) toy_run34.2 = Some 2.
Proof. exact C93_call_example_proof. Qed.
