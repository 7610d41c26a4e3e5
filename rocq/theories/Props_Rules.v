(** Property of the rules: who can change them.  The vocabulary is in [RulesSpec.v]. *)
From Verif Require Import ToyLeave.
Open Scope N_scope.

(** ** C88: the rules are changed by owners only, and by nobody once ownership is given up *)

(** From any moment on, the settings of the settlement contract (its owner, whether it is paused, its key, addresses and
    limits) stay as they are and its ledger is never replaced, unless the owner of that moment makes such a call or, where
    the governor owns it, a proposal that makes one is executed. *)
Theorem C88_settlement Y t0 n0 log n now log' n' now' :
  forall (Hrun : net_run Y t0 n0 log n now) (Hrun' : net_run Y t0 n0 (log ++ log') n' now'),
  (settings (nw_vapp n') = settings (nw_vapp n) /\ Forall no_fork (settlement Y log')) \/
  Exists (sets_rules Y (va_owner (nw_vapp n))) log'.
Proof. exact (C88_settlement_proof Y t0 n0 log n now log' n' now'). Qed.
Print Assumptions C88_settlement.

(** Once it has no owner they stay forever ... *)
Theorem C88_renounced Y t0 n0 log n now log' n' now' :
  forall (Hrun : net_run Y t0 n0 log n now) (Hrun' : net_run Y t0 n0 (log ++ log') n' now')
    (Hrenounced : va_owner (nw_vapp n) = 0),
  settings (nw_vapp n') = settings (nw_vapp n) /\ Forall no_fork (settlement Y log').
Proof. exact (C88_renounced_proof Y t0 n0 log n now log' n' now'). Qed.
Print Assumptions C88_renounced.

(** ... and if it was paused then, no call to it is ever accepted again: what it holds is locked. *)
Theorem C88_locked Y t0 n0 log n now log' n' now' :
  forall (Hrun : net_run Y t0 n0 log n now) (Hrun' : net_run Y t0 n0 (log ++ log') n' now')
    (Hrenounced : va_owner (nw_vapp n) = 0) (Hpaused : va_paused (nw_vapp n) = true),
  settlement Y log' = [] /\ nw_vapp n' = nw_vapp n.
Proof. exact (C88_locked_proof Y t0 n0 log n now log' n' now'). Qed.
Print Assumptions C88_locked.

(** The staking contract: its owner, its dispenser and the rate of rewards change only if its owner of that moment makes
    such a call, or, where the governor owns it, a proposal that makes one is executed. *)
Theorem C88_staking Y t0 n0 log n now log' n' now' :
  forall (Hrun : net_run Y t0 n0 log n now) (Hrun' : net_run Y t0 n0 (log ++ log') n' now'),
  staking_rules n' = staking_rules n \/ Exists (sets_staking_rules Y (sk_owner (w_staking (nw_world n)))) log'.
Proof. exact (C88_staking_proof Y t0 n0 log n now log' n' now'). Qed.
Print Assumptions C88_staking.

Theorem C88_staking_renounced Y t0 n0 log n now log' n' now' :
  forall (Hrun : net_run Y t0 n0 log n now) (Hrun' : net_run Y t0 n0 (log ++ log') n' now')
    (Hrenounced : sk_owner (w_staking (nw_world n)) = 0),
  staking_rules n' = staking_rules n.
Proof. exact (C88_staking_renounced_proof Y t0 n0 log n now log' n' now'). Qed.
Print Assumptions C88_staking_renounced.

(** Owners change rules and give up ownership; afterwards calls to the settlement contract and by the former owner fail. *)
Example C88_example :
  net_run toy_net 5 toy_net0 (net_log rules_run) (net_of rules_run) (net_time rules_run) /\
  net_run toy_net 5 toy_net0 (net_log rules_run ++ net_log rules_mid) (net_of rules_run2) (net_time rules_run2) /\
  net_run toy_net 5 toy_net0 (net_log rules_run2) (net_of rules_run2) (net_time rules_run2) /\
  net_run toy_net 5 toy_net0 (net_log rules_run2 ++ net_log rules_last) (net_of rules_run3) (net_time rules_run3) /\
  (va_owner (nw_vapp (net_of rules_run)), va_paused (nw_vapp (net_of rules_run))) = (1, false) /\
  (va_owner (nw_vapp (net_of rules_run2)), va_paused (nw_vapp (net_of rules_run2))) = (0, true) /\
  (staking_rules (net_of rules_run), staking_rules (net_of rules_run2)) = ((1, 6, 0), (0, 6, 10)) /\
  net_outcomes (net_log rules_mid) = [None; None; None; None] /\
  net_outcomes (net_log rules_last) =
    [Some (NVApp L1Paused); Some (NVApp L1NotOwner); Some (NWorld (GStaking KVAppRejected));
     Some (NWorld (GStaking KNotOwner)); None] /\
  tk_balance (bk_prove (sk_bank (w_staking (nw_world (net_of rules_run3))))) (ne_vapp toy_net) = 200.
Proof.
  split; [exact is_rules_run|]. split; [exact is_rules_mid|]. split; [exact is_rules_run2|]. split; [exact is_rules_end|].
  repeat match goal with |- _ /\ _ => split end; vm_compute; reflexivity.
Qed.

(** The governor owns the settlement contract: the former owner cannot pause it, a proposal does. *)
Example C88_example_governor :
  net_run toy_net 5 toy_net0 (net_log vote_run) (net_of vote_run) 42 /\
  net_run toy_net 5 toy_net0 (net_log vote_run ++ NAccepted vote_ctx vote_call [] vote_done :: net_log vote_last)
    (net_of vote_last) (net_time vote_last) /\
  net_outcomes (net_log vote_run) =
    [None; None; None; None; None; Some (NVApp L1NotOwner); None; None; Some (NWorld GUnexpectedState)] /\
  net_outcomes (net_log vote_last) = [Some (NVApp L1Paused)] /\
  (va_owner (nw_vapp (net_of vote_run)), va_paused (nw_vapp (net_of vote_run)),
   va_auctioneer (nw_vapp (net_of vote_run))) = (ne_governor toy_net, false, auctioneer1) /\
  (va_owner (nw_vapp (net_of vote_last)), va_paused (nw_vapp (net_of vote_last)),
   va_auctioneer (nw_vapp (net_of vote_last))) = (ne_governor toy_net, true, 77).
Proof.
  split; [exact is_vote_wait|]. split; [exact is_vote_end|].
  repeat match goal with |- _ /\ _ => split end; vm_compute; reflexivity.
Qed.
