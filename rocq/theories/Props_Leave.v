(** Property of leaving: every staker can take everything out.  The vocabulary is in [LeaveSpec.v]. *)
From Verif Require Import ToyLeave.
Open Scope N_scope.

(** ** C87: every staker can leave with everything that was quoted *)

(** With the deployed contracts, a staker may at any time request back any part of the stake (as long as there are fewer
    requests open than allowed, which C68 requires) ... *)
Theorem C87_request Y t0 n0 log n now x amount :
  forall (Hrun : net_run Y t0 n0 log n now) (Hnow : nx_time x = now) (Hperson : net_acts Y n (nx_sender x))
    (Hsome : 0 < amount <= whole_stake (w_staking (nw_world n)) (nx_sender x))
    (Hroom : N.of_nat (length (open_claims n (nx_sender x))) < N.min (ne_max_requests Y) (2 ^ 64))
    (Hsupply : bk_stsupply (sk_bank (w_staking (nw_world n))) < 2 ^ 256 - 1),
  exists n', net_run_call Y x (CWorld (WStaking (KRequestUnstake amount))) n = Ok n'.
Proof. exact (C87_request_proof Y t0 n0 log n now x amount). Qed.
Print Assumptions C87_request.

(** ... and when all of it was requested, once the unstake period is over, whatever others did meanwhile, anyone can
    have the staker paid: at least what the contract quoted for the stake, and for the requests open before, at the
    time of the request. *)
Theorem C87_finish Y t0 n0 log n now x n1 v w log' n2 now2 x2 :
  let a := nx_sender x in
  let request := KRequestUnstake (whole_stake (w_staking (nw_world n)) a) in
  forall (Hrun : net_run Y t0 n0 log n now) (Hnow : nx_time x = now) (Hperson : net_acts Y n a)
    (Hstaked : staked (net_staking Y) a (w_staking (nw_world n)) = Ok v)
    (Hpending : unstake_pending (net_staking Y) a (w_staking (nw_world n)) = Ok w)
    (Hasked : net_run_call Y x (CWorld (WStaking request)) n = Ok n1)
    (Hthen : net_run Y t0 n0 (log ++ NAccepted x (CWorld (WStaking request)) [] n1 :: log') n2 now2)
    (Hopen : open_claims n2 a = open_claims n1 a)
    (Hperiod : now + ne_unstake_period Y <= now2)
    (Hcaller : net_acts Y n2 (nx_sender x2)) (Hnow2 : nx_time x2 = now2)
    (Hvault : prove_balance n2 (ne_iprove Y) < 2 ^ 256),
  exists n3, net_run_call Y x2 (CWorld (WStaking (KFinishUnstake a))) n2 = Ok n3 /\
    open_claims n3 a = [] /\ prove_balance n2 a + v + w <= prove_balance n3 a.
Proof. exact (C87_finish_proof Y t0 n0 log n now x n1 v w log' n2 now2 x2). Qed.
Print Assumptions C87_finish.

(** With the staking contract alone, which can also slash: a staker who requested everything and whose prover is never
    slashed is, in payments and open requests together, never worse off than quoted. *)
Theorem C87_leave K log s x s1 evs log' s2 v w w' :
  let a := kx_sender x in
  forall (Hrun : stk_run K log s) (Hperson : outside K a)
    (Hstaked : staked K a s = Ok v) (Hpending : unstake_pending K a s = Ok w)
    (Hasked : staking_run K x (KRequestUnstake (whole_stake s a)) s = Ok (s1, evs))
    (Hthen : stk_history K s1 log' s2) (Hothers : Forall (by_outsider K) log')
    (Hunslashed : Forall (no_slash_of (bound_to s a)) (log ++ log')) (Hstays : Forall (no_request_by a) log')
    (Hleft : unstake_pending K a s2 = Ok w'),
  v + w <= claims_paid a log' + w'.
Proof. exact (C87_leave_proof K log s x s1 evs log' s2 v w w'). Qed.
Print Assumptions C87_leave.

Example C87_example :
  let s := w_staking (nw_world (net_of leave_run)) in
  net_run toy_net 5 toy_net0 (net_log leave_run) (net_of leave_run) (net_time leave_run) /\
  nx_time leave_ctx = net_time leave_run /\ net_acts toy_net (net_of leave_run) (nx_sender leave_ctx) /\
  (whole_stake s alice, length (open_claims (net_of leave_run) alice), bk_stsupply (sk_bank s)) = (400, 1%nat, 400) /\
  (staked (net_staking toy_net) alice s, unstake_pending (net_staking toy_net) alice s) = (Ok 503, Ok 125) /\
  net_run_call toy_net leave_ctx (CWorld (WStaking leave_request)) (net_of leave_run) = Ok leave_asked /\
  net_run toy_net 5 toy_net0
    (net_log leave_run ++ NAccepted leave_ctx (CWorld (WStaking leave_request)) [] leave_asked :: net_log leave_after)
    (net_of leave_after) (net_time leave_after) /\
  net_outcomes (net_log leave_after) = [None; None; None; None] /\
  open_claims (net_of leave_after) alice = open_claims leave_asked alice /\
  (net_time leave_run, ne_unstake_period toy_net, net_time leave_after) = (60, 20, 80) /\
  net_acts toy_net (net_of leave_after) mallory /\
  (prove_balance (net_of leave_after) alice, prove_balance (net_of leave_after) (ne_iprove toy_net)) = (100, 650) /\
  match net_run_call toy_net (net_ctx_at mallory 80) (CWorld (WStaking (KFinishUnstake alice))) (net_of leave_after) with
  | Ok n3 => prove_balance n3 alice = 749 /\ open_claims n3 alice = []
  | Err _ => False
  end.
Proof.
  cbv zeta. split; [exact is_leave_run|]. split; [vm_compute; reflexivity|].
  split; [apply net_actsb_ok; vm_compute; reflexivity|]. split; [vm_compute; reflexivity|]. split; [vm_compute; reflexivity|].
  split; [exact leave_asked_ok|]. split; [exact is_leave_after|]. split; [vm_compute; reflexivity|].
  split; [vm_compute; reflexivity|]. split; [vm_compute; reflexivity|].
  split; [apply net_actsb_ok; vm_compute; reflexivity|]. split; vm_compute; [reflexivity|split; reflexivity].
Qed.

Example C87_example_staking :
  stk_run toy_sk toy_run1.1 toy_run1.2 /\ outside toy_sk sk_alice /\
  staked toy_sk sk_alice toy_run1.2 = Ok 679 /\ unstake_pending toy_sk sk_alice toy_run1.2 = Ok 452 /\
  staking_run toy_sk lv_ctx (KRequestUnstake (whole_stake toy_run1.2 sk_alice)) toy_run1.2 = Ok (lv_asked.1, lv_asked.2) /\
  stk_history toy_sk lv_asked.1 lv_then.1 lv_then.2 /\ Forall (by_outsider toy_sk) lv_then.1 /\
  Forall (no_slash_of (bound_to toy_run1.2 sk_alice)) (toy_run1.1 ++ lv_then.1) /\
  Forall (no_request_by sk_alice) lv_then.1 /\
  (claims_paid sk_alice lv_then.1, unstake_pending toy_sk sk_alice lv_then.2) = (460, Ok 692).
Proof.
  split; [exact toy_is_run1|]. split; [repeat split; discriminate|]. split; [vm_compute; reflexivity|].
  split; [vm_compute; reflexivity|]. split; [exact lv_asked_ok|]. split; [exact is_lv_then|].
  split; [apply by_outsiderb_ok; vm_compute; reflexivity|]. split; [apply no_slash_ofb_ok; vm_compute; reflexivity|].
  split; [apply no_request_byb_ok; vm_compute; reflexivity|vm_compute; reflexivity].
Qed.
