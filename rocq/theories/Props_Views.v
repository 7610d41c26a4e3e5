(** What the staking contract answers about stakes, and the complete rules of its calls.  The vocabulary is in
    [StakingSpec.v] and [StakingRules.v]; [stk_run K log s] says that the contract reached [s] from its deployment
    by the calls of [log], made by anyone. *)
From Verif Require Import Proofs_Views.
From Coq Require Import Lia ZifyBool ZifyN ZifyNat.
Open Scope N_scope.

(** ** C67: the views quote what is there, and what is paid *)

(** A stake is worth its share of the prover's vault, a prover what its $iPROVE are worth, and a quote for
    unstaking uses the same rates. *)
Theorem C67_views_exact K log s :
  forall (Hrun : stk_run K log s) (Hvault : tk_balance (bk_prove (sk_bank s)) (ke_iprove K) < 2 ^ 256)
    (Hsupply : bk_stsupply (sk_bank s) + 1 < 2 ^ 256),
  (forall a, staked K a s = Ok (iprove_worth K s (share_worth s (bound_to s a) (stake_of (sk_bank s) a)))) /\
  (forall p, prover_staked K p s = Ok (iprove_worth K s (tk_balance (bk_iprove (sk_bank s)) p))) /\
  (forall p n, n <= stakes_on s p ->
     preview_unstake K p n (sk_bank s) = Ok (iprove_worth K s (share_worth s p n))).
Proof. exact (C67_views_exact_proof K log s). Qed.
Print Assumptions C67_views_exact.

(** The open claims of a staker are quoted at their value, if no slash brought the prover's factor to zero. *)
Theorem C67_pending_exact K log s a :
  forall (Hrun : stk_run K log s) (Hvault : tk_balance (bk_prove (sk_bank s)) (ke_iprove K) < 2 ^ 256)
    (Hnotwiped : Forall (not_wiped (bound_to s a)) log),
  unstake_pending K a s = Ok (pending_worth K s a).
Proof. exact (C67_pending_exact_proof K log s a). Qed.
Print Assumptions C67_pending_exact.

(** Once all claims are due, the payment is at least that quote, and at most what all claims together are
    worth. *)
Theorem C67_pending_paid K log s x a s' evs :
  forall (Hrun : stk_run K log s) (Houtside : a <> ke_iprove K) (Hnotwiped : Forall (not_wiped (bound_to s a)) log)
    (Haccepted : staking_run K x (KFinishUnstake a) s = Ok (s', evs))
    (Hmatured : Forall (matured K (kx_time x)) (claims_of s a)),
  claims_of s' a = [] /\ pending_worth K s a <= list_total ev_prove evs /\
  list_total ev_prove evs
  <= iprove_worth K s (list_total (claim_value (ep_factor (pool_of s (bound_to s a)))) (claims_of s a)).
Proof. exact (C67_pending_paid_proof K log s x a s' evs). Qed.
Print Assumptions C67_pending_paid.

(** The stakes quoted to any stakers of a prover add up to no more than is quoted for the prover. *)
Theorem C67_stakes_covered K log s p stakers values total :
  forall (Hrun : stk_run K log s) (Hdistinct : NoDup stakers)
    (Hanswers : Forall2 (fun a v => bound_to s a = p /\ staked K a s = Ok v) stakers values)
    (Htotal : prover_staked K p s = Ok total),
  list_total (fun v => v) values <= total.
Proof. exact (C67_stakes_covered_proof K log s p stakers values total). Qed.
Print Assumptions C67_stakes_covered.

(** What is quoted for any holders of $iPROVE adds up to no more than the $PROVE in the $iPROVE vault. *)
Theorem C67_provers_covered K log s holders values :
  forall (Hrun : stk_run K log s) (Hdistinct : NoDup holders)
    (Hanswers : Forall2 (fun p v => prover_staked K p s = Ok v) holders values),
  list_total (fun v => v) values <= tk_balance (bk_prove (sk_bank s)) (ke_iprove K).
Proof. exact (C67_provers_covered_proof K log s holders values). Qed.
Print Assumptions C67_provers_covered.

(** After a slash: stakes of 556 and 371 of a prover's 927, and 463 in escrow, of the vault's 1392. *)
Example C67_views_example :
  stk_run toy_sk toy_run34.1 toy_run34.2 /\
  tk_balance (bk_prove (sk_bank toy_run34.2)) (ke_iprove toy_sk) = 1392 /\
  Forall2 (fun a v => bound_to toy_run34.2 a = toy_prover /\ staked toy_sk a toy_run34.2 = Ok v)
    [sk_alice; sk_bob] [556; 371] /\
  prover_staked toy_sk toy_prover toy_run34.2 = Ok 927 /\
  prover_staked toy_sk (ke_self toy_sk) toy_run34.2 = Ok 463 /\
  Forall (not_wiped toy_prover) toy_run34.1 /\
  unstake_pending toy_sk sk_alice toy_run34.2 = Ok 370 /\ unstake_pending toy_sk sk_bob toy_run34.2 = Ok 92.
Proof. exact C67_views_example_proof. Qed.

(** Two claims, quoted at 869 together, are paid 496 and 373. *)
Example C67_pending_example :
  stk_run toy_sk toy_run_two.1 toy_run_two.2 /\ Forall (not_wiped (bound_to toy_run_two.2 sk_alice)) toy_run_two.1 /\
  Forall (matured toy_sk 160) (claims_of toy_run_two.2 sk_alice) /\
  (exists s', staking_run toy_sk (at_ sk_carol 160) (KFinishUnstake sk_alice) toy_run_two.2
     = Ok (s', [EvUnstake sk_alice toy_prover 496 439; EvUnstake sk_alice toy_prover 373 330])) /\
  unstake_pending toy_sk sk_alice toy_run_two.2 = Ok 869.
Proof. exact C67_pending_example_proof. Qed.

(** ** C68: the rules of the staking contract are complete *)

(** Every accepted call is allowed by the rules, and leads to exactly the balances, supplies, claims, escrow,
    registry and settings and to exactly the events that the rules give. *)
Theorem C68_rules_followed K log s x c s' evs :
  forall (Hrun : stk_run K log s) (Houtside : by_outsider K (KAccepted x c evs s'))
    (Haccepted : staking_run K x c s = Ok (s', evs)),
  exists w, rule K x (picture_of s) c w evs /\ alike w (picture_of s').
Proof. exact (C68_rules_followed_proof K log s x c s' evs). Qed.
Print Assumptions C68_rules_followed.

(** Every call that the rules allow is accepted, while amounts and times fit in machine words. *)
Theorem C68_rules_accepted K log s x c w evs :
  forall (Hrun : stk_run K log s) (Houtside : by_outsider K (KAccepted x c evs s))
    (Hmoderate : moderate K x (picture_of s)) (Hrule : rule K x (picture_of s) c w evs),
  exists s', staking_run K x c s = Ok (s', evs) /\ alike w (picture_of s').
Proof. exact (rules_accepted K log s x c w evs). Qed.
Print Assumptions C68_rules_accepted.

(** A claim paid after a slash, a slash, and a stake at a rate other than one. *)
Example C68_example :
  (stk_run toy_sk toy_run34.1 toy_run34.2 /\
   let x := at_ sk_carol 170 in let c := KFinishUnstake sk_alice in let evs := [EvUnstake sk_alice toy_prover 370 359] in
   by_outsider toy_sk (KAccepted x c evs toy_run34.2) /\ moderate toy_sk x (picture_of toy_run34.2) /\
   exists w, rule toy_sk x (picture_of toy_run34.2) c w evs) /\
  (stk_run toy_sk toy_run2.1 toy_run2.2 /\
   let x := at_ sk_keeper 70 in let c := KFinishSlash toy_prover 0 in let evs := [EvSlash toy_prover 308 300 0] in
   by_outsider toy_sk (KAccepted x c evs toy_run2.2) /\ moderate toy_sk x (picture_of toy_run2.2) /\
   exists w, rule toy_sk x (picture_of toy_run2.2) c w evs) /\
  (stk_run toy_sk toy_run1.1 toy_run1.2 /\
   let x := at_ sk_bob 161 in let c := KStake toy_prover 77 in let evs := [EvStake sk_bob toy_prover 77 74 67] in
   by_outsider toy_sk (KAccepted x c evs toy_run1.2) /\ moderate toy_sk x (picture_of toy_run1.2) /\
   exists w, rule toy_sk x (picture_of toy_run1.2) c w evs).
Proof. exact C68_example_proof. Qed.
