(** Properties of the staking contract.  The vocabulary is in [StakingSpec.v]; [stk_run K log s] says that
    the contract reached [s] from its deployment by the calls of [log], made by anyone. *)
From Verif Require Import Proofs_Staking.
From Coq Require Import Lia ZifyBool ZifyN ZifyNat.
Open Scope N_scope.

(** ** C40: claims and slashes never pay out more than is escrowed *)

(** The contract holds exactly the escrow of all provers, in $iPROVE. *)
Theorem C40_escrow_held K log s :
  forall (Hrun : stk_run K log s), tk_balance (bk_iprove (sk_bank s)) (ke_self K) = all_escrow s.
Proof. intros H. exact (ki_escrow K s (inv_run K log s H)). Qed.
Print Assumptions C40_escrow_held.

(** For each prover: what was requested is what is still escrowed, plus what was paid, plus the part of the
    slashes taken from escrow. *)
Theorem C40_escrow_accounting K log s p :
  forall (Hrun : stk_run K log s),
  exists burned, burned <= list_total (ev_slashed p) (events log) /\
    list_total (ev_requested p) (events log)
    = ep_escrow (pool_of s p) + list_total (ev_paid p) (events log) + burned.
Proof. exact (C40_escrow_accounting_proof K log s p). Qed.
Print Assumptions C40_escrow_accounting.

(** Each request is paid at most once: claims left plus claims paid are the requests made. *)
Theorem C40_paid_once K log s a :
  forall (Hrun : stk_run K log s),
  list_total (is_request a) (events log)
  = N.of_nat (length (claims_of s a)) + list_total (is_unstake a) (events log).
Proof. exact (C40_paid_once_proof K log s a). Qed.
Print Assumptions C40_paid_once.

(** Alice's request was paid, Bob's is open; a slash took 79 out of escrow. *)
Example C40_accounting_example :
  stk_run toy_sk toy_run4.1 toy_run4.2 /\
  list_total (ev_requested toy_prover) (events toy_run4.1) = 529 /\
  ep_escrow (pool_of toy_run4.2 toy_prover) = 91 /\
  list_total (ev_paid toy_prover) (events toy_run4.1) = 359 /\
  list_total (ev_slashed toy_prover) (events toy_run4.1) = 300 /\
  (list_total (is_request sk_alice) (events toy_run4.1), list_total (is_unstake sk_alice) (events toy_run4.1)) = (1, 1) /\
  (list_total (is_request sk_bob) (events toy_run4.1), length (claims_of toy_run4.2 sk_bob)) = (1, 1%nat).
Proof. exact C40_accounting_example_proof. Qed.

(** Finishing handles exactly the claims whose waiting period is over, and only those.  The staker
    receives what the events say, out of the $iPROVE vault.  Nobody else's claims, stakes or pools move. *)
Theorem C40_finish_exact K log s x a s' evs :
  forall (Hrun : stk_run K log s) (Haccepted : staking_run K x (KFinishUnstake a) s = Ok (s', evs)),
  exists done,
    Permutation (claims_of s a) (done ++ claims_of s' a) /\
    Forall (matured K (kx_time x)) done /\ Forall (fun c => ~ matured K (kx_time x) c) (claims_of s' a) /\
    Forall2 (fun c ev => exists prove i, ev = EvUnstake a (bound_to s a) prove i /\
                           i <= claim_value (ep_factor (pool_of s (bound_to s a))) c) done evs /\
    tk_balance (bk_prove (sk_bank s')) a = tk_balance (bk_prove (sk_bank s)) a + list_total ev_prove evs /\
    i_assets K (sk_bank s') + list_total ev_prove evs = i_assets K (sk_bank s) /\
    (forall b, b <> a -> claims_of s' b = claims_of s b /\ bound_to s' b = bound_to s b) /\
    (forall q, q <> bound_to s a -> pool_of s' q = pool_of s q) /\
    (forall b, stake_of (sk_bank s') b = stake_of (sk_bank s) b).
Proof. exact (C40_finish_exact_proof K log s x a s' evs). Qed.
Print Assumptions C40_finish_exact.

(** Alice, whose 439 are worth 359 after the slash, receives $PROVE 370 for them. *)
Example C40_finish_example :
  stk_run toy_sk toy_run34.1 toy_run34.2 /\
  (exists s', staking_run toy_sk (at_ sk_carol 170) (KFinishUnstake sk_alice) toy_run34.2
              = Ok (s', [EvUnstake sk_alice toy_prover 370 359])) /\
  tk_balance (bk_prove (sk_bank toy_run4.2)) sk_alice = tk_balance (bk_prove (sk_bank toy_run34.2)) sk_alice + 370.
Proof. exact C40_finish_example_proof. Qed.

(** A request moves what the receipts are worth in $iPROVE from the prover's vault to its escrow, and
    records it with the time and the slash factor.  Nothing else changes. *)
Theorem C40_request_exact K log s x n s' evs :
  forall (Hrun : stk_run K log s) (Haccepted : staking_run K x (KRequestUnstake n) s = Ok (s', evs)),
  let a := kx_sender x in let p := bound_to s a in
  exists i factor, evs = [EvUnstakeRequest a p n i] /\ n <> 0 /\ n <= stake_of (sk_bank s) a /\
    i = share_worth s p n /\
    factor = (if ep_factor (pool_of s p) =? 0 then 10 ^ 27 else ep_factor (pool_of s p)) /\
    claims_of s' a = claims_of s a ++ [UnstakeClaim i factor (kx_time x)] /\
    N.of_nat (length (claims_of s' a)) <= ke_max_requests K /\
    pool_of s' p = EscrowPool (ep_escrow (pool_of s p) + i) factor /\
    v_assets p (sk_bank s') + i = v_assets p (sk_bank s) /\
    (forall b, stake_of (sk_bank s') b + (if b =? a then n else 0) = stake_of (sk_bank s) b) /\
    (forall b, b <> a -> claims_of s' b = claims_of s b) /\ (forall b, bound_to s' b = bound_to s b) /\
    (forall q, q <> p -> pool_of s' q = pool_of s q) /\
    (forall q, q <> p -> q ∈ rg_provers (sk_registry s) -> v_assets q (sk_bank s') = v_assets q (sk_bank s)) /\
    bk_prove (sk_bank s') = bk_prove (sk_bank s) /\ bk_isupply (sk_bank s') = bk_isupply (sk_bank s).
Proof. intros Hr H. exact (request_exact K x n s s' evs (inv_run K log s Hr) H). Qed.
Print Assumptions C40_request_exact.

(** Nobody has more open claims than the contract allows. *)
Theorem C40_claims_bounded K log s a :
  forall (Hrun : stk_run K log s), N.of_nat (length (claims_of s a)) <= ke_max_requests K.
Proof. exact (C40_claims_bounded_proof K log s a). Qed.
Print Assumptions C40_claims_bounded.

(** Bob requests 100 receipts, worth $iPROVE 90, after a slash. *)
Example C40_request_example :
  stk_run toy_sk toy_run3b.1 toy_run3b.2 /\
  (exists s', staking_run toy_sk (at_ sk_bob 80) (KRequestUnstake 100) toy_run3b.2
              = Ok (s', [EvUnstakeRequest sk_bob toy_prover 100 90])) /\
  share_worth toy_run3b.2 toy_prover 100 = 90 /\
  ep_factor (pool_of toy_run3b.2 toy_prover) = 818181818181818181818181818 /\
  (length (claims_of toy_run3.2 sk_bob), ke_max_requests toy_sk) = (1%nat, 10).
Proof. exact C40_request_example_proof. Qed.

(** A slash takes exactly the requested amount, or all there is, from vault and escrow in proportion; it
    destroys the $PROVE behind it, and touches no other prover, no stake and no claim. *)
Theorem C40_slash_exact K log s x p i s' evs :
  forall (Hrun : stk_run K log s) (Haccepted : staking_run K x (KFinishSlash p i) s = Ok (s', evs)),
  let total := v_assets p (sk_bank s) + ep_escrow (pool_of s p) in
  exists c burned, slashes_of s p !! N.to_nat i = Some c /\ sc_resolved c = false /\ kx_sender x = sk_owner s /\
    let amount := N.min (sc_amount c) total in
    evs = [EvSlash p burned amount i] /\
    ep_escrow (pool_of s' p) = ep_escrow (pool_of s p) - amount * ep_escrow (pool_of s p) / total /\
    v_assets p (sk_bank s') + ep_escrow (pool_of s' p) + amount = total /\
    bk_isupply (sk_bank s') + amount = bk_isupply (sk_bank s) /\
    i_assets K (sk_bank s') + burned = i_assets K (sk_bank s) /\
    (forall q, q <> p -> q ∈ rg_provers (sk_registry s) ->
       v_assets q (sk_bank s') = v_assets q (sk_bank s) /\ pool_of s' q = pool_of s q) /\
    (forall a, stake_of (sk_bank s') a = stake_of (sk_bank s) a /\ claims_of s' a = claims_of s a).
Proof. intros Hr H. exact (slash_exact K x p i s s' evs (inv_run K log s Hr) H). Qed.
Print Assumptions C40_slash_exact.

(** Each slash request is cancelled or finished at most once. *)
Theorem C40_slash_once K log s p i :
  forall (Hrun : stk_run K log s), list_total (resolves p i) log <= 1.
Proof. exact (C40_slash_once_proof K log s p i). Qed.
Print Assumptions C40_slash_once.

(** The slash of 300 in the example takes 79 from escrow, and a second attempt is refused. *)
Example C40_slash_example :
  stk_run toy_sk toy_run2.1 toy_run2.2 /\
  (exists s', staking_run toy_sk (at_ sk_keeper 70) (KFinishSlash toy_prover 0) toy_run2.2
              = Ok (s', [EvSlash toy_prover 308 300 0])) /\
  (ep_escrow (pool_of toy_run2.2 toy_prover), ep_escrow (pool_of toy_run3b.2 toy_prover)) = (439, 360) /\
  list_total (resolves toy_prover 0) toy_run4.1 = 1.
Proof. exact C40_slash_example_proof. Qed.

(** ** C41: dispensing never exceeds what was earned *)

(** [earned log now] sums, over all seconds up to [now], the rate in force during that second. *)
Theorem C41_dispensed_le_earned K log s now :
  forall (Hrun : stk_run K log s) (Horder : in_order 0 log now),
  list_total ev_dispensed (events log) <= earned log now.
Proof. intros Hr Ho. destruct (run_rewards K log s now Hr Ho) as (_ & _ & <- & H). exact H. Qed.
Print Assumptions C41_dispensed_le_earned.

(** What may still be dispensed is exactly what was earned and not yet dispensed. *)
Theorem C41_available_exact K log s x available :
  forall (Hrun : stk_run K log s) (Horder : in_order 0 log (kx_time x))
    (Havailable : max_dispense x (sk_dispensing s) = Ok available),
  available + list_total ev_dispensed (events log) = earned log (kx_time x).
Proof. exact (C41_available_exact_proof K log s x available). Qed.
Print Assumptions C41_available_exact.

(** A dispense pays out exactly what was asked for, or, for the all-balance marker 2^256 - 1, exactly what is
    still available.  The payment goes from the contract to the $iPROVE vault, and nothing else changes. *)
Theorem C41_dispense_exact K log s x amount s' evs :
  forall (Hrun : stk_run K log s) (Horder : in_order 0 log (kx_time x))
    (Haccepted : staking_run K x (KDispense amount) s = Ok (s', evs)),
  exists paid, let before := list_total ev_dispensed (events log) in
    evs = [EvDispense paid] /\ 0 < paid /\ kx_sender x = dp_dispenser (sk_dispensing s) /\
    before + paid <= earned log (kx_time x) /\
    (if amount =? 2 ^ 256 - 1 then before + paid = earned log (kx_time x) else paid = amount) /\
    tk_balance (bk_prove (sk_bank s')) (ke_self K) + paid = tk_balance (bk_prove (sk_bank s)) (ke_self K) /\
    i_assets K (sk_bank s') = i_assets K (sk_bank s) + paid /\
    (forall a, outside K a -> tk_balance (bk_prove (sk_bank s')) a = tk_balance (bk_prove (sk_bank s)) a) /\
    bk_iprove (sk_bank s') = bk_iprove (sk_bank s) /\ bk_isupply (sk_bank s') = bk_isupply (sk_bank s) /\
    (forall a, stake_of (sk_bank s') a = stake_of (sk_bank s) a) /\
    sk_claims s' = sk_claims s /\ sk_slashes s' = sk_slashes s /\ sk_pools s' = sk_pools s /\
    sk_bound s' = sk_bound s /\ sk_registry s' = sk_registry s.
Proof. exact (C41_dispense_exact_proof K log s x amount s' evs). Qed.
Print Assumptions C41_dispense_exact.

(** Rate 7 from time 30: 77 earned at time 41, of which 50 dispensed and 27 available. *)
Example C41_example :
  stk_run toy_sk toy_run1.1 toy_run1.2 /\ in_order 0 toy_run1.1 50 /\
  list_total ev_dispensed (events toy_run1.1) = 50 /\ earned toy_run1.1 50 = 140 /\
  max_dispense (at_ sk_giver 50) (sk_dispensing toy_run1.2) = Ok 90 /\
  match staking_run toy_sk (at_ sk_giver 50) (KDispense (2 ^ 256 - 1)) toy_run1.2 with
  | Ok (_, evs) => evs = [EvDispense 90]
  | Err _ => False
  end.
Proof. exact C41_example_proof. Qed.

(** ** C47: a stake does not lose value except by slashing *)

(** Whatever others do, the $PROVE value of a stake does not fall as long as the staker requests no
    unstake and the prover is not slashed. *)
Theorem C47_stake_keeps_value K log s log' s' a v v' :
  forall (Hrun : stk_run K log s) (Hmore : stk_history K s log' s') (Houtside : Forall (by_outsider K) log')
    (Hnorequest : Forall (no_request_by a) log') (Hnoslash : Forall (no_slash_of (bound_to s a)) log')
    (Hbefore : staked K a s = Ok v) (Hafter : staked K a s' = Ok v'),
  v <= v'.
Proof. intros Hr Hh Ho H1 H2 Hv Hv'. exact (staked_mono K s log' s' a v v' Hh (inv_run K log s Hr) Ho H1 H2 Hv Hv'). Qed.
Print Assumptions C47_stake_keeps_value.

(** Bob's stake rises from 566 to 624 while Alice requests an unstake and rewards arrive. *)
Example C47_example :
  let r := stk_exec toy_sk toy_more toy_run1.2 in
  stk_run toy_sk toy_run1.1 toy_run1.2 /\ stk_history toy_sk toy_run1.2 r.1 r.2 /\
  Forall (by_outsider toy_sk) r.1 /\ Forall (no_request_by sk_bob) r.1 /\
  Forall (no_slash_of (bound_to toy_run1.2 sk_bob)) r.1 /\
  staked toy_sk sk_bob toy_run1.2 = Ok 566 /\ staked toy_sk sk_bob r.2 = Ok 624.
Proof. exact C47_example_proof. Qed.

(** Staking takes exactly the amount from the staker and gives it to the $iPROVE vault; the receipts issued for it
    are worth no more than was paid. *)
Theorem C47_stake_exact K log s x c s' evs a p n :
  forall (Hrun : stk_run K log s) (Houtside : by_outsider K (KAccepted x c evs s'))
    (Hcall : c = KStake p n /\ a = kx_sender x \/ c = KPermitAndStake p a n)
    (Haccepted : staking_run K x c s = Ok (s', evs)),
  exists iprove sh, evs = [EvStake a p n iprove sh] /\ iprove <> 0 /\ sh <> 0 /\ ke_min_stake K <= n /\
    iprove = issued n (i_assets K (sk_bank s)) (bk_isupply (sk_bank s)) /\
    sh = issued iprove (v_assets p (sk_bank s)) (stakes_on s p) /\
    p ∈ rg_provers (sk_registry s) /\ p ∉ rg_deactivated (sk_registry s) /\
    tk_balance (bk_prove (sk_bank s')) a + n = tk_balance (bk_prove (sk_bank s)) a /\
    i_assets K (sk_bank s') = i_assets K (sk_bank s) + n /\
    (forall y, y <> a -> y <> ke_iprove K ->
       tk_balance (bk_prove (sk_bank s')) y = tk_balance (bk_prove (sk_bank s)) y) /\
    (forall y, stake_of (sk_bank s') y = stake_of (sk_bank s) y + if y =? a then sh else 0) /\
    bound_to s' a = p /\ (bound_to s a = 0 \/ bound_to s a = p) /\
    iprove_worth K s' (share_worth s' p sh) <= n.
Proof. exact (C47_stake_exact_proof K log s x c s' evs a p n). Qed.
Print Assumptions C47_stake_exact.

(** After rewards, a stake of 77 gets 67 receipts, worth 75. *)
Example C47_stake_example :
  stk_run toy_sk toy_run1.1 toy_run1.2 /\
  (exists s', staking_run toy_sk (at_ sk_bob 161) (KStake toy_prover 77) toy_run1.2
              = Ok (s', [EvStake sk_bob toy_prover 77 74 67])) /\
  preview_unstake toy_sk toy_prover 67
    (sk_bank (stk_exec toy_sk [SCall (at_ sk_bob 161) (KStake toy_prover 77)] toy_run1.2).2) = Ok 75.
Proof. exact C47_stake_example_proof. Qed.

(** ** C48: claims are backed by escrow and paid at their value *)

(** As long as no slash of the prover brought its factor to zero, all its claims together are worth at
    most its escrow. *)
Theorem C48_claims_backed K log s p :
  forall (Hrun : stk_run K log s) (Hprover : p <> 0) (Hnotwiped : Forall (not_wiped p) log),
  all_claims_value s p <= ep_escrow (pool_of s p).
Proof. exact (C48_claims_backed_proof K log s p). Qed.
Print Assumptions C48_claims_backed.

(** Every matured claim is paid exactly its value, no more than was escrowed for it, and in $PROVE at no
    worse a rate than the vault quotes before the call. *)
Theorem C48_paid_in_full K log s x a s' evs :
  forall (Hrun : stk_run K log s) (Hnotwiped : Forall (not_wiped (bound_to s a)) log)
    (Haccepted : staking_run K x (KFinishUnstake a) s = Ok (s', evs)),
  exists done,
    Permutation (claims_of s a) (done ++ claims_of s' a) /\
    Forall (matured K (kx_time x)) done /\ Forall (fun c => ~ matured K (kx_time x) c) (claims_of s' a) /\
    Forall (fun c => claim_value (ep_factor (pool_of s (bound_to s a))) c <= uc_escrow c) done /\
    Forall2 (fun c ev => exists prove,
      ev = EvUnstake a (bound_to s a) prove (claim_value (ep_factor (pool_of s (bound_to s a))) c) /\
      iprove_worth K s (claim_value (ep_factor (pool_of s (bound_to s a))) c) <= prove) done evs.
Proof. exact (C48_paid_in_full_proof K log s x a s' evs). Qed.
Print Assumptions C48_paid_in_full.

(** If the prover was never slashed, every claim is worth all that was escrowed for it. *)
Theorem C48_unslashed_full K log s p a c :
  forall (Hrun : stk_run K log s) (Hprover : p <> 0) (Hnoslash : Forall (no_slash_of p) log)
    (Hbound : bound_to s a = p) (Hclaim : c ∈ claims_of s a),
  claim_value (ep_factor (pool_of s p)) c = uc_escrow c.
Proof. intros Hr Hp Hn Hb Hc. exact (unslashed_value p s a c (unslashed_run K p log s Hp Hr Hn) Hb Hc). Qed.
Print Assumptions C48_unslashed_full.

(** After the slash, claims of 439 and 90 are worth 359 and 90, with 450 in escrow; before it, the claim of
    439 is worth 439. *)
Example C48_example :
  stk_run toy_sk toy_run34.1 toy_run34.2 /\ Forall (not_wiped toy_prover) toy_run34.1 /\
  all_claims_value toy_run34.2 toy_prover = 449 /\ ep_escrow (pool_of toy_run34.2 toy_prover) = 450 /\
  stk_run toy_sk toy_run1.1 toy_run1.2 /\ Forall (no_slash_of toy_prover) toy_run1.1 /\
  map (claim_value (ep_factor (pool_of toy_run1.2 toy_prover))) (claims_of toy_run1.2 sk_alice) = [439].
Proof. exact C48_example_proof. Qed.

(** ** C49: after a complete slash, claims are not backed *)

(** Refuted: that a claim never pays more than was escrowed for it.  After a prover was slashed by half and
    then completely, and staked on again, Alice's claim of 500, wiped out by the second slash, is paid
    1000 out of Bob's escrow, and Bob's claim of 1000 is left with an empty escrow. *)
Theorem C49_paid_le_escrowed_refuted :
  exists K log s x a c s' prove paid,
    stk_run K log s /\ claims_of s a = [c] /\
    staking_run K x (KFinishUnstake a) s = Ok (s', [EvUnstake a (bound_to s a) prove paid]) /\
    uc_escrow c < paid /\ ep_escrow (pool_of s' (bound_to s a)) = 0 /\
    exists b c', claims_of s' b = [c'] /\ bound_to s' b = bound_to s a /\ uc_escrow c' = paid.
Proof. exact C49_paid_le_escrowed_refuted_proof. Qed.
Print Assumptions C49_paid_le_escrowed_refuted.

(** ** C50: receipts *)

(** The vault shares of a prover are exactly the $stPROVE of the stakers bound to it, the $stPROVE supply
    is the sum of all stakes, and who has a stake or an open claim is bound to a registered prover. *)
Theorem C50_receipts_match K log s :
  forall (Hrun : stk_run K log s),
  (forall p, shares_of (sk_bank s) p = stakes_on s p) /\
  bk_stsupply (sk_bank s) = map_total (fun _ n => n) (bk_stakes (sk_bank s)) /\
  (forall a, stake_of (sk_bank s) a <> 0 \/ claims_of s a <> [] ->
     bound_to s a <> 0 /\ bound_to s a ∈ rg_provers (sk_registry s)).
Proof. exact (C50_receipts_match_proof K log s). Qed.
Print Assumptions C50_receipts_match.

Example C50_example :
  stk_run toy_sk toy_run1.1 toy_run1.2 /\ shares_of (sk_bank toy_run1.2) toy_prover = 1100 /\
  stakes_on toy_run1.2 toy_prover = 1100 /\
  (stake_of (sk_bank toy_run1.2) sk_alice, stake_of (sk_bank toy_run1.2) sk_bob) = (600, 500).
Proof. exact C50_example_proof. Qed.

(** ** C51: stakers and the owner are never locked out *)

(** Anyone can finish the claims of a staker, if no slash is pending and none brought the factor to zero. *)
Theorem C51_finish_accepted K log s x a :
  forall (Hrun : stk_run K log s) (Hclaims : claims_of s a <> [])
    (Hnotwiped : Forall (not_wiped (bound_to s a)) log) (Hnopending : ~ slash_pending s (bound_to s a))
    (Htimes : forall c, c ∈ claims_of s a -> uc_time c + ke_unstake_period K < two256)
    (Hassets : i_assets K (sk_bank s) < two256),
  exists s' evs, staking_run K x (KFinishUnstake a) s = Ok (s', evs).
Proof. exact (C51_finish_accepted_proof K log s x a). Qed.
Print Assumptions C51_finish_accepted.

(** A staker can request to unstake any part of the stake. *)
Theorem C51_request_accepted K log s x n :
  forall (Hrun : stk_run K log s) (Hpositive : n <> 0) (Hstake : n <= stake_of (sk_bank s) (kx_sender x))
    (Hroom : N.of_nat (length (claims_of s (kx_sender x))) < ke_max_requests K)
    (Hroom64 : N.of_nat (length (claims_of s (kx_sender x))) < two64)
    (Hnopending : ~ slash_pending s (bound_to s (kx_sender x)))
    (Hsupply : bk_stsupply (sk_bank s) + 1 < two256),
  exists s' evs, staking_run K x (KRequestUnstake n) s = Ok (s', evs).
Proof. exact (C51_request_accepted_proof K log s x n). Qed.
Print Assumptions C51_request_accepted.

(** Anyone can cancel a slash request once its time is over. *)
Theorem C51_cancel_accepted K s x p i c :
  forall (Hprover : p ∈ rg_provers (sk_registry s)) (Hrequest : slashes_of s p !! N.to_nat i = Some c)
    (Hopen : sc_resolved c = false)
    (Htime : sc_time c + ke_cancel_period K + kx_voting_delay x + kx_voting_period x <= kx_time x)
    (Hclock : kx_time x < two256),
  exists s' evs, staking_run K x (KCancelSlash p i) s = Ok (s', evs).
Proof. intros H1 H2 H3 H4 H5. exact (cancel_slash_live K x p i s c H1 H2 H3 H4 H5). Qed.
Print Assumptions C51_cancel_accepted.

(** The owner can finish every open slash request. *)
Theorem C51_slash_accepted K log s x p i c :
  forall (Hrun : stk_run K log s) (Howner : kx_sender x = sk_owner s)
    (Hprover : p ∈ rg_provers (sk_registry s)) (Hrequest : slashes_of s p !! N.to_nat i = Some c)
    (Hopen : sc_resolved c = false) (Hvault : v_assets p (sk_bank s) * 10 ^ 18 < two256)
    (Hassets : i_assets K (sk_bank s) < two256),
  exists s' evs, staking_run K x (KFinishSlash p i) s = Ok (s', evs).
Proof. intros Hr H1 H2 H3 H4 H5 H6. exact (finish_slash_live K x p i s c (inv_run K log s Hr) H1 H2 H3 H4 H5 H6). Qed.
Print Assumptions C51_slash_accepted.

Example C51_example :
  stk_run toy_sk toy_run34.1 toy_run34.2 /\ ~ slash_pending toy_run34.2 toy_prover /\
  length (claims_of toy_run34.2 sk_alice) = 1%nat /\ bound_to toy_run34.2 sk_alice = toy_prover /\
  Forall (not_wiped toy_prover) toy_run34.1 /\
  (map (fun c => uc_time c + ke_unstake_period toy_sk <? two256) (claims_of toy_run34.2 sk_alice),
   i_assets toy_sk (sk_bank toy_run34.2) <? two256) = ([true], true) /\
  (stake_of (sk_bank toy_run34.2) sk_alice, bk_stsupply (sk_bank toy_run34.2)) = (600, 1000) /\
  stk_run toy_sk toy_run3.1 toy_run3.2 /\ is_prover toy_run3.2 toy_prover = true /\
  slashes_of toy_run3.2 toy_prover !! 1%nat = Some (SlashClaim 40 81 false).
Proof. exact C51_example_proof. Qed.

(** The dispenser can dispense whatever was earned and not yet dispensed, if the contract holds it. *)
Theorem C51_dispense_accepted K log s x n :
  forall (Hrun : stk_run K log s) (Horder : in_order 0 log (kx_time x))
    (Hdispenser : kx_sender x = dp_dispenser (sk_dispensing s)) (Hpositive : n <> 0)
    (Hearned : list_total ev_dispensed (events log) + n <= earned log (kx_time x))
    (Hfits : earned log (kx_time x) < 2 ^ 256 - 1)
    (Hheld : n <= tk_balance (bk_prove (sk_bank s)) (ke_self K)),
  exists s' evs, staking_run K x (KDispense n) s = Ok (s', evs).
Proof. exact (C51_dispense_accepted_proof K log s x n). Qed.
Print Assumptions C51_dispense_accepted.

(** The dispenser may pay 90 at time 50 and the contract holds more. *)
Example C51_dispense_example :
  stk_run toy_sk toy_run1.1 toy_run1.2 /\ in_order 0 toy_run1.1 50 /\
  dp_dispenser (sk_dispensing toy_run1.2) = sk_giver /\
  list_total ev_dispensed (events toy_run1.1) + 90 = earned toy_run1.1 50 /\
  (90 <=? tk_balance (bk_prove (sk_bank toy_run1.2)) (ke_self toy_sk)) = true.
Proof. exact C51_dispense_example_proof. Qed.

(** ** C52: a pending slash freezes the stakes on the prover *)

(** While a slash request of a prover is open, nobody can stake on it, request to unstake from it or finish
    an unstake from it, so nobody can avoid or dilute the slash. *)
Theorem C52_pending_slash_freezes K log s p x c :
  forall (Hrun : stk_run K log s) (Hpending : slash_pending s p)
    (Hcall : (exists n, c = KStake p n) \/ (exists a n, c = KPermitAndStake p a n) \/
             (exists n, c = KRequestUnstake n /\ bound_to s (kx_sender x) = p) \/
             (exists a, c = KFinishUnstake a /\ bound_to s a = p)),
  exists e, staking_run K x c s = Err e.
Proof. exact (C52_pending_slash_freezes_proof K log s p x c). Qed.
Print Assumptions C52_pending_slash_freezes.

Example C52_example :
  stk_run toy_sk toy_run2.1 toy_run2.2 /\ slash_pending toy_run2.2 toy_prover /\
  run_events toy_sk (at_ sk_bob 60) (KStake toy_prover 10) toy_run2.2 = Err KProverHasSlashRequest /\
  run_events toy_sk (at_ sk_bob 60) (KRequestUnstake 10) toy_run2.2 = Err KProverHasSlashRequest /\
  run_events toy_sk (at_ sk_bob 600) (KFinishUnstake sk_alice) toy_run2.2 = Err KProverHasSlashRequest.
Proof. exact C52_example_proof. Qed.

(** ** C53: who may change settings, dispense and slash *)

Theorem C53_settings_authorised K s x c s' evs :
  forall (Haccepted : staking_run K x c s = Ok (s', evs)),
  (sk_owner s' <> sk_owner s \/ dp_dispenser (sk_dispensing s') <> dp_dispenser (sk_dispensing s) \/
   dp_rate (sk_dispensing s') <> dp_rate (sk_dispensing s) -> kx_sender x = sk_owner s) /\
  (dp_distributed (sk_dispensing s') <> dp_distributed (sk_dispensing s) ->
   kx_sender x = dp_dispenser (sk_dispensing s)).
Proof. exact (settings_change K x c s s' evs). Qed.
Print Assumptions C53_settings_authorised.

(** Slash requests are only added by the settlement contract; an open one is only settled by the owner, or by
    anyone after its time. *)
Theorem C53_slashes_authorised K s x c s' evs p :
  forall (Haccepted : staking_run K x c s = Ok (s', evs)),
  slashes_of s' p = slashes_of s p \/
  (p ∈ rg_provers (sk_registry s) /\ slashes_change K x (sk_owner s) (slashes_of s p) (slashes_of s' p)).
Proof. exact (slashes_changes K x c s s' evs p). Qed.
Print Assumptions C53_slashes_authorised.

Example C53_example :
  run_events toy_sk (at_ 12 60) (KRequestSlash toy_prover 5) toy_run2.2 = Ok [EvSlashRequest toy_prover 5 1] /\
  run_events toy_sk (at_ sk_keeper 60) (KRequestSlash toy_prover 5) toy_run2.2 = Err KNotVApp /\
  run_events toy_sk (at_ sk_carol 60) (KFinishSlash toy_prover 0) toy_run2.2 = Err KNotOwner /\
  run_events toy_sk (at_ sk_carol 111) (KCancelSlash toy_prover 0) toy_run2.2 = Err KNotReadyToCancel /\
  run_events toy_sk (at_ sk_carol 112) (KCancelSlash toy_prover 0) toy_run2.2 = Ok [EvSlashCancel toy_prover 300 0] /\
  run_events toy_sk (at_ sk_carol 60) (KDispense 1) toy_run2.2 = Err KNotDispenser /\
  run_events toy_sk (at_ sk_carol 60) (KUpdateRate 1) toy_run2.2 = Err KNotOwner /\
  run_events toy_sk (at_ sk_keeper 60) (KUpdateRate 1) toy_run2.2 = Ok [].
Proof. repeat match goal with |- _ /\ _ => split end; vm_compute; reflexivity. Qed.

(** ** C54: the registry of provers *)

(** Provers have one owner each and owners one prover each. *)
Theorem C54_one_prover_each K log s :
  forall (Hrun : stk_run K log s),
  (forall o p, rg_owners (sk_registry s) !! o = Some p -> p ∈ rg_provers (sk_registry s)) /\
  (forall o o' p, rg_owners (sk_registry s) !! o = Some p -> rg_owners (sk_registry s) !! o' = Some p -> o = o') /\
  (forall p, p ∈ rg_provers (sk_registry s) -> exists o, rg_owners (sk_registry s) !! o = Some p).
Proof. exact (C54_one_prover_each_proof K log s). Qed.
Print Assumptions C54_one_prover_each.

(** A call changes the registry in only two ways.  Creating a prover registers a new address for an owner
    without one.  Finishing a slash of a prover deactivates it exactly if its shares have become worth less
    than the minimum.  No prover is ever removed or reactivated. *)
Theorem C54_registry_changes K s x c s' evs :
  forall (Haccepted : staking_run K x c s = Ok (s', evs)),
  (sk_registry s' = sk_registry s) \/
  (exists p, rg_provers (sk_registry s') = rg_provers (sk_registry s) /\
     rg_owners (sk_registry s') = rg_owners (sk_registry s) /\
     (exists i, c = KFinishSlash p i) /\ forall q, q ∈ rg_deactivated (sk_registry s') <->
       (q ∈ rg_deactivated (sk_registry s) \/ (q = p /\ below_min p (sk_bank s')))) \/
  (exists p bips, c = KCreateProver bips /\ bips <= 10000 /\ default 0 (rg_owners (sk_registry s) !! kx_sender x) = 0 /\
    ~ p ∈ rg_provers (sk_registry s) /\ (exists n, p = ke_create2 K (kx_sender x) n bips) /\
    rg_provers (sk_registry s') = {[p]} ∪ rg_provers (sk_registry s) /\
    rg_owners (sk_registry s') = <[kx_sender x := p]> (rg_owners (sk_registry s)) /\
    rg_deactivated (sk_registry s') = rg_deactivated (sk_registry s)).
Proof. exact (registry_changes K x c s s' evs). Qed.
Print Assumptions C54_registry_changes.

(** A complete slash of the vault deactivates the prover; staking on it is refused from then on. *)
Example C54_example :
  let after := (stk_exec toy_sk [SCall (at_ sk_keeper 22) (KFinishSlash toy_prover 0)] toy_run_dust.2).2 in
  stk_run toy_sk toy_run_dust.1 toy_run_dust.2 /\
  (is_deactivated toy_run_dust.2 toy_prover, is_deactivated after toy_prover) = (false, true) /\
  run_events toy_sk (at_ sk_bob 23) (KStake toy_prover 100) toy_run_dust.2 = Err KProverHasSlashRequest /\
  run_events toy_sk (at_ sk_bob 23) (KStake toy_prover 100) after = Err KProverNotActive /\
  run_events toy_sk (at_ sk_carol 23) (KCreateProver 7) after = Err KProverExists /\
  run_events toy_sk (at_ sk_bob 23) (KCreateProver 10001) after = Err KInvalidFee /\
  run_events toy_sk (at_ sk_bob 23) (KCreateProver 10000) after = Ok [].
Proof. exact C54_example_proof. Qed.
