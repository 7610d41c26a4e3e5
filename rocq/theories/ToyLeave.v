(** Logs of the deployed contracts in which a staker leaves, and in which the owners give up ownership. *)
From Verif Require Export ToyNetwork ToyStaking NetworkLeave NetworkVotes.
Open Scope N_scope.

(** ** A staker leaves *)

(** Alice stakes, rewards are dispensed, and part of the stake is requested back. *)
Definition leave_calls : list (net_ctx * net_call * list stf_input) :=
  [ (net_ctx_at alice 10, CWorld (WToken (OMint alice 600)), []);
    (net_ctx_at alice 10, CWorld (WToken (OMint (ne_staking toy_net) 1000)), []);
    (net_ctx_at alice 11, CWorld (WToken (OApprove alice 5002 500)), []);
    (net_ctx_at 1 12, CWorld (WStaking (KUpdateRate 10)), []);
    (net_ctx_at owner1 20, CWorld (WStaking (KCreateProver 1000)), []);
    (net_ctx_at alice 22, CWorld (WStaking (KStake prover1 500)), []);
    (net_ctx_at 6 40, CWorld (WStaking (KDispense 100)), []);
    (net_ctx_at alice 50, CWorld (WStaking (KRequestUnstake 100)), []);
    (net_ctx_at 6 60, CWorld (WStaking (KDispense 30)), []) ].
Definition leave_run := net_after leave_calls.
(** Others act while the period passes. *)
Definition leave_wait : list (net_ctx * net_call * list stf_input) :=
  [ (net_ctx_at bob 62, CWorld (WToken (OMint bob 5)), []);
    (net_ctx_at 6 64, CWorld (WStaking (KDispense 20)), []);
    (net_ctx_at mallory 65, CWorld (WStaking (KFinishUnstake alice)), []);
    (net_ctx_at bob 80, CWorld (WToken (OTransfer bob mallory 3)), []) ].

Lemma is_leave_run : net_run toy_net 5 toy_net0 (net_log leave_run) (net_of leave_run) (net_time leave_run).
Proof. apply toy_net_run. Qed.

(** One accepted call after a log, and a log after that. *)
Definition ok_network (r : result network net_error) : network := match r with Ok n => n | Err _ => toy_net0 end.
Definition is_ok {A B} (r : result A B) : bool := match r with Ok _ => true | Err _ => false end.
Lemma ok_network_eq r : is_ok r = true -> r = Ok (ok_network r).
Proof. destruct r; [reflexivity|discriminate]. Qed.
Definition net_go_on (x : net_ctx) (n1 : network) (l : list (net_ctx * net_call * list stf_input)) : list net_entry * network * N :=
  match net_exec toy_net l [] n1 (nx_time x) with Some r => r | None => ([], n1, nx_time x) end.
Lemma toy_go_on log n now x c n1 l : net_run toy_net 5 toy_net0 log n now -> nx_time x = now ->
  net_by_anyoneb toy_net n x c = true -> net_run_call toy_net x c n = Ok n1 ->
  net_run toy_net 5 toy_net0 (log ++ NAccepted x c [] n1 :: net_log (net_go_on x n1 l))
    (net_of (net_go_on x n1 l)) (net_time (net_go_on x n1 l)).
Proof.
  intros H Ht Hb Hc.
  assert (H1 : net_run toy_net 5 toy_net0 (log ++ [NAccepted x c [] n1]) n1 (nx_time x)).
  { subst now. eapply nr_accepted; [exact H|reflexivity|now apply net_by_anyoneb_ok|exact Hc]. }
  unfold net_go_on. destruct (net_exec toy_net l [] n1 (nx_time x)) as [[[m n2] t]|] eqn:E; [|exact H1].
  replace (log ++ NAccepted x c [] n1 :: net_log (m, n2, t)) with ((log ++ [NAccepted x c [] n1]) ++ m) by now rewrite <- app_assoc.
  eapply net_exec_ok; [exact H1|]. rewrite net_exec_log, E. reflexivity.
Qed.

(** Alice requests all of the stake. *)
Definition leave_ctx : net_ctx := net_ctx_at alice 60.
Definition leave_request : staking_call := KRequestUnstake (whole_stake (w_staking (nw_world (net_of leave_run))) alice).
Definition leave_asked : network := ok_network (net_run_call toy_net leave_ctx (CWorld (WStaking leave_request)) (net_of leave_run)).
Definition leave_after := net_go_on leave_ctx leave_asked leave_wait.
Lemma leave_asked_ok : net_run_call toy_net leave_ctx (CWorld (WStaking leave_request)) (net_of leave_run) = Ok leave_asked.
Proof. apply ok_network_eq. vm_compute. reflexivity. Qed.
Lemma is_leave_after : net_run toy_net 5 toy_net0
  (net_log leave_run ++ NAccepted leave_ctx (CWorld (WStaking leave_request)) [] leave_asked :: net_log leave_after)
  (net_of leave_after) (net_time leave_after).
Proof.
  refine (toy_go_on _ _ _ leave_ctx (CWorld (WStaking leave_request)) leave_asked leave_wait is_leave_run _ _ leave_asked_ok);
    vm_compute; reflexivity.
Qed.

(** ** The owners give up ownership *)

(** The settlement contract is paused and then has no owner; the rate of rewards is set, and then the staking contract has
    no owner. *)
Definition rules_calls : list (net_ctx * net_call * list stf_input) :=
  [ (net_ctx_at alice 10, CWorld (WToken (OMint alice 600)), []);
    (net_ctx_at alice 11, CWorld (WToken (OApprove alice 5000 500)), []);
    (net_ctx_at alice 12, CVApp (CDeposit 200), []) ].
Definition rules_run := net_after rules_calls.
Definition rules_given_up : list (net_ctx * net_call * list stf_input) :=
  [ (net_ctx_at 1 20, CVApp (CAdmin APause), []);
    (net_ctx_at 1 21, CVApp (CAdmin ARenounceOwnership), []);
    (net_ctx_at 1 22, CWorld (WStaking (KUpdateRate 10)), []);
    (net_ctx_at 1 23, CWorld (WStaking KRenounceOwnership), []) ].
Definition rules_end : list (net_ctx * net_call * list stf_input) :=
  [ (net_ctx_at alice 30, CVApp (CDeposit 100), []);
    (net_ctx_at 1 31, CVApp (CAdmin AUnpause), []);
    (net_ctx_at owner1 32, CWorld (WStaking (KCreateProver 1000)), []);
    (net_ctx_at 1 33, CWorld (WStaking (KUpdateRate 20)), []);
    (net_ctx_at bob 34, CWorld (WToken (OMint bob 7)), []) ].
Definition rules_mid := net_then rules_run rules_given_up.
Definition rules_run2 := net_join rules_run rules_mid.
Definition rules_last := net_then rules_run2 rules_end.
Definition rules_run3 := net_join rules_run2 rules_last.
Lemma is_rules_run : net_run toy_net 5 toy_net0 (net_log rules_run) (net_of rules_run) (net_time rules_run).
Proof. apply toy_net_run. Qed.
Lemma is_rules_run2 : net_run toy_net 5 toy_net0 (net_log rules_run2) (net_of rules_run2) (net_time rules_run2).
Proof. unfold rules_run2, rules_mid. apply toy_net_then. exact is_rules_run. Qed.
Lemma is_rules_run3 : net_run toy_net 5 toy_net0 (net_log rules_run3) (net_of rules_run3) (net_time rules_run3).
Proof. unfold rules_run3, rules_last. apply toy_net_then. exact is_rules_run2. Qed.
Lemma is_rules_end : net_run toy_net 5 toy_net0 (net_log rules_run2 ++ net_log rules_last) (net_of rules_run3) (net_time rules_run3).
Proof. rewrite <- net_join_log. exact is_rules_run3. Qed.
Lemma is_rules_mid : net_run toy_net 5 toy_net0 (net_log rules_run ++ net_log rules_mid) (net_of rules_run2) (net_time rules_run2).
Proof. rewrite <- net_join_log. exact is_rules_run2. Qed.

(** ** The governor owns the settlement contract *)

(** It is given to the governor; the former owner can no longer pause it; a proposal is made and voted for. *)
Definition pause_it : list gov_action := [GaVApp (CAdmin APause); GaVApp (CAdmin (AUpdateAuctioneer 77))].
Definition vote_calls : list (net_ctx * net_call * list stf_input) :=
  [ (net_ctx_at alice 10, CWorld (WToken (OMint alice 600)), []);
    (net_ctx_at alice 11, CWorld (WToken (OApprove alice 5002 500)), []);
    (net_ctx_at owner1 20, CWorld (WStaking (KCreateProver 1000)), []);
    (net_ctx_at alice 22, CWorld (WStaking (KStake prover1 500)), []);
    (net_ctx_at 1 23, CVApp (CAdmin (ATransferOwnership (ne_governor toy_net))), []);
    (net_ctx_at 1 24, CVApp (CAdmin APause), []);
    (net_ctx_at owner1 30, CWorld (WPropose (Some prover1) pause_it 7), []);
    (net_ctx_at owner1 36, CWorld (WVote (Some prover1) 7 1), []);
    (net_ctx_at bob 37, CWorld (WExecute pause_it 7 true), []) ].
Definition vote_run := net_after vote_calls.
Lemma is_vote_run : net_run toy_net 5 toy_net0 (net_log vote_run) (net_of vote_run) (net_time vote_run).
Proof. apply toy_net_run. Qed.
(** It is executed when the vote is over; then the contract is paused. *)
Definition vote_ctx : net_ctx := net_ctx_at bob 42.
Definition vote_call : net_call := CWorld (WExecute pause_it 7 true).
Definition vote_done : network := ok_network (net_run_call toy_net vote_ctx vote_call (net_of vote_run)).
Definition vote_last := net_go_on vote_ctx vote_done [(net_ctx_at alice 43, CVApp (CDeposit 10), [])].
Lemma vote_done_ok : net_run_call toy_net vote_ctx vote_call (net_of vote_run) = Ok vote_done.
Proof. apply ok_network_eq. vm_compute. reflexivity. Qed.
Lemma is_vote_wait : net_run toy_net 5 toy_net0 (net_log vote_run) (net_of vote_run) 42.
Proof. eapply nr_wait; [exact is_vote_run| |]; vm_compute; [discriminate|reflexivity]. Qed.
Lemma is_vote_end : net_run toy_net 5 toy_net0 (net_log vote_run ++ NAccepted vote_ctx vote_call [] vote_done :: net_log vote_last)
  (net_of vote_last) (net_time vote_last).
Proof.
  refine (toy_go_on _ _ _ vote_ctx vote_call vote_done _ is_vote_wait _ _ vote_done_ok); vm_compute; reflexivity.
Qed.
Lemma vote_acts : net_acts toy_net (net_of vote_run) (nx_sender vote_ctx).
Proof. apply net_actsb_ok. vm_compute. reflexivity. Qed.
Lemma vote_open : Forall (fun e => ends toy_net 7 e = false) (net_log vote_run).
Proof. apply (forallb_all (fun e => negb (ends toy_net 7 e))); [intros e; apply negb_true_iff|]. vm_compute. reflexivity. Qed.
Lemma executed_settles Y x actions desc others n n' : net_run_call Y x (CWorld (WExecute actions desc others)) n = Ok n' ->
  exists v, proposal_settles Y x actions (settlement_now n) v.
Proof.
  intros H. destruct (proj1 (C82_accepts_proof Y x (CWorld (WExecute actions desc others)) n)) as (_ & Hs & _); [eauto|exact Hs].
Qed.
Lemma executed_passed Y t0 n0 l1 x actions desc others id i m l2 n now : ge_id (net_gov Y) actions desc = id ->
  net_run Y t0 n0 (l1 ++ NAccepted x (CWorld (WExecute actions desc others)) i m :: l2) n now -> passed Y n0 l1 (nx_time x) id.
Proof. intros <- H. eapply C89_passed_proof; [exact H|reflexivity]. Qed.
Lemma vote_settles : exists v, proposal_settles toy_net vote_ctx pause_it (settlement_now (net_of vote_run)) v.
Proof. exact (executed_settles toy_net vote_ctx pause_it 7 true _ _ vote_done_ok). Qed.
Lemma vote_passed : passed toy_net toy_net0 (net_log vote_run) (nx_time vote_ctx) 7.
Proof. exact (executed_passed toy_net 5 toy_net0 _ vote_ctx pause_it 7 true 7 [] vote_done _ _ _ eq_refl is_vote_end). Qed.

(** ** A staker leaves, with the staking contract alone *)

Definition lv_ctx : staking_ctx := at_ sk_alice 60.
Definition lv_request : staking_call := KRequestUnstake (whole_stake toy_run1.2 sk_alice).
Definition lv_asked : staking * list staking_event :=
  match staking_run toy_sk lv_ctx lv_request toy_run1.2 with Ok r => r | Err _ => (toy_sk0, []) end.
Lemma lv_asked_ok : staking_run toy_sk lv_ctx lv_request toy_run1.2 = Ok (lv_asked.1, lv_asked.2).
Proof.
  unfold lv_asked. assert (H : is_ok (staking_run toy_sk lv_ctx lv_request toy_run1.2) = true) by (vm_compute; reflexivity).
  destruct (staking_run toy_sk lv_ctx lv_request toy_run1.2) as [[s evs]|]; [reflexivity|discriminate].
Qed.
(** The older claim is paid; then someone tries to slash another prover. *)
Definition lv_steps : list stk_step :=
  [ SCall (at_ sk_giver 61) (KDispense 30); SCall (at_ sk_bob 70) (KRequestUnstake 100);
    SCall (at_ sk_carol 155) (KFinishUnstake sk_alice); SCall (at_ 12 156) (KRequestSlash (toy_prover + 1) 30) ].
Definition lv_then := stk_exec toy_sk lv_steps lv_asked.1.
Lemma is_lv_then : stk_history toy_sk lv_asked.1 lv_then.1 lv_then.2.
Proof. apply (stk_exec_ok toy_sk lv_steps). apply surjective_pairing. Qed.
