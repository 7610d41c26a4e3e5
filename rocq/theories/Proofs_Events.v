(** Proofs of the examples about the events of the settlement contract. *)
From Verif Require Export Proofs_L1 ToyEvents.
From Coq Require Import ZifyBool ZifyN ZifyNat.
Open Scope N_scope.

Lemma C90_example_proof :
  l1_env_ok toy_l1 /\ observed_run toy_l1 all_log all_events toy_v3 /\ Forall typed_entry all_log /\
  omap minimum_change all_events = [(0, 10); (10, 20)] /\ omap owner_change all_events = [(0, 1); (1, 9)] /\
  omap vkey_change all_events = [(0, 4); (4, 44)] /\ omap pause_change all_events = [true; false] /\
  map fst (omap block_made all_events) = [0; 1; 2; 3] /\
  map (fun a => (a.1.1, a.1.2)) (omap announced all_events) = [(1, VDeposit); (2, VDeposit); (3, VCreateProver)] /\
  map (fun a => a.1.1) (omap settled all_events) = [(1, StCompleted); (2, StCompleted)] /\
  (sum came_in all_events, sum went_out all_events, sum (came_from bob) all_events) = (1077, 200, 77).
Proof.
  split; [exact toy_l1_ok|]. split; [exact all_observed|]. split; [exact all_typed|].
  repeat match goal with |- _ /\ _ => split end; vm_compute; reflexivity.
Qed.

Lemma C90_holdings_example_proof :
  addresses_ok toy_l1 /\ l1_observed toy_l1 toy_v0 toy_log toy_events toy_v1 /\ Forall (own_actions toy_l1) toy_log /\
  (forall s, tk_allowance (va_prove toy_v0) (le_self toy_l1) s = if s =? le_iprove toy_l1 then unlimited else 0) /\
  (sum came_in toy_events, sum went_out toy_events, tk_balance (va_prove toy_v1) toy_self) = (1077, 200, 882).
Proof.
  split; [exact toy_addresses_ok|]. split; [exact toy_observed|].
  split; [exact (sr_own _ _ _ _ _ _ _ _ toy_settled)|]. split; [|vm_compute; reflexivity].
  intros s. unfold toy_v0, toy_contract. cbn [va_prove toy_l1 le_self le_iprove]. rewrite allowance_approve.
  rewrite N.eqb_refl. cbn [andb]. destruct (s =? toy_vault); [reflexivity|].
  unfold tk_allowance. cbn [tk_allowances]. now rewrite lookup_empty.
Qed.

Lemma C90_call_example_proof :
  (l1_transact toy_l1 (toy_ctx auctioneer1 1010) (CStep (abi_step step_b) [7]) toy_v2).2 = None /\
  l1_returns toy_l1 (CStep (abi_step step_b) [7]) toy_v2 = OBlock 2 (pv_old_root step_b) (pv_new_root step_b) /\
  l1_returns toy_l1 (CDeposit 50) toy_v2 = OTransaction 4.
Proof. repeat match goal with |- _ /\ _ => split end; vm_compute; reflexivity. Qed.

Lemma toy_collision_free : collision_free (keccak toy_env) (log_strings toy_env (full_new toy_env toy_domain) toy_log).
Proof. exact (proj1 (proj2 (proj2 C32_example_proof))). Qed.

Lemma C91_example_proof :
  settled_run toy_env toy_l1 toy_hash (fun _ => true) toy_domain toy_v0 toy_log toy_v1 /\
  l1_observed toy_l1 toy_v0 toy_log toy_events toy_v1 /\
  collision_free (keccak toy_env) (log_strings toy_env (full_new toy_env toy_domain) toy_log) /\
  brought_in toy_log = [(1, QDeposit (DepositAction alice 1000)); (2, QDeposit (DepositAction bob 77))] /\
  created toy_log = map snd (brought_in toy_log) ++ [QCreateProver (CreateProverAction prover1 owner1 1000)] /\
  omap payment_made toy_events = [(alice, 200)] /\
  brought_out toy_env (full_new toy_env toy_domain) toy_log = [(alice, 200)].
Proof.
  assert (Hp : omap payment_made toy_events = [(alice, 200)]) by (vm_compute; reflexivity).
  split; [exact toy_settled|]. split; [exact toy_observed|]. split; [exact toy_collision_free|].
  split; [reflexivity|]. split; [reflexivity|]. split; [exact Hp|].
  rewrite <- Hp. symmetry.
  exact (settled_outwards toy_env toy_l1 toy_hash (fun _ => true) toy_domain toy_v0 toy_log toy_events toy_v1
    toy_settled toy_observed toy_collision_free).
Qed.
