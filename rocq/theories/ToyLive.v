(** Sample batches that are proven and settled. *)
From Verif Require Export ToyL1 LiveSpec.
From Verif Require Import Complete Sim LedgerFacts AggFacts L1Solvent Proofs_L1.
From Coq Require Import Lia ZifyBool ZifyN ZifyNat.
Open Scope N_scope.

(** ** Before the first step: Alice's deposit is next *)

Definition toy_log0 : list l1_entry := take 7 toy_log.
Definition toy_v3 : l1_state := default toy_v0 (run_log toy_l1 toy_log0 toy_v0).
Lemma toy_settled0 : settled_run toy_env toy_l1 toy_hash (fun _ => true) toy_domain toy_v0 toy_log0 toy_v3.
Proof.
  apply toy_settled_from; [apply run_log_default; vm_compute; reflexivity|]. apply Forall_forall. intros e He.
  unfold toy_log0 in He. rewrite <- (take_drop 7 toy_log). apply elem_of_app. now left.
Qed.

(** The recorded inputs, evaluated. *)
Definition recorded_a : stf_input := Eval vm_compute in recorded_input toy_env world0 batch_a 1000.
Definition recorded_b : stf_input := Eval vm_compute in recorded_input toy_env world_a1 batch_b 1005.
Definition withdraw_a : list tx := [tx_withdraw alice 1 alice 200 0].
Definition recorded_w : stf_input := Eval vm_compute in recorded_input toy_env world_a1 withdraw_a 1005.
Definition step_w : step_pv := Eval vm_compute in default (StepPv 0 0 0 []) (stf_main toy_env recorded_w).

Lemma recorded_a_ok : recorded_input toy_env (ledger_now toy_env toy_domain toy_log0) batch_a 1000 = recorded_a.
Proof. vm_compute. reflexivity. Qed.
Lemma recorded_b_ok : recorded_input toy_env (ledger_now toy_env toy_domain toy_log1) batch_b 1005 = recorded_b.
Proof. vm_compute. reflexivity. Qed.
Lemma recorded_w_ok : recorded_input toy_env (ledger_now toy_env toy_domain toy_log1) withdraw_a 1005 = recorded_w.
Proof. vm_compute. reflexivity. Qed.
Lemma commits_a : stf_main toy_env recorded_a = Some step_a.
Proof. vm_compute. reflexivity. Qed.
Lemma commits_b : stf_main toy_env recorded_b = Some step_b.
Proof. vm_compute. reflexivity. Qed.
Lemma commits_w : stf_main toy_env recorded_w = Some step_w.
Proof. vm_compute. reflexivity. Qed.

(** ** Their strings *)

Lemma collision_free_incl hash l l' : (forall b, b ∈ l' -> b ∈ l) -> collision_free hash l -> collision_free hash l'.
Proof. intros Hi [H1 H2]. split; intros; [apply H1|apply H2]; auto. Qed.

Lemma stf_strings_incl E i i' s :
  container_string (si_state i') (si_accounts_root i') (si_requests_root i')
  = container_string (si_state i) (si_accounts_root i) (si_requests_root i) ->
  (forall p, p ∈ si_account_proofs i' -> p ∈ si_account_proofs i) ->
  (forall p, p ∈ si_request_proofs i' -> p ∈ si_request_proofs i) ->
  forall b, b ∈ stf_strings E i' s -> b ∈ stf_strings E i s.
Proof.
  intros Hc Ha Hr b. unfold stf_strings. rewrite Hc, !elem_of_cons, !elem_of_app, !elem_of_list_In, !in_flat_map.
  setoid_rewrite <- elem_of_list_In.
  intros [H|[H|[(p & Hp & H)|(p & Hp & H)]]]; eauto 7.
Qed.

Lemma with_step_free E s log x c c' proof proof' i i' rest :
  (forall b, b ∈ stf_strings E i' (ledger_after E s log) -> b ∈ stf_strings E i (ledger_after E s log)) ->
  collision_free (keccak E) (log_strings E s (log ++ LAccepted x (CStep c proof) [i] :: rest)) ->
  collision_free (keccak E) (log_strings E s (log ++ [LAccepted x (CStep c' proof') [i']])).
Proof.
  intros Hi. apply collision_free_incl. intros b. rewrite !log_strings_app, !elem_of_app.
  cbn [log_strings chain_strings]. rewrite !app_nil_r, !elem_of_app. intros [H|H]; auto.
Qed.

Lemma toy_free : collision_free (keccak toy_env) (log_strings toy_env (full_new toy_env toy_domain) toy_log).
Proof. exact (proj1 (proj2 (proj2 C32_example_proof))). Qed.

Lemma toy_split0 : toy_log = toy_log0 ++ LAccepted (toy_ctx auctioneer1 1001) (CStep (abi_step step_a) [7]) [input_a] :: drop 8 toy_log.
Proof. reflexivity. Qed.
Lemma toy_split1 : toy_log = toy_log1 ++ LAccepted (toy_ctx auctioneer1 1010) (CStep (abi_step step_b) [7]) [input_b] :: [].
Proof. reflexivity. Qed.
Lemma toy_free0 : collision_free (keccak toy_env) (log_strings toy_env (full_new toy_env toy_domain)
  (toy_log0 ++ LAccepted (toy_ctx auctioneer1 1001) (CStep (abi_step step_a) [7]) [input_a] :: drop 8 toy_log)).
Proof. rewrite <- toy_split0. exact toy_free. Qed.
Lemma toy_free1 : collision_free (keccak toy_env) (log_strings toy_env (full_new toy_env toy_domain)
  (toy_log1 ++ LAccepted (toy_ctx auctioneer1 1010) (CStep (abi_step step_b) [7]) [input_b] :: [])).
Proof. rewrite <- toy_split1. exact toy_free. Qed.

(** The proofs for the withdrawal are among those for the batch. *)
Lemma picked {A} (l l' : list A) (ns : list nat) : l' = omap (fun n => l !! n) ns -> forall x, x ∈ l' -> x ∈ l.
Proof. intros -> x Hx. apply elem_of_list_omap in Hx as (n & _ & Hn). now apply elem_of_list_lookup_2 in Hn. Qed.

Lemma free_a : collision_free (keccak toy_env) (log_strings toy_env (full_new toy_env toy_domain)
  (with_step toy_env toy_domain toy_log0 (toy_ctx auctioneer1 1001) step_a [7] batch_a 1000)).
Proof.
  unfold with_step. rewrite recorded_a_ok. eapply with_step_free; [|exact toy_free0].
  apply stf_strings_incl; [reflexivity|cbn [si_account_proofs recorded_a input_a]; intros p Hp; exact Hp|].
  cbn [si_request_proofs recorded_a input_a]; intros p Hp; exact Hp.
Qed.
Lemma free_b : collision_free (keccak toy_env) (log_strings toy_env (full_new toy_env toy_domain)
  (with_step toy_env toy_domain toy_log1 (toy_ctx auctioneer1 1010) step_b [7] batch_b 1005)).
Proof.
  unfold with_step. rewrite recorded_b_ok. eapply with_step_free; [|exact toy_free1].
  apply stf_strings_incl; [reflexivity|cbn [si_account_proofs recorded_b input_b]; intros p Hp; exact Hp|].
  cbn [si_request_proofs recorded_b input_b]; intros p Hp; exact Hp.
Qed.
Lemma free_w : collision_free (keccak toy_env) (log_strings toy_env (full_new toy_env toy_domain)
  (with_step toy_env toy_domain toy_log1 (toy_ctx auctioneer1 1010) step_w [7] withdraw_a 1005)).
Proof.
  unfold with_step. rewrite recorded_w_ok. eapply with_step_free; [|exact toy_free1].
  apply stf_strings_incl; [reflexivity|apply (picked _ _ [0; 1]%nat)|apply (picked _ _ [0]%nat)]; reflexivity.
Qed.

(** ** The calls *)

Lemma submitted_a : submitted toy_env toy_l1 toy_hash (fun _ => true)
  (recorded_input toy_env (ledger_now toy_env toy_domain toy_log0) batch_a 1000) (toy_ctx auctioneer1 1001) step_a [7] toy_v3.
Proof.
  rewrite recorded_a_ok. split; [reflexivity|exact commits_a|apply N.ltb_lt; reflexivity|reflexivity|reflexivity| |reflexivity].
  apply step_allowedb_ok; vm_compute; reflexivity.
Qed.
Lemma submitted_b : submitted toy_env toy_l1 toy_hash (fun _ => true)
  (recorded_input toy_env (ledger_now toy_env toy_domain toy_log1) batch_b 1005) (toy_ctx auctioneer1 1010) step_b [7] toy_v2.
Proof.
  rewrite recorded_b_ok. split; [reflexivity|exact commits_b|apply N.ltb_lt; reflexivity|reflexivity|reflexivity| |vm_compute; reflexivity].
  exact toy_allowed_b.
Qed.
Lemma submitted_w : submitted toy_env toy_l1 toy_hash (fun _ => true)
  (recorded_input toy_env (ledger_now toy_env toy_domain toy_log1) withdraw_a 1005) (toy_ctx auctioneer1 1010) step_w [7] toy_v2.
Proof.
  rewrite recorded_w_ok. split; [reflexivity|exact commits_w|apply N.ltb_lt; reflexivity|reflexivity|reflexivity| |vm_compute; reflexivity].
  apply step_allowedb_ok; vm_compute; reflexivity.
Qed.

(** ** The batches *)

Lemma observed_deposit b l : b < 100 -> observed_from 1 b l [QDeposit (DepositAction alice 1000)] batch_a.
Proof.
  intros Hb. change batch_a with [queued_tx 1 100 0 (QDeposit (DepositAction alice 1000))].
  apply (ob_cons 1 b l 100 0); [left; exact Hb|reflexivity|reflexivity|constructor].
Qed.
Lemma observed_a : observed_from (va_finalized toy_v3 + 1)
  (vs_onchain_block (ledger_now toy_env toy_domain toy_log0)) (vs_onchain_log_index (ledger_now toy_env toy_domain toy_log0))
  (next_pending toy_log0 toy_v3 1) batch_a.
Proof.
  assert (H1 : va_finalized toy_v3 = 0) by (vm_compute; reflexivity).
  assert (H2 : next_pending toy_log0 toy_v3 1 = [QDeposit (DepositAction alice 1000)]) by (vm_compute; reflexivity).
  rewrite H1, H2. apply observed_deposit. vm_compute. reflexivity.
Qed.

Lemma run_batch_spec E txs : forall s s' rs, run_batch E s txs = (s', rs) -> calm rs ->
  spec_run E (contents s) txs rs (contents s').
Proof.
  induction txs as [|t txs IH]; intros s s' rs; cbn [run_batch].
  - intros [= <- <-] _. constructor.
  - destruct (execute_full E t s) as [s1 r] eqn:H1, (run_batch E s1 txs) as [s2 rs'] eqn:H2. intros [= <- <-] Hc.
    apply Forall_cons in Hc as [Hc Hcs]. econstructor; [eapply execute_full_sound; eassumption|now apply IH].
Qed.
Definition results_b : list exec_result :=
  [ ResOk (Some (RWithdraw (OffchainReceipt StCompleted (WithdrawAction alice 200))));
    ResOk (Some (RDeposit (OnchainReceipt 2 StCompleted (DepositAction bob 77)))) ].
Lemma runs_b : spec_run toy_env (contents (ledger_now toy_env toy_domain toy_log1)) batch_b results_b
  (contents (run_batch toy_env (ledger_now toy_env toy_domain toy_log1) batch_b).1).
Proof.
  apply run_batch_spec; [|repeat constructor; cbn; tauto].
  assert (H : (run_batch toy_env (ledger_now toy_env toy_domain toy_log1) batch_b).2 = results_b) by (vm_compute; reflexivity).
  rewrite <- H. apply surjective_pairing.
Qed.
Lemma places_b : places_differ toy_env batch_b.
Proof.
  intros t1 t2 a b H1 H2 R1 R2 _.
  apply elem_of_cons in H1 as [->|H1]; [|apply elem_of_list_singleton in H1 as ->; destruct R1].
  apply elem_of_cons in H2 as [->|H2]; [|apply elem_of_list_singleton in H2 as ->; destruct R2].
  destruct R1 as (b1 & w1 & S1 & ->), R2 as (b2 & w2 & S2 & ->).
  destruct (signed_by_fun _ _ _ _ _ _ _ _ S1 S2) as [-> ->]. reflexivity.
Qed.
Lemma typed_b : Forall typed_tx batch_b.
Proof. apply (forallb_ok typed_txb typed_tx); [exact typed_txb_ok|vm_compute; reflexivity]. Qed.

(** Alice withdraws 200. *)
Definition withdraw_signed : signed withdraw_body := sign_json encode_withdraw alice (withdraw_msg 1 alice 200 0).
Lemma withdraw_ok_a : withdraw_ok toy_env (contents (ledger_now toy_env toy_domain toy_log1)) withdraw_signed
  (withdraw_msg 1 alice 200 0) alice alice 200 auctioneer1 0.
Proof.
  constructor.
  - split; [reflexivity|]. right. split; [reflexivity|]. eexists. split; [reflexivity|vm_compute; reflexivity].
  - reflexivity.
  - vm_compute. reflexivity.
  - unfold unused. vm_compute. discriminate.
  - vm_compute. reflexivity.
  - vm_compute. reflexivity.
  - vm_compute. reflexivity.
  - vm_compute. reflexivity.
  - now left.
  - intros _. apply N.ltb_lt. reflexivity.
Qed.
Lemma withdraw_covered_a : withdrawal_covered (ledger_now toy_env toy_domain toy_log1) alice alice 200 0.
Proof. unfold withdrawal_covered. rewrite N.eqb_refl. apply N.leb_le. vm_compute. reflexivity. Qed.
Lemma typed_w : typed_tx (TxWithdraw withdraw_signed).
Proof. apply typed_txb_ok. vm_compute. reflexivity. Qed.
