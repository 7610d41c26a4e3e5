(** The proofs of the theorems and examples of [Props_L1.v]. *)
From Verif Require Export L1Live L1Calls ToyL1.
Open Scope N_scope.

Lemma C31_queue_faithful_proof L prove owner token_address auctioneer staking verifier min_deposit vkey genesis
    v0 log v :
  forall (Henv : l1_env_ok L)
    (Hdeployed : l1_initialize L prove owner token_address auctioneer staking verifier min_deposit vkey
                   genesis = Some v0)
    (Hlog : l1_history L v0 log v) (Htyped : Forall typed_entry log),
  queue_faithful (created log) (finalised L log) v.
Proof.
  intros HL Hi Hh Hty.
  exact (history_queue L v0 log v HL Hh Hty [] (Forall_nil_2 _) (initial_queue _ _ _ _ _ _ _ _ _ _ _ Hi)).
Qed.

Lemma C31_queue_example_proof :
  l1_history toy_l1 toy_v0 toy_log toy_v1 /\ Forall typed_entry toy_log /\
  (length (created toy_log), length (finalised toy_l1 toy_log)) = (3, 2)%nat /\
  (fun t => (lt_variant t, lt_status t)) <$> (va_txs toy_v1 !! 2) = Some (VDeposit, StCompleted) /\
  (fun t => (lt_variant t, lt_status t)) <$> (va_txs toy_v1 !! 3) = Some (VCreateProver, StPending).
Proof.
  split; [exact toy_history|]. split; [exact toy_typed|].
  repeat match goal with |- _ /\ _ => split end; vm_compute; reflexivity.
Qed.

Lemma C31_step_effect_proof L x b proof v v' :
  forall (Haccepted : l1_transact L x (CStep b proof) v = (v', None)),
  exists p, step_allowed L x b proof p v /\
    va_block v' = va_block v + 1 /\ va_root v' = pv_new_root p /\ va_timestamp v' = pv_timestamp p /\
    va_current v' = va_current v /\
    (forall n, n <> va_block v + 1 ->
       va_roots v' !! n = va_roots v !! n /\ va_timestamps v' !! n = va_timestamps v !! n).
Proof.
  intros H. apply transact_ok in H. cbn [l1_run] in H. apply step_ok in H as (p & Hp & H).
  pose proof (handle_current L x _ _ _ H) as Hcur.
  apply handle_block in H as (A & B & D). exists p. split; [exact Hp|].
  unfold va_root, va_timestamp. rewrite A, B, D. unfold va_set_block in *. cbn [va_block va_roots va_timestamps va_current] in *.
  rewrite !lookup_insert. repeat match goal with |- _ /\ _ => split end; try reflexivity; [exact Hcur|].
  intros n Hn. rewrite !lookup_insert_ne by congruence. auto.
Qed.

Lemma C31_other_steps_refused_proof L x b proof v :
  forall (Hnot : forall p, ~ step_allowed L x b proof p v),
  exists e, l1_transact L x (CStep b proof) v = (v, Some e).
Proof.
  intros Hnot. destruct (l1_transact L x (CStep b proof) v) as [v' [e|]] eqn:H.
  - exists e. now apply transact_err in H as [_ ->].
  - apply transact_ok in H. cbn [l1_run] in H. apply step_ok in H as (p & Hp & _). now destruct (Hnot p).
Qed.

Lemma C31_past_is_fixed_proof L v log v' :
  forall (Hlog : l1_history L v log v'),
  va_block v <= va_block v' /\
  (forall n, n <= va_block v ->
     va_roots v' !! n = va_roots v !! n /\ va_timestamps v' !! n = va_timestamps v !! n) /\
  (Forall no_fork log -> va_timestamp v <= va_timestamp v').
Proof.
  intros H. destruct (history_block L v log v' H) as [A B]. split; [exact A|]. split; [exact B|].
  exact (history_timestamp L v log v' H).
Qed.

Lemma C31_past_example_proof :
  l1_history toy_l1 toy_v0 toy_log toy_v1 /\ (va_block toy_v0, va_block toy_v1) = (0, 2) /\
  va_roots toy_v1 !! 1 = Some (pv_new_root step_a) /\ (va_timestamp toy_v0, va_timestamp toy_v1) = (0, 1005).
Proof.
  split; [exact toy_history|]. repeat match goal with |- _ /\ _ => split end; vm_compute; reflexivity.
Qed.

Lemma C32_solvent_proof E L sha verify domain v0 log v :
  forall (Hrun : settled_run E L sha verify domain v0 log v)
    (Hhash : collision_free (keccak E) (log_strings E (full_new E domain) log)),
  let s := ledger_after E (full_new E domain) log in
  va_root v = full_root E s /\
  total_balance (accounts s) + pending_deposits (created log) (finalised L log)
  <= tk_balance (va_prove v) (le_self L).
Proof.
  intros Hr Hc. destruct (run_inv E L sha verify domain v0 log v Hr Hc) as [Hinv _].
  split; [exact (sy_root _ _ _ _ _ _ Hinv)|exact (sy_funds _ _ _ _ _ _ Hinv)].
Qed.

Lemma C32_payable_proof E L sha verify domain v0 log v x b proof inputs e :
  forall (Hrun : settled_run E L sha verify domain v0 log v)
    (Hhash : collision_free (keccak E) (log_strings E (full_new E domain) (log ++ [LAccepted x (CStep b proof) inputs])))
    (Hmade : made_from E sha verify inputs b)
    (Hfails : l1_transact L x (CStep b proof) v = (v, Some e)),
  e <> L1Token TkInsufficientBalance /\ e <> L1Token TkInsufficientAllowance.
Proof.
  intros Hr Hc Hm Hf. rewrite log_strings_app in Hc. apply collision_free_app in Hc as [Hc1 Hc2].
  destruct (run_inv E L sha verify domain v0 log v Hr Hc1) as [Hinv _].
  cbn [log_strings] in Hc2. rewrite app_nil_r in Hc2. apply transact_err in Hf as [Hf _]. cbn [l1_run] in Hf.
  destruct Hr as [HE HL Ha _ _ _ _ _ _ _].
  pose proof (step_solvent E L sha verify _ _ _ v x b proof inputs HE HL Ha Hinv Hm Hc2) as H.
  rewrite Hf in H. exact H.
Qed.

Lemma C32_payments_exact_proof L x b proof v v' p :
  forall (Haccepted : l1_transact L x (CStep b proof) v = (v', None)) (Hdecoded : le_decode L b = Some p),
  forall a, tk_balance (va_prove v') a + (if a =? le_self L then sum (paid L x) (pv_receipts p) else 0)
    = tk_balance (va_prove v) a + sum (received L x a) (pv_receipts p).
Proof.
  intros H Hd a. apply transact_ok in H. cbn [l1_run] in H. apply step_ok in H as (p' & Hp & H).
  assert (p' = p) as -> by (destruct Hp; congruence).
  exact (handle_payments L x (pv_receipts p) _ v' H a).
Qed.

Lemma C32_example_proof :
  settled_run toy_env toy_l1 toy_hash (fun _ => true) toy_domain toy_v0 toy_log toy_v1 /\
  settled_run toy_env toy_l1 toy_hash (fun _ => true) toy_domain toy_v0 toy_log1 toy_v2 /\
  collision_free (keccak toy_env) (log_strings toy_env world0 toy_log) /\
  made_from toy_env toy_hash (fun _ => true) [input_b] (abi_step step_b) /\
  total_balance (accounts (ledger_after toy_env world0 toy_log)) = 877 /\
  pending_deposits (created toy_log1) (finalised toy_l1 toy_log1) = 77 /\
  map (tk_balance (va_prove toy_v2)) [toy_self; alice] = [1082; 195] /\
  map (tk_balance (va_prove toy_v1)) [toy_self; alice] = [882; 395].
Proof.
  split; [exact toy_settled|]. split; [exact toy_settled1|].
  split; [apply collision_freeb_ok; vm_compute; reflexivity|]. split; [exact toy_made_b|].
  repeat match goal with |- _ /\ _ => split end; vm_compute; reflexivity.
Qed.

Lemma C45_honest_step_accepted_proof E L sha verify domain v0 log v x p proof inputs :
  forall (Hrun : settled_run E L sha verify domain v0 log v)
    (Hhash : collision_free (keccak E)
       (log_strings E (full_new E domain) (log ++ [LAccepted x (CStep (abi_step p) proof) inputs])))
    (Hmade : made_from E sha verify inputs (abi_step p))
    (Hallowed : step_allowed L x (abi_step p) proof p v)
    (Hblocks : va_block v + 1 < 2 ^ 64) (Hqueue : N.of_nat (length (created log)) < 2 ^ 64 - 1)
    (Hcopied : Forall (from_queue (created log)) (all_txs inputs))
    (Hreceivers : Forall (can_receive x) (pv_receipts p)),
  exists v', l1_transact L x (CStep (abi_step p) proof) v = (v', None).
Proof.
  intros Hr Hc Hm Hal Hb Hq Hf Hrec. rewrite log_strings_app in Hc. apply collision_free_app in Hc as [Hc1 Hc2].
  destruct (run_inv E L sha verify domain v0 log v Hr Hc1) as [Hinv Hcur].
  cbn [log_strings] in Hc2. rewrite app_nil_r in Hc2. destruct Hr as [HE HL Ha _ _ _ _ _ _ _].
  destruct (step_succeeds E L sha verify _ _ _ v x p proof inputs HE HL Ha Hinv Hcur Hm Hc2 Hal Hb Hq Hf Hrec)
    as [v' Hv']. exists v'. unfold l1_transact. cbn [l1_run]. now rewrite Hv'.
Qed.

Lemma C45_example_proof :
  settled_run toy_env toy_l1 toy_hash (fun _ => true) toy_domain toy_v0 toy_log1 toy_v2 /\
  made_from toy_env toy_hash (fun _ => true) [input_b] (abi_step step_b) /\
  step_allowed toy_l1 (toy_ctx auctioneer1 1010) (abi_step step_b) [7] step_b toy_v2 /\
  Forall (from_queue (created toy_log1)) (all_txs [input_b]) /\
  Forall (can_receive (toy_ctx auctioneer1 1010)) (pv_receipts step_b).
Proof.
  split; [exact toy_settled1|]. split; [exact toy_made_b|]. split; [exact toy_allowed_b|].
  split; [exact toy_copied_b|exact toy_receivers_b].
Qed.
