(** Boolean tests for well-typed data; used only in examples. *)
From Verif Require Export AggFacts ToyStf.
From Coq Require Import ZifyBool ZifyN ZifyNat.
Open Scope N_scope.

Definition is_i32b (z : Z) : bool := ((- 2 ^ 31 <=? z) && (z <? 2 ^ 31))%Z.
Definition is_bytesb (bs : bytes) : bool := forallb (fun b => b <? 256) bs && (N.of_nat (length bs) <? 2 ^ 64).
Definition if_someb {X} (P : X -> bool) (o : option X) : bool := match o with Some x => P x | None => true end.

Lemma is_i32b_ok z : is_i32b z = true -> is_i32 z.
Proof. unfold is_i32b, is_i32. rewrite andb_true_iff, Z.leb_le, Z.ltb_lt. tauto. Qed.
Lemma is_bytesb_ok bs : is_bytesb bs = true -> is_bytes bs.
Proof.
  unfold is_bytesb, is_bytes. rewrite andb_true_iff, N.ltb_lt, forallb_forall. intros [H1 H2].
  split; [|exact H2]. apply Forall_forall. intros x Hx%elem_of_list_In. apply N.ltb_lt. now apply H1.
Qed.
Lemma u64b_ok x : x <? 2 ^ 64 = true -> is_u64 x.
Proof. apply N.ltb_lt. Qed.
Lemma wordb_ok x : x <? 2 ^ 256 = true -> is_word x.
Proof. apply N.ltb_lt. Qed.
Lemma addressb_ok x : x <? 2 ^ 160 = true -> is_address x.
Proof. apply N.ltb_lt. Qed.
Lemma if_someb_ok {X} (Pb : X -> bool) (P : X -> Prop) o :
  (forall x, Pb x = true -> P x) -> if_someb Pb o = true -> if_some P o.
Proof. intros H Ho x ->. exact (H x Ho). Qed.
Lemma forallb_ok {X} (Pb : X -> bool) (P : X -> Prop) l :
  (forall x, Pb x = true -> P x) -> forallb Pb l = true -> Forall P l.
Proof.
  intros H Hl. rewrite forallb_forall in Hl. apply Forall_forall. intros x Hx%elem_of_list_In. auto.
Qed.

Definition typed_withdrawb (b : withdraw_body) : bool :=
  (wb_nonce b <? 2 ^ 64) && is_bytesb (wb_account b) && is_bytesb (wb_amount b) && is_bytesb (wb_domain b) &&
  is_i32b (wb_variant b) && is_bytesb (wb_auctioneer b) && is_bytesb (wb_fee b).
Definition typed_transferb (b : transfer_body) : bool :=
  (tb_nonce b <? 2 ^ 64) && is_bytesb (tb_to b) && is_bytesb (tb_amount b) && is_bytesb (tb_domain b) &&
  is_i32b (tb_variant b) && is_bytesb (tb_auctioneer b) && is_bytesb (tb_fee b).
Definition typed_delegationb (b : delegation_body) : bool :=
  (db_nonce b <? 2 ^ 64) && is_bytesb (db_delegate b) && is_bytesb (db_prover b) && is_bytesb (db_domain b) &&
  is_i32b (db_variant b) && is_bytesb (db_auctioneer b) && is_bytesb (db_fee b).
Definition typed_requestb (b : request_body) : bool :=
  (rb_nonce b <? 2 ^ 64) && is_bytesb (rb_vk_hash b) && is_bytesb (rb_version b) && is_i32b (rb_mode b) &&
  is_i32b (rb_strategy b) && is_bytesb (rb_stdin_uri b) && (rb_deadline b <? 2 ^ 64) &&
  (rb_cycle_limit b <? 2 ^ 64) && (rb_gas_limit b <? 2 ^ 64) && (rb_min_auction_period b <? 2 ^ 64) &&
  forallb is_bytesb (rb_whitelist b) && is_bytesb (rb_domain b) && is_bytesb (rb_auctioneer b) &&
  is_bytesb (rb_executor b) && is_bytesb (rb_verifier b) &&
  if_someb is_bytesb (rb_public_values_hash b) && is_bytesb (rb_base_fee b) &&
  is_bytesb (rb_max_price_per_pgu b) && is_i32b (rb_variant b) && is_bytesb (rb_treasury b).
Definition typed_bidb (b : bid_body) : bool :=
  (bb_nonce b <? 2 ^ 64) && is_bytesb (bb_request_id b) && is_bytesb (bb_amount b) && is_bytesb (bb_domain b) &&
  is_bytesb (bb_prover b) && is_i32b (bb_variant b).
Definition typed_settleb (b : settle_body) : bool :=
  (sb_nonce b <? 2 ^ 64) && is_bytesb (sb_request_id b) && is_bytesb (sb_winner b) && is_bytesb (sb_domain b) &&
  is_i32b (sb_variant b).
Definition typed_executeb (b : execute_body) : bool :=
  (eb_nonce b <? 2 ^ 64) && is_bytesb (eb_request_id b) && is_i32b (eb_execution_status b) &&
  if_someb is_bytesb (eb_public_values_hash b) && if_someb (fun x => x <? 2 ^ 64) (eb_cycles b) &&
  if_someb (fun x => x <? 2 ^ 64) (eb_pgus b) &&
  is_bytesb (eb_domain b) && if_someb is_bytesb (eb_punishment b) && if_someb is_i32b (eb_failure_cause b) &&
  is_i32b (eb_variant b).
Definition typed_fulfillb (b : fulfill_body) : bool :=
  (fb_nonce b <? 2 ^ 64) && is_bytesb (fb_request_id b) && is_bytesb (fb_proof b) &&
  if_someb (if_someb (fun r => r <? 2 ^ 32)) (fb_reserved_metadata b) && is_bytesb (fb_domain b) &&
  is_i32b (fb_variant b).

Ltac typedb :=
  repeat rewrite andb_true_iff; intros;
  repeat match goal with H : _ /\ _ |- _ => destruct H end;
  repeat match goal with |- _ /\ _ => split end;
  match goal with
  | |- is_bytes _ => apply is_bytesb_ok; assumption
  | |- is_i32 _ => apply is_i32b_ok; assumption
  | |- is_u64 _ => apply u64b_ok; assumption
  | |- is_word _ => apply wordb_ok; assumption
  | |- is_address _ => apply addressb_ok; assumption
  | |- Forall is_bytes _ => eapply forallb_ok; [exact is_bytesb_ok|assumption]
  | |- if_some is_bytes _ => eapply if_someb_ok; [exact is_bytesb_ok|assumption]
  | |- if_some is_i32 _ => eapply if_someb_ok; [exact is_i32b_ok|assumption]
  | |- if_some is_u64 _ => eapply if_someb_ok; [exact u64b_ok|assumption]
  | |- if_some (if_some _) _ =>
      eapply if_someb_ok; [intros ?; eapply if_someb_ok; intros ?; apply N.ltb_lt|assumption]
  end.

Lemma typed_withdrawb_ok b : typed_withdrawb b = true -> typed_withdraw b.
Proof. unfold typed_withdrawb, typed_withdraw. typedb. Qed.
Lemma typed_transferb_ok b : typed_transferb b = true -> typed_transfer b.
Proof. unfold typed_transferb, typed_transfer. typedb. Qed.
Lemma typed_delegationb_ok b : typed_delegationb b = true -> typed_delegation b.
Proof. unfold typed_delegationb, typed_delegation. typedb. Qed.
Lemma typed_requestb_ok b : typed_requestb b = true -> typed_request b.
Proof. unfold typed_requestb, typed_request. typedb. Qed.
Lemma typed_bidb_ok b : typed_bidb b = true -> typed_bid b.
Proof. unfold typed_bidb, typed_bid. typedb. Qed.
Lemma typed_settleb_ok b : typed_settleb b = true -> typed_settle b.
Proof. unfold typed_settleb, typed_settle. typedb. Qed.
Lemma typed_executeb_ok b : typed_executeb b = true -> typed_execute b.
Proof. unfold typed_executeb, typed_execute. typedb. Qed.
Lemma typed_fulfillb_ok b : typed_fulfillb b = true -> typed_fulfill b.
Proof. unfold typed_fulfillb, typed_fulfill. typedb. Qed.

Definition typed_messageb (m : message) : bool :=
  match m with
  | MRequest b => typed_requestb b
  | MBid b => typed_bidb b
  | MSettle b => typed_settleb b
  | MExecute b => typed_executeb b
  | MFulfill b => typed_fulfillb b
  | MDelegation b => typed_delegationb b
  | MTransfer b => typed_transferb b
  | MWithdraw b => typed_withdrawb b
  end.
Lemma typed_messageb_ok m : typed_messageb m = true -> typed_message m.
Proof.
  destruct m; cbn [typed_messageb typed_message]; [apply typed_requestb_ok|apply typed_bidb_ok|
    apply typed_settleb_ok|apply typed_executeb_ok|apply typed_fulfillb_ok|apply typed_delegationb_ok|
    apply typed_transferb_ok|apply typed_withdrawb_ok].
Qed.

Definition typed_signedb {B} (P : B -> bool) (m : signed B) : bool := if_someb P (s_body m).
Lemma typed_signedb_ok {B} (Pb : B -> bool) (P : B -> Prop) (m : signed B) :
  (forall b, Pb b = true -> P b) -> typed_signedb Pb m = true -> typed_signed P m.
Proof. apply if_someb_ok. Qed.

Definition typed_onchainb {T} (P : T -> bool) (o : onchain T) : bool :=
  (oc_block o <? 2 ^ 64) && (oc_log_index o <? 2 ^ 64) && (oc_tx o <? 2 ^ 64) && P (oc_action o).

Definition typed_txb (t : tx) : bool :=
  match t with
  | TxDeposit d => typed_onchainb (fun a => (da_account a <? 2 ^ 160) && (da_amount a <? 2 ^ 256)) d
  | TxCreateProver c =>
      typed_onchainb (fun a => (cp_prover a <? 2 ^ 160) && (cp_owner a <? 2 ^ 160) && (cp_bips a <? 2 ^ 256)) c
  | TxDelegate d => typed_signedb typed_delegationb d
  | TxTransfer t => typed_signedb typed_transferb t
  | TxWithdraw w => typed_signedb typed_withdrawb w
  | TxClear c =>
      typed_signedb typed_requestb (cl_request c) && typed_signedb typed_bidb (cl_bid c) &&
      typed_signedb typed_settleb (cl_settle c) && typed_signedb typed_executeb (cl_execute c) &&
      if_someb (typed_signedb typed_fulfillb) (cl_fulfill c)
  end.

Lemma typed_txb_ok t : typed_txb t = true -> typed_tx t.
Proof.
  destruct t as [d|c|d|t|c|w]; cbn [typed_txb typed_tx].
  - unfold typed_onchainb, typed_onchain, typed_deposit. typedb.
  - unfold typed_onchainb, typed_onchain, typed_create_prover. typedb.
  - apply typed_signedb_ok, typed_delegationb_ok.
  - apply typed_signedb_ok, typed_transferb_ok.
  - rewrite !andb_true_iff. intros [[[[H1 H2] H3] H4] H5].
    unfold typed_clear. repeat match goal with |- _ /\ _ => split end.
    + revert H1. apply typed_signedb_ok, typed_requestb_ok.
    + revert H2. apply typed_signedb_ok, typed_bidb_ok.
    + revert H3. apply typed_signedb_ok, typed_settleb_ok.
    + revert H4. apply typed_signedb_ok, typed_executeb_ok.
    + revert H5. apply if_someb_ok. intros f. apply typed_signedb_ok, typed_fulfillb_ok.
  - apply typed_signedb_ok, typed_withdrawb_ok.
Qed.

Definition typed_sol_receiptb (r : sol_receipt) : bool := (sr_tx_id r <? 2 ^ 64) && is_bytesb (sr_action r).
Definition typed_pvb (p : step_pv) : bool :=
  (pv_old_root p <? 2 ^ 256) && (pv_new_root p <? 2 ^ 256) && (pv_timestamp p <? 2 ^ 64) &&
  forallb typed_sol_receiptb (pv_receipts p) && (N.of_nat (length (abi_step p)) <? 2 ^ 256).
Lemma typed_pvb_ok p : typed_pvb p = true -> typed_pv p.
Proof.
  unfold typed_pvb, typed_pv. rewrite !andb_true_iff, !N.ltb_lt. intros [[[[H1 H2] H3] H4] H5].
  split; [exact H1|]. split; [exact H2|]. split; [exact H3|]. split; [|exact H5].
  eapply forallb_ok; [|exact H4]. intros r. unfold typed_sol_receiptb, typed_sol_receipt. typedb.
Qed.

Definition usable_inputb (E : env) (i : stf_input) : bool :=
  typed_inputb i && (si_timestamp i <? 2 ^ 64) && forallb typed_txb (si_txs i) &&
  match stf_commit E i with Some b => N.of_nat (length b) <? 2 ^ 256 | None => true end.
Lemma usable_inputb_ok E i : usable_inputb E i = true -> usable_input E i.
Proof.
  unfold usable_inputb, usable_input. rewrite !andb_true_iff. intros [[[H1 H2] H3] H4].
  split; [now apply typed_inputb_ok|]. split; [now apply u64b_ok|].
  split; [eapply forallb_ok; [exact typed_txb_ok|exact H3]|]. intros b Hb. rewrite Hb in H4.
  now apply N.ltb_lt.
Qed.

(** ** Two batches *)

(** Two batches: Alice's deposit, then her withdrawal and a deposit of Bob. *)
Definition batch_a : list tx := [tx_deposit 1 100 0 alice 1000].
Definition world_a1 : full_state := (run_txs toy_env batch_a world0).2.
Definition batch_b : list tx := [tx_withdraw alice 1 alice 200 0; tx_deposit 2 100 3 bob 77].
(** The inputs are evaluated here so that checking the examples is faster. *)
Definition input_a : stf_input := Eval vm_compute in honest_input toy_env world0 batch_a 1000.
Definition input_b : stf_input := Eval vm_compute in honest_input toy_env world_a1 batch_b 1005.

(** A transfer after both. *)
Definition input_c : stf_input := Eval vm_compute in
  honest_input toy_env (run_txs toy_env batch_b world_a1).2 [tx_transfer bob 7 alice 3 0] 1010.

(** The public values of all inputs, if all are usable and accepted by the program. *)
Fixpoint checked_commits (E : env) (inputs : list stf_input) : option (list bytes) :=
  match inputs with
  | [] => Some []
  | i :: rest =>
      match stf_commit E i, checked_commits E rest with
      | Some b, Some bs =>
          if typed_inputb i && (si_timestamp i <? 2 ^ 64) && forallb typed_txb (si_txs i) &&
             (N.of_nat (length b) <? 2 ^ 256)
          then Some (b :: bs) else None
      | _, _ => None
      end
  end.

Lemma checked_commits_ok E inputs : forall pvs, checked_commits E inputs = Some pvs ->
  Forall (usable_input E) inputs /\ Forall2 (fun b i => true = true -> stf_commit E i = Some b) pvs inputs.
Proof.
  induction inputs as [|i inputs IH]; intros pvs H; cbn [checked_commits] in H.
  - injection H as <-. split; constructor.
  - destruct (stf_commit E i) as [b|] eqn:Hb; [|discriminate].
    destruct (checked_commits E inputs) as [bs|]; [|discriminate].
    destruct (_ && _ && _ && _) eqn:Hall; [|discriminate]. injection H as <-.
    destruct (IH bs eq_refl) as [H1 H2]. split; [|constructor; [auto|exact H2]].
    constructor; [|exact H1]. apply usable_inputb_ok. unfold usable_inputb. rewrite Hb. exact Hall.
Qed.

Definition step_of (E : env) (inputs : list stf_input) : option step_pv :=
  match checked_commits E inputs with
  | Some pvs => aggregate_main toy_hash (fun _ => true) pvs
  | None => None
  end.

