(** What the ledger takes from the contract and what the contract pays for it. *)
From Verif Require Import AggFacts LedgerFacts StfFacts SparseSim Typed AbiFacts.
From Verif Require Export L1Live EventsFacts EventsSpec.
From Coq Require Import Lia ZifyBool ZifyN ZifyNat.
Open Scope N_scope.
Local Opaque request_index.

Definition receipt_in (r : receipt) : option (N * queued) :=
  match r with
  | RDeposit o => Some (or_tx_id o, QDeposit (or_action o))
  | RCreateProver o => Some (or_tx_id o, QCreateProver (or_action o))
  | RWithdraw _ => None
  end.
Definition receipt_out (r : receipt) : option (N * N) :=
  match r with RWithdraw o => Some (wa_account (fr_action o), wa_amount (fr_action o)) | _ => None end.
Definition done (p : N * queued) : sol_receipt := SolReceipt (queued_variant p.2) StCompleted p.1 (queued_data p.2).

Lemma batch_in E l txs rs l' : spec_run E l txs rs l' -> omap from_chain txs = omap receipt_in (batch_receipts rs).
Proof.
  induction 1 as [l|l t r l1 ts rs l' Hstep _ IH]; [reflexivity|].
  destruct Hstep; cbn [batch_receipts omap list_omap from_chain receipt_in or_tx_id or_action]; rewrite ?IH; reflexivity.
Qed.

Lemma batch_out rs : omap withdrawal_made rs = omap receipt_out (batch_receipts rs).
Proof.
  induction rs as [|r rs IH]; [reflexivity|]. destruct r as [[[o|o|o]|]| |]; cbn [batch_receipts omap list_omap withdrawal_made receipt_out];
    cbn in IH; rewrite ?IH; reflexivity.
Qed.

Lemma handled_in L x rcs : forall v v', Forall completed rcs -> handle_receipts L x (map sol_of_receipt rcs) v = Ok v' ->
  onchain (map sol_of_receipt rcs) = map done (omap receipt_in rcs).
Proof.
  induction rcs as [|r rcs IH]; intros v v' Hco H; cbn [map handle_receipts] in H; [reflexivity|].
  apply Forall_cons in Hco as [Hc Hco]. l1_inv. specialize (IH _ _ Hco H). cbn [map]. rewrite onchain_cons, IH.
  destruct (N.eqb_spec (sr_tx_id (sol_of_receipt r)) u64_max) as [Hid|Hid]; cbn [negb] in *.
  - destruct (offchain_is_withdraw _ _ _ _ _ Hc H0) as [o ->]. reflexivity.
  - destruct r as [o|o|o]; cbn [completed] in Hc; cbn [omap list_omap receipt_in map done fst snd queued_variant sol_of_receipt].
    + unfold done. cbn [fst snd queued_variant]. now rewrite Hc.
    + unfold done. cbn [fst snd queued_variant]. now rewrite Hc.
    + now destruct Hid.
Qed.

Lemma handled_out L x rcs : forall v v', Forall completed rcs -> Forall typed_receipt rcs ->
  handle_receipts L x (map sol_of_receipt rcs) v = Ok v' ->
  omap payment_made (receipts_events L x (map sol_of_receipt rcs) v) = omap receipt_out rcs.
Proof.
  induction rcs as [|r rcs IH]; intros v v' Hco Hty H; cbn [map handle_receipts] in H; [reflexivity|].
  apply Forall_cons in Hco as [Hc Hco]. apply Forall_cons in Hty as [Hr Hty]. l1_inv. specialize (IH _ _ Hco Hty H).
  cbn [map receipts_events]. rewrite H0, omap_app, IH.
  destruct (N.eqb_spec (sr_tx_id (sol_of_receipt r)) u64_max) as [Hid|Hid]; cbn [negb] in *.
  - destruct (offchain_is_withdraw _ _ _ _ _ Hc H0) as [o ->]. cbn [completed typed_receipt] in *. unfold offchain_events.
    cbn [sol_of_receipt sr_status sr_action]. rewrite Hc, (decode_withdraw_own _ Hr). reflexivity.
  - destruct r as [o|o|o]; cbn [completed] in Hc.
    + unfold onchain_events. cbn [sol_of_receipt sr_status]. rewrite Hc. reflexivity.
    + unfold onchain_events. cbn [sol_of_receipt sr_status]. rewrite Hc. reflexivity.
    + now destruct Hid.
Qed.

Lemma receipts_in_typed rcs : Forall typed_receipt rcs -> Forall (fun p => typed_queued p.2) (omap receipt_in rcs).
Proof.
  induction 1 as [|r rcs Hr _ IH]; [constructor|]. destruct r as [o|o|o]; cbn [omap list_omap receipt_in]; [| |exact IH];
    (constructor; [|exact IH]); destruct Hr as [_ Hr]; exact Hr.
Qed.

Lemma brought_in_app a b : brought_in (a ++ b) = brought_in a ++ brought_in b.
Proof. apply flat_map_app. Qed.

Lemma brought_in_cons e log : brought_in (e :: log) = brought_in [e] ++ brought_in log.
Proof. unfold brought_in. cbn [flat_map]. now rewrite app_nil_r. Qed.
Lemma finalised_cons L e log : finalised L (e :: log) = finalised L [e] ++ finalised L log.
Proof. unfold finalised. cbn [flat_map]. now rewrite app_nil_r. Qed.

Lemma history_crossing E L sha verify v log events v' :
  env_ok E -> l1_env_ok L -> addresses_ok L -> l1_observed L v log events v' ->
  forall s C F, system_inv E L s C F v ->
  Forall typed_entry log -> Forall no_fork log -> Forall (own_actions L) log ->
  Forall (proofs_sound E sha verify) log -> collision_free (keccak E) (log_strings E s log) ->
  finalised L log = map done (brought_in log) /\ Forall (fun p => typed_queued p.2) (brought_in log) /\
  omap payment_made events = brought_out E s log.
Proof.
  intros HE HL Ha H.
  induction H as [v|v x c i v1 log events v' Ht H IH|v x c e v1 log events v' Ht H IH|v o t log events v' Ht H IH];
    intros s C F Hinv Hty Hnf Hown Hsnd Hcol.
  - repeat split; constructor.
  - apply Forall_cons in Hty as [Hty1 Hty]. apply Forall_cons in Hnf as [Hnf1 Hnf].
    apply Forall_cons in Hown as [Hown1 Hown]. apply Forall_cons in Hsnd as [Hsnd1 Hsnd].
    rewrite log_strings_cons in Hcol. apply collision_free_app in Hcol as [Hcol1 Hcol].
    apply transact_ok in Ht.
    pose proof (accepted_solvent E L sha verify s C F v x c i v1 HE HL Ha Hinv Hty1 Hnf1 Hown1 Hsnd1 Hcol1 Ht) as H1.
    destruct (IH _ _ _ H1 Hty Hnf Hown Hsnd Hcol) as (IH1 & IH2 & IH3). clear IH.
    rewrite finalised_cons, brought_in_cons, map_app, IH1, omap_app, IH3.
    assert (Hthis : finalised L [LAccepted x c i] = map done (brought_in [LAccepted x c i]) /\
      Forall (fun p => typed_queued p.2) (brought_in [LAccepted x c i]) /\
      omap payment_made (l1_events L x c v) ++ brought_out E (ledger_after E s [LAccepted x c i]) log
      = brought_out E s (LAccepted x c i :: log)).
    2:{ destruct Hthis as (A & B & D). split; [now rewrite A|]. split; [|exact D]. apply Forall_app. split; assumption. }
    clear IH1 IH2 IH3.
    destruct c as [amount|from amount|prover owner bips|b proof|vkey root|c];
      try (repeat split; constructor).
    + cbn [log_strings proofs_sound l1_run ledger_after] in *. rewrite app_nil_r in Hcol1.
      destruct Hinv as [Hq Htq Htok Hst Htyf Hroot Hfunds].
      destruct (made_from_spec E sha verify i b s HE Hst Htyf Hsnd1 Hcol1) as (p & Htp & -> & Hrun).
      pose proof (leo_inverts L HL p Htp) as Hdec.
      apply step_ok in Ht as (p' & Hp & Ht). assert (p' = p) as -> by (destruct Hp; congruence).
      destruct Hrun as (s' & rs & Hb & Hcalm & Hnew & Hrec & Hst' & Hty' & Htr); [destruct Hp; congruence|].
      rewrite Hrec in Ht. pose proof (run_batch_spec E _ _ _ _ Hb Hcalm) as Hspec.
      destruct (run_flow E _ _ _ _ Hspec) as [_ Hcomp].
      unfold finalised, brought_in. cbn [flat_map brought_out l1_events]. rewrite !app_nil_r, Hdec, Hrec, Hb. cbn [fst snd].
      rewrite (batch_in _ _ _ _ _ Hspec), batch_out. split; [exact (handled_in _ _ _ _ _ Hcomp Ht)|].
      split; [now apply receipts_in_typed|]. unfold step_events. rewrite Hdec, omap_app. cbn [omap list_omap payment_made].
      rewrite app_nil_r, Hrec, (handled_out _ _ _ _ _ Hcomp Htr Ht). reflexivity.
    + destruct c; repeat split; constructor.
  - apply Forall_cons in Hty as [Hty1 Hty]. apply Forall_cons in Hnf as [Hnf1 Hnf].
    apply Forall_cons in Hown as [Hown1 Hown]. apply Forall_cons in Hsnd as [Hsnd1 Hsnd].
    apply transact_err in Ht as [_ ->]. exact (IH _ _ _ Hinv Hty Hnf Hown Hsnd Hcol).
  - apply Forall_cons in Hty as [Hty1 Hty]. apply Forall_cons in Hnf as [Hnf1 Hnf].
    apply Forall_cons in Hown as [Hown1 Hown]. apply Forall_cons in Hsnd as [Hsnd1 Hsnd].
    destruct Hinv as [Hq Htq Htok Hst Htyf Hroot Hfunds].
    destruct (token_op_safe L v o t Hown1 Htok Ht) as [Htok' Hb].
    apply (IH s C F); try assumption. constructor; try assumption.
    + eapply queue_same; [exact Hq|reflexivity..].
    + cbn [va_set_prove va_prove]. lia.
Qed.

Lemma data_injective q q' rest : typed_queued q -> typed_queued q' -> queued_variant q' = queued_variant q ->
  queued_data q' = queued_data q ++ rest -> q' = q.
Proof.
  intros Hq Hq' Hv Hd. destruct q as [d|c], q' as [d'|c']; try discriminate; cbn [typed_queued] in *.
  - pose proof (decode_deposit_own d rest Hq) as H1. pose proof (decode_deposit_own d' [] Hq') as H2.
    rewrite app_nil_r in H2. rewrite <- Hd in H1. congruence.
  - pose proof (decode_create_own c rest Hq) as H1. pose proof (decode_create_own c' [] Hq') as H2.
    rewrite app_nil_r in H2. rewrite <- Hd in H1. congruence.
Qed.

Lemma brought_queue C B v : queue_faithful C (map done B) v -> Forall typed_queued C -> Forall (fun p => typed_queued p.2) B ->
  B = imap (fun n q => (N.of_nat n + 1, q)) (take (N.to_nat (va_finalized v)) C).
Proof.
  intros [H1 H2 H3 H4 H5 H6] HC HB. rewrite map_length in *. rewrite H2, Nat2N.id. apply list_eq. intros n.
  rewrite list_lookup_imap. destruct (decide (n < length B)%nat) as [Hn|Hn].
  - rewrite lookup_take by lia. destruct (lookup_lt_is_Some_2 B n Hn) as [[id q'] Hb].
    destruct (H6 n (done (id, q'))) as (Hid & _ & q & rest & Hq & Hv & Hd); [rewrite list_lookup_fmap, Hb; reflexivity|].
    cbn [done sr_tx_id sr_variant sr_action fst snd] in *. rewrite Hb, Hq. cbn. rewrite Hid.
    rewrite (data_injective q q' rest); [reflexivity|..|exact Hv|exact Hd].
    + exact (proj1 (Forall_lookup _ _) HC _ _ Hq).
    + exact (proj1 (Forall_lookup _ _) HB _ _ Hb).
  - rewrite lookup_take_ge by lia. rewrite lookup_ge_None_2 by lia. reflexivity.
Qed.

Lemma settled_crossing E L sha verify domain v0 log events v :
  settled_run E L sha verify domain v0 log v -> l1_observed L v0 log events v ->
  collision_free (keccak E) (log_strings E (full_new E domain) log) ->
  brought_in log = imap (fun n q => (N.of_nat n + 1, q)) (take (N.to_nat (va_finalized v)) (created log)) /\
  omap payment_made events = brought_out E (full_new E domain) log.
Proof.
  intros Hr Ho Hc. destruct (run_inv E L sha verify domain v0 log v Hr Hc) as [Hinv _].
  destruct Hr as [HE HL Ha Hd Hdep Hh Hty Hnf Hown Hsnd].
  destruct Hdep as (pr & ow & pa & au & st & ve & md & vk & Hi & Hno).
  pose proof (initial_solvent E L pr ow pa au st ve md vk domain v0 Hd (ao_differ _ Ha) Hno Hi) as H0.
  destruct (history_crossing E L sha verify v0 log events v HE HL Ha Ho _ _ _ H0 Hty Hnf Hown Hsnd Hc) as (A & B & D).
  split; [|exact D]. destruct Hinv as [Hq Htq _ _ _ _ _]. rewrite A in Hq. now apply brought_queue.
Qed.

Lemma settled_inwards E L sha verify domain v0 log v :
  settled_run E L sha verify domain v0 log v -> collision_free (keccak E) (log_strings E (full_new E domain) log) ->
  brought_in log = imap (fun n q => (N.of_nat n + 1, q)) (take (N.to_nat (va_finalized v)) (created log)).
Proof.
  intros Hr Hc. destruct (proj1 (history_observed _ _ _ _) (sr_history _ _ _ _ _ _ _ _ Hr)) as [events Ho].
  exact (proj1 (settled_crossing E L sha verify domain v0 log events v Hr Ho Hc)).
Qed.
Lemma settled_outwards E L sha verify domain v0 log events v :
  settled_run E L sha verify domain v0 log v -> l1_observed L v0 log events v ->
  collision_free (keccak E) (log_strings E (full_new E domain) log) ->
  omap payment_made events = brought_out E (full_new E domain) log.
Proof. intros Hr Ho Hc. exact (proj2 (settled_crossing E L sha verify domain v0 log events v Hr Ho Hc)). Qed.

Lemma history_one_observed L v log v' : l1_history L v log v' ->
  exists events, l1_observed L v log events v' /\
    forall events' v'', l1_observed L v log events' v'' -> events' = events /\ v'' = v'.
Proof.
  intros H. destruct (proj1 (history_observed _ _ _ _) H) as [events Ho]. exists events. split; [exact Ho|].
  intros events' v'' H'. destruct (observed_unique _ _ _ _ _ Ho _ _ H') as [-> ->]. auto.
Qed.
