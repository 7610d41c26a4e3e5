(** Ledger and settlement contract agree on the next on-chain transaction, so honest steps pass. *)
From Verif Require Import AggFacts LedgerFacts StfFacts SparseSim Typed AbiFacts.
From Verif Require Export L1Solvent.
From Coq Require Import Lia ZifyBool ZifyN ZifyNat.
Open Scope N_scope.
Local Opaque request_index.

(** ** Cursors *)

(** The on-chain receipts carry the ids from [n] on; [n'] is the next one. *)
Fixpoint numbered (n : N) (rcs : list receipt) (n' : N) : Prop :=
  match rcs with
  | [] => n = n'
  | RDeposit o :: rest => or_tx_id o = n /\ numbered (next_u64 n) rest n'
  | RCreateProver o :: rest => or_tx_id o = n /\ numbered (next_u64 n) rest n'
  | RWithdraw _ :: rest => numbered n rest n'
  end.

Lemma run_numbered E l txs rs l' : spec_run E l txs rs l' ->
  numbered (vs_onchain_tx_id l) (batch_receipts rs) (vs_onchain_tx_id l').
Proof.
  induction 1 as [l|l t r l1 ts rs l' Hstep _ IH]; [reflexivity|]. cbn [batch_receipts].
  destruct Hstep; cbn [batch_receipts numbered] in *;
    try match goal with H : next_onchain _ _ |- _ => destruct H as [Hid _] end;
    try (split; [exact Hid|]); exact IH.
Qed.

Lemma u64_succ_twice n : next_u64 (next_u64 n) = next_u64 (n + 1).
Proof. unfold next_u64. rewrite N.add_mod_idemp_l by discriminate. reflexivity. Qed.

Lemma u64_succ_small n : n + 1 < two64 -> next_u64 n = n + 1.
Proof. apply N.mod_small. Qed.
Local Opaque next_u64 u64_max.

Lemma offchain_is_withdraw L x r v v' :
  completed r -> handle_offchain_receipt L x (sol_of_receipt r) v = Ok v' -> exists o, r = RWithdraw o.
Proof.
  intros Hc. destruct r as [o|o|o]; [| |eauto]; unfold handle_offchain_receipt;
    cbn [sol_of_receipt sr_status sr_variant completed] in *; rewrite Hc; discriminate.
Qed.
Lemma same_finalized v v' : same_but_token v v' -> va_finalized v' = va_finalized v.
Proof. unfold same_but_token. intros ->. reflexivity. Qed.
Lemma withdraw_tx_id o : sr_tx_id (sol_of_receipt (RWithdraw o)) = u64_max.
Proof. reflexivity. Qed.

Lemma handle_numbered L x C rcs : forall F v v' n',
  Forall typed_queued C -> Forall typed_receipt rcs -> Forall completed rcs -> queue_faithful C F v ->
  handle_receipts L x (map sol_of_receipt rcs) v = Ok v' ->
  numbered (next_u64 (va_finalized v)) rcs n' -> n' = next_u64 (va_finalized v').
Proof.
  induction rcs as [|r rcs IH]; intros F v v' n' HC Hty Hco Hq H Hn; cbn [map handle_receipts] in H.
  - l1_inv. subst v'. cbn [numbered] in Hn. congruence.
  - apply Forall_cons in Hty as [Hr Hty]. apply Forall_cons in Hco as [Hc Hco].
    l1_inv. destruct (N.eqb_spec (sr_tx_id (sol_of_receipt r)) u64_max) as [Hid|Hid]; cbn [negb] in *.
    + pose proof (offchain_frame _ _ _ _ _ H0) as Hfr.
      destruct (offchain_is_withdraw _ _ _ _ _ Hc H0) as [o ->].
      cbn [numbered] in Hn. rewrite <- (same_finalized _ _ Hfr) in Hn.
      exact (IH F x0 v' n' HC Hty Hco (token_frame _ _ _ _ Hfr Hq) H Hn).
    + destruct (queue_receipt C F v x0 _ HC (sol_bytes r Hr) Hq H0) as [Hq1 _].
      assert (Hf : va_finalized x0 = va_finalized v + 1).
      { rewrite (qf_finalized _ _ _ Hq1), (qf_finalized _ _ _ Hq), app_length. cbn [length]. lia. }
      eapply (IH _ x0); try eassumption. rewrite Hf, <- u64_succ_twice.
      destruct r as [o|o|o]; cbn [numbered] in Hn.
      * destruct Hn as [_ Hn]. exact Hn.
      * destruct Hn as [_ Hn]. exact Hn.
      * destruct (Hid (withdraw_tx_id o)).
Qed.

(** ** Honest steps *)

Lemma assert_eq_same q status id r :
  typed_queued q -> sr_variant r = queued_variant q -> sr_action r = queued_data q ->
  assert_eq (L1Tx (queued_variant q) status id (queued_data q)) r = Ok tt.
Proof.
  intros Hq Hv Ha. unfold assert_eq, assert_deposit_eq, assert_prover_eq. rewrite Hv, Ha.
  cbn [lt_variant lt_action]. destruct q as [d|c]; cbn [queued_variant typed_queued] in *.
  - pose proof (decode_deposit_own d [] Hq) as Hd. rewrite app_nil_r in Hd. rewrite Hd.
    cbn [l1_bind]. rewrite !N.eqb_refl. reflexivity.
  - pose proof (decode_create_own c [] Hq) as Hd. rewrite app_nil_r in Hd. rewrite Hd.
    cbn [l1_bind]. rewrite !N.eqb_refl. reflexivity.
Qed.

Definition receipt_queued (C : list queued) (r : receipt) : Prop :=
  match r with
  | RDeposit o => exists n, or_tx_id o = N.of_nat n + 1 /\ C !! n = Some (QDeposit (or_action o))
  | RCreateProver o => exists n, or_tx_id o = N.of_nat n + 1 /\ C !! n = Some (QCreateProver (or_action o))
  | RWithdraw _ => True
  end.

Lemma onchain_succeeds C F v r q n :
  Forall typed_queued C -> queue_faithful C F v -> N.of_nat (length C) < u64_max ->
  sr_tx_id r = N.of_nat n + 1 -> C !! n = Some q -> sr_tx_id r = next_u64 (va_finalized v) ->
  sr_status r = StCompleted -> sr_variant r = queued_variant q -> sr_action r = queued_data q ->
  exists v', handle_onchain_receipt r v = Ok v'.
Proof.
  intros HC Hq Hlen Hid Hn Hnext Hst Hv Ha. destruct Hq as [H1 H2 H3 H4 H5 H6].
  pose proof (lookup_lt_Some _ _ _ Hn) as Hlt.
  assert (Hmax : u64_max < two64) by reflexivity.
  assert (Hs : next_u64 (va_finalized v) = va_finalized v + 1).
  { apply u64_succ_small. lia. }
  unfold handle_onchain_receipt, l1_succ.
  destruct (N.ltb_spec (va_finalized v + 1) two64); [|lia]. cbn [l1_bind].
  destruct (N.eqb_spec (va_finalized v + 1) (sr_tx_id r)); [cbn [negb]|lia]. rewrite Hst.
  replace (va_finalized v + 1) with (N.of_nat n + 1) by lia. rewrite (H4 n q Hn).
  cbn [default from_option id]. rewrite assert_eq_same; [|now apply (proj1 (Forall_lookup _ _) HC n)|assumption..].
  cbn [l1_bind]. rewrite Hv. destruct q; cbn [queued_variant]; eexists; reflexivity.
Qed.

Lemma withdraw_succeeds L x to amount v :
  addresses_ok L -> token_safe L (va_prove v) -> amount <= tk_balance (va_prove v) (le_self L) ->
  to <> 0 -> (cx_is_prover x to = true -> cx_vault_accepts x to amount = true) ->
  exists v', process_withdraw L x to amount v = Ok v'.
Proof.
  intros [Hs Hi Hd] Ht Hb Hto Hv. unfold process_withdraw. destruct (cx_is_prover x to).
  - rewrite Hv by reflexivity. cbn [l1_require l1_bind].
    unfold tk_transfer_from, tk_spend. rewrite Ht. rewrite !N.eqb_refl. unfold tk_transfer.
    destruct (N.eqb_spec (le_self L) 0), (N.eqb_spec (le_iprove L) 0); try congruence. cbn [orb].
    destruct (N.ltb_spec (tk_balance (va_prove v) (le_self L)) amount); [lia|]. eexists. reflexivity.
  - unfold tk_transfer.
    destruct (N.eqb_spec (le_self L) 0), (N.eqb_spec to 0); try congruence. cbn [orb].
    destruct (N.ltb_spec (tk_balance (va_prove v) (le_self L)) amount); [lia|]. eexists. reflexivity.
Qed.

Lemma handle_succeeds L x C rcs : forall F v T T' n',
  addresses_ok L -> Forall typed_queued C -> Forall typed_receipt rcs -> Forall completed rcs ->
  queue_faithful C F v -> token_safe L (va_prove v) -> flows T rcs T' ->
  T + pending_deposits C F <= tk_balance (va_prove v) (le_self L) ->
  numbered (next_u64 (va_finalized v)) rcs n' -> N.of_nat (length C) < u64_max ->
  Forall (receipt_queued C) rcs -> Forall (can_receive x) (map sol_of_receipt rcs) ->
  exists v', handle_receipts L x (map sol_of_receipt rcs) v = Ok v'.
Proof.
  induction rcs as [|r rcs IH]; intros F v T T' n' HL HC Hty Hco Hq Ht Hf Hb Hn Hlen Hrq Hrec;
    cbn [map handle_receipts].
  - eexists. reflexivity.
  - apply Forall_cons in Hty as [Hr Hty]. apply Forall_cons in Hco as [Hc Hco]. destruct Hf as [Hpay Hf].
    apply Forall_cons in Hrq as [Hrq1 Hrq]. cbn [map] in Hrec. apply Forall_cons in Hrec as [Hrec1 Hrec].
    assert (Hon : forall o', sol_of_receipt r = o' ->
      (exists v1, handle_onchain_receipt o' v = Ok v1) -> sr_tx_id o' <> u64_max ->
      numbered (next_u64 (next_u64 (va_finalized v))) rcs n' ->
      exists v', l1_bind (if negb (sr_tx_id o' =? u64_max) then handle_onchain_receipt o' v
        else handle_offchain_receipt L x o' v) (fun v1 => handle_receipts L x (map sol_of_receipt rcs) v1) = Ok v').
    { intros o' <- [v1 Hv1] Hid Hnum. apply N.eqb_neq in Hid. rewrite Hid. cbn [negb]. rewrite Hv1. cbn [l1_bind].
      destruct (receipt_amount C F v v1 r HC Hr Hq Hv1) as [Hp Hz].
      destruct (queue_receipt C F v v1 _ HC (sol_bytes r Hr) Hq Hv1) as (Hq1 & Hpr & _).
      assert (Hfin : va_finalized v1 = va_finalized v + 1).
      { rewrite (qf_finalized _ _ _ Hq1), (qf_finalized _ _ _ Hq), app_length. cbn [length]. lia. }
      eapply (IH _ v1 _ T' n'); try eassumption; rewrite ?Hpr; try assumption; [lia|].
      rewrite Hfin, <- u64_succ_twice. exact Hnum. }
    destruct r as [o|o|o].
    + destruct Hrq1 as (n & Hid & HCn). cbn [numbered] in Hn. destruct Hn as [Hnext Hn].
      pose proof (lookup_lt_Some _ _ _ HCn) as Hlt.
      apply (Hon _ eq_refl); [|cbn [sol_of_receipt sr_tx_id]; lia|exact Hn].
      eapply (onchain_succeeds C F v _ _ n HC Hq Hlen); [exact Hid|exact HCn|exact Hnext|exact Hc|reflexivity|reflexivity].
    + destruct Hrq1 as (n & Hid & HCn). cbn [numbered] in Hn. destruct Hn as [Hnext Hn].
      pose proof (lookup_lt_Some _ _ _ HCn) as Hlt.
      apply (Hon _ eq_refl); [|cbn [sol_of_receipt sr_tx_id]; lia|exact Hn].
      eapply (onchain_succeeds C F v _ _ n HC Hq Hlen); [exact Hid|exact HCn|exact Hnext|exact Hc|reflexivity|reflexivity].
    + cbn [sol_of_receipt sr_tx_id]. rewrite N.eqb_refl. cbn [negb]. unfold handle_offchain_receipt at 1.
      cbn [sr_status sr_variant sr_action]. cbn [completed] in Hc. rewrite Hc.
      rewrite (decode_withdraw_own _ Hr). cbn [l1_bind].
      cbn [paid_in paid_out] in *. rewrite N.add_0_r in *.
      destruct (Hrec1 _ _ eq_refl (decode_withdrawal _ _ (decode_withdraw_own _ Hr))) as [Hto Hvault].
      destruct (withdraw_succeeds L x (wa_account (fr_action o)) (wa_amount (fr_action o)) v HL Ht ltac:(lia) Hto Hvault) as [v1 Hv1].
      pose proof (withdraw_paid L x (wa_account (fr_action o)) (wa_amount (fr_action o)) v HL Ht ltac:(lia)) as Hp.
      rewrite Hv1 in Hp |- *. cbn [l1_bind]. destruct Hp as [Ht1 Hb1]. apply process_withdraw_frame in Hv1.
      cbn [numbered] in Hn. eapply (IH F v1 _ T' n'); try eassumption; [eapply token_frame; eassumption|lia|].
      rewrite (same_finalized _ _ Hv1). exact Hn.
Qed.

Lemma batch_queued E C l txs rs l' : spec_run E l txs rs l' -> Forall (from_queue C) txs ->
  Forall (receipt_queued C) (batch_receipts rs).
Proof.
  induction 1 as [l|l t r l1 ts rs l' Hstep _ IH]; intros Ht; [constructor|].
  apply Forall_cons in Ht as [H1 Ht]. specialize (IH Ht).
  destruct Hstep; cbn [batch_receipts]; try exact IH; constructor; try exact IH; try exact I; exact H1.
Qed.

Lemma step_succeeds E L sha verify s C F v x p proof inputs :
  env_ok E -> l1_env_ok L -> addresses_ok L -> system_inv E L s C F v ->
  vs_onchain_tx_id s = next_u64 (va_finalized v) ->
  made_from E sha verify inputs (abi_step p) -> collision_free (keccak E) (chain_strings E inputs s) ->
  step_allowed L x (abi_step p) proof p v -> va_block v + 1 < two64 -> N.of_nat (length C) < u64_max ->
  Forall (from_queue C) (all_txs inputs) -> Forall (can_receive x) (pv_receipts p) ->
  exists v', l1_step L x (abi_step p) proof v = Ok v'.
Proof.
  intros HE HL Ha [Hq Htq Htok Hst Hty Hroot Hfunds] Hcur Hmade Hc [S1 S2 S3 S4 S5 S6 S7 S8] Hblk Hlen Hfq Hrec.
  destruct (made_from_spec E sha verify inputs _ s HE Hst Hty Hmade Hc) as (p' & Htp & Hbytes & Hrun).
  pose proof (leo_inverts L HL p' Htp) as Hdec. rewrite <- Hbytes, S4 in Hdec. injection Hdec as <-.
  unfold l1_step. rewrite S1, N.eqb_refl, S2, S3, S4. cbn [negb l1_require l1_bind].
  apply N.eqb_neq in S5. rewrite S5. cbn [negb l1_require l1_bind].
  pose proof S6 as S6'. apply eq_sym, N.eqb_eq in S6. rewrite S6. cbn [negb l1_require l1_bind].
  destruct (N.leb_spec (pv_timestamp p) (cx_time x)); [|lia]. cbn [l1_require l1_bind].
  destruct (N.leb_spec (va_timestamp v) (pv_timestamp p)); [|lia]. cbn [l1_require l1_bind].
  destruct (N.leb_spec (cx_time x - pv_timestamp p) 3600); [|lia]. cbn [l1_require l1_bind].
  unfold l1_succ. destruct (N.ltb_spec (va_block v + 1) two64); [|lia]. cbn [l1_bind].
  destruct Hrun as (s' & rs & Hb & Hcalm & Hnew & Hrecs & Hst' & Hty' & Htr); [congruence|].
  rewrite Hrecs in *. pose proof (run_batch_spec E _ _ _ _ Hb Hcalm) as Hspec.
  destruct (run_flow E _ _ _ _ Hspec) as [Hflow Hcomp]. pose proof (run_numbered E _ _ _ _ Hspec) as Hnum.
  change (vs_onchain_tx_id (contents s)) with (vs_onchain_tx_id s) in Hnum. rewrite Hcur in Hnum.
  eapply (handle_succeeds L x C _ F); try eassumption.
  - eapply queue_same; [exact Hq|reflexivity..].
  - eapply batch_queued; eassumption.
Qed.

Lemma history_cursor E L sha verify v log v' :
  env_ok E -> l1_env_ok L -> addresses_ok L -> l1_history L v log v' ->
  forall s C F, system_inv E L s C F v -> vs_onchain_tx_id s = next_u64 (va_finalized v) ->
  Forall typed_entry log -> Forall no_fork log -> Forall (own_actions L) log ->
  Forall (proofs_sound E sha verify) log -> collision_free (keccak E) (log_strings E s log) ->
  vs_onchain_tx_id (ledger_after E s log) = next_u64 (va_finalized v').
Proof.
  intros HE HL Ha H. induction H as [v|v x c i v1 log v' Ht H IH|v x c e v1 log v' Ht H IH|v o t log v' Ht H IH];
    intros s C F Hinv Hcur Hty Hnf Hown Hsnd Hcol.
  - exact Hcur.
  - apply Forall_cons in Hty as [Hty1 Hty]. apply Forall_cons in Hnf as [Hnf1 Hnf].
    apply Forall_cons in Hown as [Hown1 Hown]. apply Forall_cons in Hsnd as [Hsnd1 Hsnd].
    rewrite log_strings_cons in Hcol. apply collision_free_app in Hcol as [Hcol1 Hcol].
    apply transact_ok in Ht.
    pose proof (accepted_solvent E L sha verify s C F v x c i v1 HE HL Ha Hinv Hty1 Hnf1 Hown1 Hsnd1 Hcol1 Ht) as H1.
    rewrite ledger_after_cons. eapply IH; try eassumption.
    assert (Hsame : (forall b proof, c <> CStep b proof) -> va_finalized v1 = va_finalized v /\ ledger_after E s [LAccepted x c i] = s).
    { intros Hns. split; [|destruct c; try reflexivity; now destruct (Hns public_values proof)].
      rewrite (qf_finalized _ _ _ (sy_queue _ _ _ _ _ _ H1)), (qf_finalized _ _ _ (sy_queue _ _ _ _ _ _ Hinv)).
      unfold finalised. cbn [flat_map]. destruct c; rewrite ?app_nil_r; try reflexivity.
      now destruct (Hns public_values proof). }
    destruct c as [amount|from amount|prover owner bips|b proof|vkey root|c];
      try (destruct Hsame as [-> ->]; [discriminate|exact Hcur]).
    clear Hsame. cbn [log_strings proofs_sound l1_run ledger_after] in *. rewrite app_nil_r in Hcol1.
    destruct Hinv as [Hq Htq Htok Hst Htyf Hroot Hfunds].
    destruct (made_from_spec E sha verify i b s HE Hst Htyf Hsnd1 Hcol1) as (p & Htp & -> & Hrun).
    pose proof (leo_inverts L HL p Htp) as Hdec.
    apply step_ok in Ht as (p' & Hp & Ht). assert (p' = p) as -> by (destruct Hp; congruence).
    destruct Hrun as (s' & rs & Hb & Hcalm & Hnew & Hrec & Hst' & Hty' & Htr); [destruct Hp; congruence|].
    rewrite Hb. cbn [fst]. rewrite Hrec in Ht. pose proof (run_batch_spec E _ _ _ _ Hb Hcalm) as Hspec.
    destruct (run_flow E _ _ _ _ Hspec) as [_ Hcomp]. pose proof (run_numbered E _ _ _ _ Hspec) as Hnum.
    change (vs_onchain_tx_id (contents s)) with (vs_onchain_tx_id s) in Hnum. rewrite Hcur in Hnum.
    change (vs_onchain_tx_id (contents s')) with (vs_onchain_tx_id s') in Hnum.
    eapply (handle_numbered L x C _ F); [exact Htq|exact Htr|exact Hcomp| |exact Ht|exact Hnum].
    eapply queue_same; [exact Hq|reflexivity..].
  - apply Forall_cons in Hty as [Hty1 Hty]. apply Forall_cons in Hnf as [Hnf1 Hnf].
    apply Forall_cons in Hown as [Hown1 Hown]. apply Forall_cons in Hsnd as [Hsnd1 Hsnd].
    apply transact_err in Ht as [_ ->]. exact (IH _ _ _ Hinv Hcur Hty Hnf Hown Hsnd Hcol).
  - apply Forall_cons in Hty as [Hty1 Hty]. apply Forall_cons in Hnf as [Hnf1 Hnf].
    apply Forall_cons in Hown as [Hown1 Hown]. apply Forall_cons in Hsnd as [Hsnd1 Hsnd].
    destruct Hinv as [Hq Htq Htok Hst Htyf Hroot Hfunds].
    destruct (token_op_safe L v o t Hown1 Htok Ht) as [Htok' Hb].
    apply (IH s C F); try assumption. constructor; try assumption.
    + eapply queue_same; [exact Hq|reflexivity..].
    + cbn [va_set_prove va_prove]. lia.
Qed.

(** ** The whole run *)

Lemma run_inv E L sha verify domain v0 log v :
  settled_run E L sha verify domain v0 log v ->
  collision_free (keccak E) (log_strings E (full_new E domain) log) ->
  system_inv E L (ledger_after E (full_new E domain) log) (created log) (finalised L log) v /\
  vs_onchain_tx_id (ledger_after E (full_new E domain) log) = next_u64 (va_finalized v).
Proof.
  intros [HE HL Ha Hd Hdep Hh Hty Hnf Hown Hsnd] Hc.
  destruct Hdep as (pr & ow & pa & au & st & ve & md & vk & Hi & Hno).
  destruct Ha as [A1 A2 A3]. pose proof (Build_addresses_ok L A1 A2 A3) as Ha.
  pose proof (initial_solvent E L pr ow pa au st ve md vk domain v0 Hd A3 Hno Hi) as Hinv.
  split.
  - exact (history_solvent E L sha verify v0 log v HE HL Ha Hh _ [] [] Hinv Hty Hnf Hown Hsnd Hc).
  - refine (history_cursor E L sha verify v0 log v HE HL Ha Hh _ [] [] Hinv _ Hty Hnf Hown Hsnd Hc).
    rewrite (qf_finalized _ _ _ (sy_queue _ _ _ _ _ _ Hinv)). reflexivity.
Qed.
