(** The settlement contract holds what the ledger owes. *)
From Verif Require Import AggFacts LedgerFacts StfFacts SparseSim Typed AbiFacts.
From Verif Require Export TokenFacts L1Facts.
From Coq Require Import Lia ZifyBool ZifyN ZifyNat.
Open Scope N_scope.
Local Opaque request_index.

(** ** What a batch moves in and out *)

Definition paid_in (r : receipt) : N := match r with RDeposit o => da_amount (or_action o) | _ => 0 end.
Definition paid_out (r : receipt) : N := match r with RWithdraw o => wa_amount (fr_action o) | _ => 0 end.
Definition completed (r : receipt) : Prop :=
  match r with
  | RDeposit o => or_status o = StCompleted
  | RCreateProver o => or_status o = StCompleted
  | RWithdraw o => fr_status o = StCompleted
  end.

(** From a total [T], these receipts lead to [T'] and never pay out more than there is. *)
Fixpoint flows (T : N) (rcs : list receipt) (T' : N) : Prop :=
  match rcs with
  | [] => T = T'
  | r :: rest => paid_out r <= T + paid_in r /\ flows (T + paid_in r - paid_out r) rest T'
  end.

Lemma step_flow E l t l' r : lstep E l t l' r ->
  match r with
  | ResOk (Some rc) =>
      completed rc /\ total_balance (vs_accounts l') + paid_out rc = total_balance (vs_accounts l) + paid_in rc
  | _ => total_balance (vs_accounts l') = total_balance (vs_accounts l)
  end.
Proof.
  intros H. pose proof (step_total E l t l' r H) as Ht.
  destruct H; cbn [withdrawn deposited] in Ht; try lia; try (split; [reflexivity|cbn [paid_in paid_out da_amount or_action fr_action wa_amount]; lia]).
  split; [reflexivity|]. cbn [paid_in paid_out fr_action wa_amount].
  match goal with H : withdraw_ok _ _ _ _ _ _ _ _ _ |- _ => destruct H as [[Hb _]] end.
  rewrite Hb in Ht. rewrite wk_amount in Ht. cbn [from_option id default] in Ht. lia.
Qed.

Lemma run_flow E l txs rs l' : spec_run E l txs rs l' ->
  flows (total_balance (vs_accounts l)) (batch_receipts rs) (total_balance (vs_accounts l')) /\
  Forall completed (batch_receipts rs).
Proof.
  induction 1 as [l|l t r l1 ts rs l' Hstep _ [IH1 IH2]]; [split; [reflexivity|constructor]|].
  apply step_flow in Hstep. cbn [batch_receipts].
  destruct r as [[rc|]| |]; try (rewrite Hstep in IH1; split; assumption).
  destruct Hstep as [Hc Ht]. split; [|now constructor]. cbn [flows]. split; [lia|].
  replace (_ - _) with (total_balance (vs_accounts l1)) by lia. exact IH1.
Qed.

(** ** The token *)

Definition token_safe (L : l1_env) (t : token) : Prop :=
  forall s, tk_allowance t (le_self L) s = if s =? le_iprove L then u256_max else 0.

Lemma approve_safe L t owner spender amount :
  owner <> le_self L -> token_safe L t -> token_safe L (tk_approve t owner spender amount).
Proof.
  intros Ho H s. rewrite allowance_approve. destruct (N.eqb_spec (le_self L) owner); [congruence|]. apply H.
Qed.

(** Spending: by others of the contract's tokens only nothing; otherwise the contract is not concerned. *)
Lemma spend_safe L t owner spender amount t' :
  token_safe L t -> tk_spend t owner spender amount = Ok t' ->
  token_safe L t' /\ tk_balances t' = tk_balances t /\
  (owner = le_self L -> spender <> le_iprove L -> amount = 0).
Proof.
  intros H. unfold tk_spend. destruct (N.eqb_spec (tk_allowance t owner spender) u256_max) as [He|Hne].
  - intros [= <-]. split; [exact H|]. split; [reflexivity|]. intros -> Hs. rewrite H in He.
    destruct (N.eqb_spec spender (le_iprove L)); [congruence|]. now apply eq_sym, u256_max_nonzero in He.
  - destruct (N.ltb_spec (tk_allowance t owner spender) amount); [discriminate|]. intros [= <-].
    split; [|split; [reflexivity|]].
    + intros s. rewrite allowance_approve. destruct (N.eqb_spec (le_self L) owner) as [<-|]; [|apply H].
      cbn [andb]. destruct (N.eqb_spec s spender) as [->|]; [|apply H]. rewrite H in *.
      destruct (spender =? le_iprove L); [congruence|lia].
    + intros -> Hs. rewrite H in *. destruct (N.eqb_spec spender (le_iprove L)); [congruence|lia].
Qed.

Lemma allowances_safe L t t' : tk_allowances t' = tk_allowances t -> token_safe L t -> token_safe L t'.
Proof. intros He H s. unfold tk_allowance. rewrite He. apply H. Qed.

(** Nobody else's call of the token takes tokens of the contract. *)
Lemma token_op_safe L v o t :
  own_actions L (LToken o) -> token_safe L (va_prove v) -> run_token_op (va_prove v) o = Ok t ->
  token_safe L t /\ tk_balance (va_prove v) (le_self L) <= tk_balance t (le_self L).
Proof.
  intros Ho H Hr. destruct o as [by_ to amount|spender from to amount|owner spender amount|by_ amount|spender from amount|to amount];
    cbn [run_token_op own_actions] in *.
  - apply TokenFacts.transfer_ok in Hr as (Ha & _ & Hb). split; [eapply allowances_safe; eassumption|].
    rewrite Hb. destruct (N.eqb_spec (le_self L) by_); [congruence|]. lia.
  - unfold tk_transfer_from in Hr. destruct (tk_spend _ _ _ _) as [t1|] eqn:Hs; [|discriminate].
    apply (spend_safe L) in Hs as (Hs & Hbal & H0); [|exact H].
    apply TokenFacts.transfer_ok in Hr as (Ha & _ & Hb). split; [eapply allowances_safe; eassumption|].
    rewrite Hb, (balances_eq _ _ _ Hbal). destruct (N.eqb_spec (le_self L) from) as [<-|]; [|lia].
    rewrite (H0 eq_refl (Ho eq_refl)). lia.
  - injection Hr as <-. split; [now apply approve_safe|reflexivity].
  - unfold tk_burn in Hr. destruct (_ <? _); [discriminate|]. injection Hr as <-. split; [exact H|].
    unfold tk_balance. cbn [tk_balances]. rewrite lookup_insert_ne by congruence. reflexivity.
  - destruct (tk_spend _ _ _ _) as [t1|] eqn:Hs; [|discriminate].
    apply (spend_safe L) in Hs as (Hs & Hbal & H0); [|exact H].
    unfold tk_burn in Hr. destruct (_ <? _); [discriminate|]. injection Hr as <-. split; [exact Hs|].
    rewrite <- (balances_eq _ _ _ Hbal). unfold tk_balance at 2. cbn [tk_balances].
    destruct (decide (from = le_self L)) as [->|]; [|rewrite lookup_insert_ne by congruence; reflexivity].
    rewrite lookup_insert. cbn [default from_option id]. rewrite (H0 eq_refl (Ho eq_refl)). lia.
  - injection Hr as <-. split; [exact H|]. unfold tk_balance, tk_mint. cbn [tk_balances].
    destruct (decide (to = le_self L)) as [->|]; [|rewrite lookup_insert_ne by congruence; reflexivity].
    rewrite lookup_insert. unfold tk_balance. cbn [default from_option id]. lia.
Qed.

(** ** Receipts *)

Lemma decode_withdraw_own w : typed_withdraw_action w -> l1_decode_withdraw (abi_withdraw w) = Ok w.
Proof.
  intros [Ha Hx]. unfold l1_decode_withdraw, abi_withdraw.
  rewrite read_word_0 by (apply is_address_word; exact Ha).
  rewrite <- (app_nil_r (word (wa_amount w))). rewrite read_1 by exact Hx.
  unfold is_address in Ha. destruct (N.ltb_spec (wa_account w) two160) as [|Hn];
    [|unfold two160 in Hn; lia]. destruct w. reflexivity.
Qed.

Lemma decode_withdrawal bs w : l1_decode_withdraw bs = Ok w -> withdrawal bs = Some (wa_account w, wa_amount w).
Proof.
  unfold l1_decode_withdraw, withdrawal, read_word.
  destruct (N.leb_spec (0 + 32) (N.of_nat (length bs))); [|discriminate].
  destruct (N.leb_spec (32 + 32) (N.of_nat (length bs))); [|discriminate].
  destruct (Nat.leb_spec 64 (length bs)); [|lia].
  change (N.to_nat 0) with 0%nat. change (N.to_nat 32) with 32%nat. rewrite drop_0.
  destruct (_ <? two160); [|discriminate]. intros Hw. injection Hw as <-. reflexivity.
Qed.

Definition payable (e : l1_error) : Prop :=
  e <> L1Token TkInsufficientBalance /\ e <> L1Token TkInsufficientAllowance.

Lemma withdraw_paid L x to amount v :
  addresses_ok L -> token_safe L (va_prove v) -> amount <= tk_balance (va_prove v) (le_self L) ->
  match process_withdraw L x to amount v with
  | Ok v' => token_safe L (va_prove v') /\
      tk_balance (va_prove v) (le_self L) <= tk_balance (va_prove v') (le_self L) + amount
  | Err e => payable e
  end.
Proof.
  intros [Hs Hi Hd] Ht Hb. unfold process_withdraw. destruct (cx_is_prover x to).
  - destruct (cx_vault_accepts x to amount); cbn [l1_require l1_bind]; [|split; discriminate].
    unfold tk_transfer_from, tk_spend. rewrite Ht. rewrite N.eqb_refl. rewrite N.eqb_refl.
    destruct (tk_transfer _ _ _ _) as [t|e] eqn:Htr; cbn [l1_token l1_bind].
    + apply TokenFacts.transfer_ok in Htr as (Ha & _ & Hbal). cbn [va_set_prove va_prove].
      split; [eapply allowances_safe; eassumption|]. rewrite Hbal. rewrite N.eqb_refl. lia.
    + unfold tk_transfer in Htr. destruct (_ || _); [injection Htr as <-; split; discriminate|].
      destruct (N.ltb_spec (tk_balance (va_prove v) (le_self L)) amount); [lia|discriminate].
  - destruct (tk_transfer _ _ _ _) as [t|e] eqn:Htr; cbn [l1_token l1_bind].
    + apply TokenFacts.transfer_ok in Htr as (Ha & _ & Hbal). cbn [va_set_prove va_prove].
      split; [eapply allowances_safe; eassumption|]. rewrite Hbal. rewrite N.eqb_refl. lia.
    + unfold tk_transfer in Htr. destruct (_ || _); [injection Htr as <-; split; discriminate|].
      destruct (N.ltb_spec (tk_balance (va_prove v) (le_self L)) amount); [lia|discriminate].
Qed.

Definition not_token (e : l1_error) : Prop := forall te, e <> L1Token te.

Lemma not_token_payable e : not_token e -> payable e.
Proof. intros H. split; apply H. Qed.

Lemma bind_not_token {X Y} (m : result X l1_error) (k : X -> result Y l1_error) e :
  (forall e, m = Err e -> not_token e) -> (forall x e, k x = Err e -> not_token e) ->
  l1_bind m k = Err e -> not_token e.
Proof. intros Hm Hk. destruct m; cbn; [apply Hk|]. intros [= ->]. now apply Hm. Qed.

Lemma assert_eq_not_token t r e : assert_eq t r = Err e -> not_token e.
Proof.
  unfold assert_eq, assert_deposit_eq, assert_prover_eq, l1_decode_deposit, l1_decode_create, l1_require.
  intros H te ->. revert H.
  repeat (match goal with
  | |- context [match ?b with _ => _ end] => destruct b
  end; cbn [l1_bind]; try discriminate).
Qed.

Lemma onchain_not_token r v e : handle_onchain_receipt r v = Err e -> not_token e.
Proof.
  unfold handle_onchain_receipt. apply bind_not_token.
  - intros e' H te ->. unfold l1_succ in H. destruct (_ <? _); discriminate.
  - intros id e'. destruct (negb _); [intros [= <-] te; discriminate|].
    destruct (sr_status r); try (intros [= <-] te; discriminate);
      apply bind_not_token; try (intros ? ?; eapply assert_eq_not_token; eassumption);
      intros ? ?; destruct (sr_variant r); intros H te ->; discriminate.
Qed.

Lemma pending_next C F r q : C !! length F = Some q ->
  pending_deposits C F = queued_amount q + pending_deposits C (F ++ [r]).
Proof.
  intros H. unfold pending_deposits. rewrite app_length. cbn [length].
  rewrite (drop_S _ _ _ H). rewrite Nat.add_1_r. reflexivity.
Qed.

Lemma sol_bytes r : typed_receipt r -> bytes_ok (sr_action (sol_of_receipt r)).
Proof.
  intros _. destruct r; cbn [sol_of_receipt sr_action]; unfold abi_deposit, abi_create_prover, abi_withdraw;
    unfold bytes_ok; rewrite ?Forall_app; repeat match goal with |- _ /\ _ => split end; apply be_bytes_ok.
Qed.

(** A receipt of an on-chain transaction settles the deposit it reports. *)
Lemma receipt_amount C F v v' r :
  Forall typed_queued C -> typed_receipt r -> queue_faithful C F v ->
  handle_onchain_receipt (sol_of_receipt r) v = Ok v' ->
  pending_deposits C F = paid_in r + pending_deposits C (F ++ [sol_of_receipt r]) /\ paid_out r = 0.
Proof.
  intros Hty Hr Hq H.
  destruct (queue_receipt C F v v' _ Hty (sol_bytes r Hr) Hq H) as [Hq' _].
  destruct (qf_receipts _ _ _ Hq' (length F) (sol_of_receipt r)) as (_ & _ & q & rest & HC & Hv & Ha);
    [now apply list_lookup_middle|].
  rewrite (pending_next C F (sol_of_receipt r) q HC).
  pose proof (proj1 (Forall_lookup _ _) Hty _ _ HC) as Htq.
  destruct r as [o|o|o], q as [d|c]; try discriminate; cbn [paid_in paid_out queued_amount]; (split; [|reflexivity]).
  - f_equal. cbn [sol_of_receipt sr_action] in Ha. destruct Hr as [_ Hr].
    pose proof (decode_deposit_own (or_action o) [] Hr) as H1. rewrite app_nil_r in H1.
    pose proof (decode_deposit_own d rest Htq) as H2.
    change (abi_deposit (or_action o)) with (queued_data (QDeposit (or_action o))) in Ha. congruence.
  - reflexivity.
Qed.

Lemma handle_solvent L x C rcs : forall F v T T',
  addresses_ok L -> Forall typed_queued C -> Forall typed_receipt rcs -> Forall completed rcs ->
  queue_faithful C F v -> token_safe L (va_prove v) -> flows T rcs T' ->
  T + pending_deposits C F <= tk_balance (va_prove v) (le_self L) ->
  match handle_receipts L x (map sol_of_receipt rcs) v with
  | Ok v' => token_safe L (va_prove v') /\
      T' + pending_deposits C (F ++ onchain (map sol_of_receipt rcs)) <= tk_balance (va_prove v') (le_self L)
  | Err e => payable e
  end.
Proof.
  induction rcs as [|r rcs IH]; intros F v T T' HL HC Hty Hco Hq Ht Hf Hb; cbn [map handle_receipts].
  - cbn [flows] in Hf. subst T'. unfold onchain. rewrite app_nil_r. auto.
  - apply Forall_cons in Hty as [Hr Hty]. apply Forall_cons in Hco as [Hc Hco]. destruct Hf as [Hpay Hf].
    rewrite onchain_cons. destruct (N.eqb_spec (sr_tx_id (sol_of_receipt r)) u64_max) as [Hid|Hid]; cbn [negb].
    + (* a withdrawal *)
      destruct r as [o|o|o]; cbn [completed] in Hc; unfold handle_offchain_receipt at 1;
        cbn [sol_of_receipt sr_status sr_variant sr_action]; rewrite Hc; cbn [l1_bind].
      * split; discriminate.
      * split; discriminate.
      * rewrite (decode_withdraw_own _ Hr). cbn [l1_bind].
        cbn [paid_in paid_out] in *. rewrite N.add_0_r in *.
        pose proof (withdraw_paid L x (wa_account (fr_action o)) (wa_amount (fr_action o)) v HL Ht ltac:(lia)) as Hp.
        destruct (process_withdraw _ _ _ _ _) as [v1|e] eqn:Hw; cbn [l1_bind]; [|exact Hp].
        destruct Hp as [Ht1 Hb1]. apply process_withdraw_frame in Hw.
        eapply IH; try eassumption; [eapply token_frame; eassumption|lia].
    + destruct (handle_onchain_receipt (sol_of_receipt r) v) as [v1|e] eqn:Ho; cbn [l1_bind].
      * destruct (receipt_amount C F v v1 r HC Hr Hq Ho) as [Hp Hz].
        destruct (queue_receipt C F v v1 _ HC (sol_bytes r Hr) Hq Ho) as (Hq1 & Hpr & _).
        rewrite cons_middle, app_assoc. eapply IH; try eassumption; rewrite ?Hpr; [assumption|lia].
      * apply not_token_payable. eapply onchain_not_token; eassumption.
Qed.

(** ** Contract and ledger together *)

Record system_inv (E : env) (L : l1_env) (s : full_state) (C : list queued) (F : list sol_receipt) (v : l1_state)
    : Prop := {
  sy_queue : queue_faithful C F v;
  sy_typed_queue : Forall typed_queued C;
  sy_token : token_safe L (va_prove v);
  sy_state : state_ok E s;
  sy_typed : typed_full s;
  sy_root : va_root v = full_root E s;
  sy_funds : total_balance (accounts s) + pending_deposits C F <= tk_balance (va_prove v) (le_self L)
}.

Lemma typed_steps E pvs inputs steps : env_ok E -> Forall (usable_input E) inputs ->
  Forall2 (fun b i => stf_commit E i = Some b) pvs inputs ->
  Forall2 (fun b p => decode_step b = Some p) pvs steps -> Forall typed_pv steps.
Proof.
  intros HE Hu H. revert steps Hu. induction H as [|b i pvs inputs Hb _ IH]; intros steps Hu Hd.
  - inversion Hd. constructor.
  - inversion Hd as [|? p ? steps' Hp Hd']; subst. apply Forall_cons in Hu as [Hu Hus].
    constructor; [|now apply IH].
    unfold stf_commit in Hb. destruct (stf_main E i) as [pv|] eqn:Hm; [|discriminate].
    cbn in Hb. injection Hb as <-. pose proof (stf_pv_typed E i pv HE Hu Hm) as Ht.
    rewrite (decode_step_spec pv Ht) in Hp. now injection Hp as <-.
Qed.

Lemma Forall_concat_map {X Y} (P : Y -> Prop) (f : X -> list Y) l :
  Forall (fun x => Forall P (f x)) l -> Forall P (concat (map f l)).
Proof. induction 1; cbn; [constructor|]. apply Forall_app. now split. Qed.

(** What a justified step says, when it starts at the root of the ledger. *)
Lemma made_from_spec E sha verify inputs b s :
  env_ok E -> state_ok E s -> typed_full s -> made_from E sha verify inputs b ->
  collision_free (keccak E) (chain_strings E inputs s) ->
  exists p, typed_pv p /\ b = abi_step p /\
    (pv_old_root p = full_root E s ->
     exists s' rs, run_batch E s (all_txs inputs) = (s', rs) /\ calm rs /\
       pv_new_root p = full_root E s' /\ pv_receipts p = map sol_of_receipt (batch_receipts rs) /\
       state_ok E s' /\ typed_full s' /\ Forall typed_receipt (batch_receipts rs)).
Proof.
  intros HE Hs Hts (Hu & pvs & out & Hsnd & Hagg & -> & Hlen) Hc. exists out.
  apply aggregate_spec in Hagg as (steps & first & last & Hv & Hd & Hch & Hf & Hl & Hout).
  assert (Hcommit : Forall2 (fun b i => stf_commit E i = Some b) pvs inputs).
  { clear -Hv Hsnd. induction Hsnd as [|b i pvs inputs Hb _ IH]; constructor.
    - apply Hb. now apply Forall_cons in Hv as [? _].
    - apply IH. now apply Forall_cons in Hv as [_ ?]. }
  pose proof (typed_steps E pvs inputs steps HE Hu Hcommit Hd) as Hsteps.
  split; [|split; [reflexivity|]].
  - assert (Hfirst : typed_pv first).
    { destruct steps as [|p ps]; [discriminate|]. cbn in Hf. injection Hf as <-. now apply Forall_cons in Hsteps as [? _]. }
    assert (Hlast : typed_pv last).
    { apply last_Some in Hl as [l' ->]. apply Forall_app in Hsteps as [_ H]. now apply Forall_cons in H as [? _]. }
    split; [|split; [|split; [|split; [|exact Hlen]]]]; rewrite Hout; cbn [pv_old_root pv_new_root pv_timestamp pv_receipts].
    + apply Hfirst. + apply Hlast. + apply Hlast.
    + apply Forall_concat_map. eapply Forall_impl; [exact Hsteps|]. intros p (_ & _ & _ & H & _). exact H.
  - intros Hold. rewrite Hout in Hold. cbn [pv_old_root] in Hold.
    destruct (chain_sound E inputs pvs steps s first last HE Hs Hts Hu Hcommit Hd Hch Hf Hl Hold Hc)
      as (s' & rs & Hrun & Hcalm & Hroot & _ & Hrec).
    exists s', rs. split; [exact Hrun|]. split; [exact Hcalm|].
    split; [rewrite Hout; exact Hroot|]. split; [rewrite Hout; exact Hrec|].
    split; [eapply run_batch_ok; eassumption|].
    assert (Htx : Forall typed_tx (all_txs inputs)).
    { apply Forall_concat_map. eapply Forall_impl; [exact Hu|]. intros i (_ & _ & H & _). exact H. }
    destruct (run_batch_typed E _ s s' rs HE Htx Hts Hrun) as [H1 H2]. split; [exact H1|].
    clear -H2. induction H2 as [|r rs Hr _ IH]; [constructor|].
    destruct r as [[rc|]| |]; cbn [batch_receipts]; try assumption. now constructor.
Qed.

Lemma step_solvent E L sha verify s C F v x b proof inputs :
  env_ok E -> l1_env_ok L -> addresses_ok L -> system_inv E L s C F v ->
  made_from E sha verify inputs b -> collision_free (keccak E) (chain_strings E inputs s) ->
  match l1_step L x b proof v with
  | Ok v' => system_inv E L (run_batch E s (all_txs inputs)).1 C
               (F ++ finalised L [LAccepted x (CStep b proof) inputs]) v'
  | Err e => payable e
  end.
Proof.
  intros HE HL Ha [Hq Htq Htok Hst Hty Hroot Hfunds] Hmade Hc.
  destruct (made_from_spec E sha verify inputs b s HE Hst Hty Hmade Hc) as (p & Htp & -> & Hrun).
  pose proof (leo_inverts L HL p Htp) as Hdec.
  unfold l1_step.
  repeat match goal with
  | |- context [l1_require ?c _] =>
      let H := fresh "H" in destruct c eqn:H; cbn [l1_require l1_bind]; [|split; discriminate]
  | |- context [le_decode L (abi_step p)] => rewrite Hdec
  end.
  unfold l1_succ. destruct (N.ltb_spec (va_block v + 1) two64); cbn [l1_bind]; [|split; discriminate].
  apply N.eqb_eq in H3. destruct Hrun as (s' & rs & Hb & Hcalm & Hnew & Hrec & Hst' & Hty' & Htr); [congruence|].
  rewrite Hrec, Hb. cbn [fst].
  destruct (run_flow E _ _ _ _ (run_batch_spec E _ _ _ _ Hb Hcalm)) as [Hflow Hcomp].
  set (v1 := va_set_block (va_block v + 1) (pv_new_root p) (pv_timestamp p) v).
  assert (Hq1 : queue_faithful C F v1) by (eapply queue_same; [exact Hq|reflexivity..]).
  pose proof (handle_solvent L x C (batch_receipts rs) F v1 _ _ Ha Htq Htr Hcomp Hq1 Htok Hflow Hfunds) as Hh.
  destruct (handle_receipts L x (map sol_of_receipt (batch_receipts rs)) v1) as [v'|e] eqn:Hr; [|exact Hh].
  destruct Hh as [Ht' Hf']. unfold finalised. cbn [flat_map]. rewrite Hdec, app_nil_r, Hrec.
  assert (Hbytes : Forall (fun r => bytes_ok (sr_action r)) (map sol_of_receipt (batch_receipts rs))).
  { apply Forall_map. eapply Forall_impl; [exact Htr|]. intros r. apply sol_bytes. }
  destruct (queue_receipts L x C _ F v1 v' Htq Hbytes Hq1 Hr) as (Hq' & Hblock & Hroots & _).
  constructor; try assumption.
  unfold va_root. rewrite Hblock, Hroots. unfold v1, va_set_block. cbn [va_block va_roots].
  rewrite lookup_insert. cbn [default from_option id]. exact Hnew.
Qed.

Lemma sum_app {X} (f : X -> N) a b : sum f (a ++ b) = sum f a + sum f b.
Proof. unfold sum. induction a as [|x a IH]; cbn [app fold_right]; [reflexivity|]. rewrite IH. lia. Qed.

Lemma deposit_solvent E L s C F v v' from amount :
  addresses_ok L -> is_address from -> is_word amount -> system_inv E L s C F v ->
  (from = le_self L -> amount = 0) ->
  deposit_from L from amount v = Ok v' ->
  system_inv E L s (C ++ [QDeposit (DepositAction from amount)]) F v'.
Proof.
  intros Ha Hfrom Hamt [Hq Htq Htok Hst Hty Hroot Hfunds] Hself H.
  apply deposit_from_ok in H as (_ & v1 & t & Hcr & Htr & ->).
  destruct (queue_create _ _ _ _ (QDeposit (DepositAction from amount)) Hq Hcr) as (Hq1 & Hpr & _ & Hbl & Hro & _).
  unfold tk_transfer_from in Htr. destruct (tk_spend _ _ _ _) as [t1|] eqn:Hs; [|discriminate].
  rewrite Hpr in Hs. apply (spend_safe L) in Hs as (Hs & Hbal & _); [|exact Htok].
  apply TokenFacts.transfer_ok in Htr as (Hal & _ & Hb).
  constructor; try assumption.
  - eapply queue_same; [exact Hq1|reflexivity..].
  - apply Forall_app. split; [assumption|]. constructor; [split; assumption|constructor].
  - eapply allowances_safe; [exact Hal|exact Hs].
  - unfold va_root in *. cbn [va_set_prove va_block va_roots]. rewrite Hbl, Hro. exact Hroot.
  - cbn [va_set_prove va_prove]. rewrite Hb, (balances_eq _ _ _ Hbal). rewrite N.eqb_refl.
    assert (Hp : pending_deposits (C ++ [QDeposit (DepositAction from amount)]) F = pending_deposits C F + amount).
    { unfold pending_deposits. rewrite drop_app_le by (destruct Hq; assumption).
      rewrite sum_app. cbn [sum fold_right queued_amount da_amount]. lia. }
    rewrite Hp. destruct (N.eqb_spec (le_self L) from) as [<-|]; [rewrite (Hself eq_refl)|]; lia.
Qed.

Lemma pending_create C F c : (length F <= length C)%nat ->
  pending_deposits (C ++ [QCreateProver c]) F = pending_deposits C F.
Proof.
  intros H. unfold pending_deposits. rewrite drop_app_le by assumption.
  rewrite sum_app. cbn [sum fold_right queued_amount]. lia.
Qed.

Lemma accepted_solvent E L sha verify s C F v x c inputs v' :
  env_ok E -> l1_env_ok L -> addresses_ok L -> system_inv E L s C F v ->
  typed_call x c -> no_fork (LAccepted x c inputs) -> own_actions L (LAccepted x c inputs) ->
  proofs_sound E sha verify (LAccepted x c inputs) ->
  collision_free (keccak E) (log_strings E s [LAccepted x c inputs]) ->
  l1_run L x c v = Ok v' ->
  system_inv E L (ledger_after E s [LAccepted x c inputs]) (C ++ created [LAccepted x c inputs])
    (F ++ finalised L [LAccepted x c inputs]) v'.
Proof.
  intros HE HL Ha Hinv Hc Hnf Hown Hsound Hcol H.
  pose proof (run_queue L x c inputs v v' C F HL Hc (sy_typed_queue _ _ _ _ _ _ Hinv) (sy_queue _ _ _ _ _ _ Hinv) H)
    as [Hq' Hblock].
  destruct c as [amount|from amount|prover owner bips|b proof|vkey root|c].
  - unfold created, finalised. cbn [flat_map queued_by ledger_after]. rewrite !app_nil_r.
    cbn [l1_run] in H. unfold l1_deposit in H. l1_inv. destruct Hc as [Hs Hw]. cbn [own_actions] in Hown.
    eapply deposit_solvent; try eassumption. congruence.
  - unfold created, finalised. cbn [flat_map queued_by ledger_after]. rewrite !app_nil_r.
    cbn [l1_run] in H. destruct Hc as [_ [Hs Hw]]. cbn [own_actions] in Hown.
    apply permit_ok in H as (_ & [(Hall & H)|(Hv & H)]).
    + eapply deposit_solvent; try eassumption. intros ->.
      rewrite (sy_token _ _ _ _ _ _ Hinv) in Hall.
      destruct (N.eqb_spec (le_self L) (le_iprove L)) as [e|]; [|congruence].
      destruct Ha as [_ _ Hd]. congruence.
    + refine (deposit_solvent E L s C F _ v' from amount Ha Hs Hw _ _ H); [|intros Hf; now specialize (Hown Hv)].
      destruct Hinv as [Hq Htq Htok Hst Hty Hroot Hfunds]. constructor; try assumption.
      * eapply queue_same; [exact Hq|reflexivity..].
      * cbn [va_set_prove va_prove]. apply approve_safe; [now apply Hown|assumption].
  - destruct Hinv as [Hq Htq Htok Hst Hty Hroot Hfunds]. revert Hq'.
    unfold created, finalised. cbn [flat_map queued_by ledger_after]. rewrite !app_nil_r. intros Hq'.
    cbn [l1_run] in H. unfold l1_create_prover in H. l1_inv.
    destruct (queue_create _ _ _ _ (QCreateProver (CreateProverAction prover owner bips)) Hq H)
      as (_ & Hpr & _ & Hbl & Hro & _).
    constructor; try assumption.
    + apply Forall_app. split; [assumption|]. constructor; [apply Hc|constructor].
    + now rewrite Hpr.
    + unfold va_root in *. rewrite Hbl, Hro. exact Hroot.
    + rewrite pending_create by (destruct Hq; assumption). now rewrite Hpr.
  - cbn [log_strings proofs_sound] in *. rewrite app_nil_r in Hcol.
    pose proof (step_solvent E L sha verify s C F v x b proof inputs HE HL Ha Hinv Hsound Hcol) as Hstep.
    cbn [l1_run] in H. rewrite H in Hstep. unfold created. cbn [flat_map queued_by ledger_after].
    rewrite !app_nil_r. exact Hstep.
  - destruct Hnf.
  - destruct Hinv as [Hq Htq Htok Hst Hty Hroot Hfunds]. revert Hq'.
    unfold created, finalised. cbn [flat_map queued_by ledger_after]. rewrite !app_nil_r. intros Hq'.
    destruct Hblock as (Hbl & Hro & _).
    assert (Hpr : va_prove v' = va_prove v).
    { cbn [l1_run] in H. unfold l1_admin in H. l1_inv.
      destruct c; repeat match type of H with context [if ?b then _ else _] => destruct b end;
        l1_inv; subst; reflexivity. }
    constructor; try assumption; rewrite ?Hpr; try assumption.
    unfold va_root in *. rewrite Hbl, Hro. exact Hroot.
Qed.

Lemma log_strings_cons E s e log :
  log_strings E s (e :: log) = log_strings E s [e] ++ log_strings E (ledger_after E s [e]) log.
Proof.
  destruct e as [x c i| |]; [destruct c| |]; cbn [log_strings ledger_after]; try reflexivity.
  now rewrite app_nil_r.
Qed.
Lemma ledger_after_cons E s e log : ledger_after E s (e :: log) = ledger_after E (ledger_after E s [e]) log.
Proof. destruct e as [x c i| |]; [destruct c| |]; reflexivity. Qed.

Lemma history_solvent E L sha verify v log v' :
  env_ok E -> l1_env_ok L -> addresses_ok L -> l1_history L v log v' ->
  forall s C F, system_inv E L s C F v ->
  Forall typed_entry log -> Forall no_fork log -> Forall (own_actions L) log ->
  Forall (proofs_sound E sha verify) log -> collision_free (keccak E) (log_strings E s log) ->
  system_inv E L (ledger_after E s log) (C ++ created log) (F ++ finalised L log) v'.
Proof.
  intros HE HL Ha H. induction H as [v|v x c i v1 log v' Ht H IH|v x c e v1 log v' Ht H IH|v o t log v' Ht H IH];
    intros s C F Hinv Hty Hnf Hown Hsnd Hcol.
  - unfold created, finalised. cbn [flat_map ledger_after]. rewrite !app_nil_r. exact Hinv.
  - apply Forall_cons in Hty as [Hty1 Hty]. apply Forall_cons in Hnf as [Hnf1 Hnf].
    apply Forall_cons in Hown as [Hown1 Hown]. apply Forall_cons in Hsnd as [Hsnd1 Hsnd].
    rewrite log_strings_cons in Hcol. apply collision_free_app in Hcol as [Hcol1 Hcol].
    apply transact_ok in Ht.
    pose proof (accepted_solvent E L sha verify s C F v x c i v1 HE HL Ha Hinv Hty1 Hnf1 Hown1 Hsnd1 Hcol1 Ht) as H1.
    specialize (IH _ _ _ H1 Hty Hnf Hown Hsnd Hcol).
    rewrite ledger_after_cons. change (LAccepted x c i :: log) with ([LAccepted x c i] ++ log).
    rewrite created_app, finalised_app, !app_assoc. exact IH.
  - apply Forall_cons in Hty as [Hty1 Hty]. apply Forall_cons in Hnf as [Hnf1 Hnf].
    apply Forall_cons in Hown as [Hown1 Hown]. apply Forall_cons in Hsnd as [Hsnd1 Hsnd].
    apply transact_err in Ht as [_ ->]. exact (IH _ _ _ Hinv Hty Hnf Hown Hsnd Hcol).
  - apply Forall_cons in Hty as [Hty1 Hty]. apply Forall_cons in Hnf as [Hnf1 Hnf].
    apply Forall_cons in Hown as [Hown1 Hown]. apply Forall_cons in Hsnd as [Hsnd1 Hsnd].
    destruct Hinv as [Hq Htq Htok Hst Htyf Hroot Hfunds].
    destruct (token_op_safe L v o t Hown1 Htok Ht) as [Htok' Hb].
    apply (IH s C F); try assumption. constructor; try assumption.
    + eapply queue_same; [exact Hq|reflexivity..].
    + cbn [va_set_prove va_prove]. lia.
Qed.

Lemma new_total E domain : total_balance (accounts (full_new E domain)) = 0.
Proof. reflexivity. Qed.

(** A freshly deployed contract. *)
Lemma initial_solvent E L prove owner pa auctioneer staking verifier md vkey domain v :
  is_word domain -> le_self L <> le_iprove L ->
  (forall s, tk_allowance prove (le_self L) s = 0) ->
  l1_initialize L prove owner pa auctioneer staking verifier md vkey (full_root E (full_new E domain)) = Some v ->
  system_inv E L (full_new E domain) [] [] v.
Proof.
  intros Hd Hne Hno Hi. pose proof (initial_queue _ _ _ _ _ _ _ _ _ _ _ Hi) as Hq.
  unfold l1_initialize in Hi. destruct (_ || _); [discriminate|]. injection Hi as <-.
  constructor; try assumption.
  - constructor.
  - intros s. cbn [va_prove]. rewrite allowance_approve. rewrite N.eqb_refl. cbn [andb]. now rewrite Hno.
  - apply new_ok.
  - now apply new_typed.
  - unfold va_root. cbn [va_roots va_block]. rewrite lookup_singleton. reflexivity.
  - unfold pending_deposits. cbn [length drop sum fold_right]. rewrite new_total. lia.
Qed.

(** ** Payments of a step *)

Lemma withdraw_exact L x to amount v v' :
  process_withdraw L x to amount v = Ok v' ->
  forall a, tk_balance (va_prove v') a + (if a =? le_self L then amount else 0)
    = tk_balance (va_prove v) a + (if (if cx_is_prover x to then le_iprove L else to) =? a then amount else 0).
Proof.
  unfold process_withdraw. intros H a. destruct (cx_is_prover x to).
  - l1_inv. subst v'. cbn [va_set_prove va_prove]. unfold tk_transfer_from in *.
    destruct (tk_spend _ _ _ _) as [t1|] eqn:Hs; [|discriminate].
    assert (Hb : tk_balances t1 = tk_balances (va_prove v)).
    { unfold tk_spend in Hs. destruct (_ =? _); [congruence|]. destruct (_ <? _); [discriminate|].
      injection Hs as <-. reflexivity. }
    match goal with H : tk_transfer _ _ _ _ = Ok _ |- _ => apply TokenFacts.transfer_ok in H as (_ & Hle & Ha) end.
    rewrite Ha. rewrite (balances_eq _ _ _ Hb) in Hle. rewrite (balances_eq _ _ a Hb).
    rewrite (N.eqb_sym (le_iprove L) a). destruct (N.eqb_spec a (le_self L)) as [->|]; lia.
  - l1_inv. subst v'. cbn [va_set_prove va_prove].
    match goal with H : tk_transfer _ _ _ _ = Ok _ |- _ => apply TokenFacts.transfer_ok in H as (_ & Hle & Ha) end.
    rewrite Ha. rewrite (N.eqb_sym to a). destruct (N.eqb_spec a (le_self L)) as [->|]; lia.
Qed.

Lemma onchain_token r v v' : handle_onchain_receipt r v = Ok v' -> va_prove v' = va_prove v.
Proof.
  unfold handle_onchain_receipt. intros H. l1_inv. destruct (negb _); [discriminate|].
  destruct (sr_status r); try discriminate; l1_inv; destruct (sr_variant r); l1_inv; subst; reflexivity.
Qed.

Lemma handle_payments L x rs : forall v v', handle_receipts L x rs v = Ok v' ->
  forall a, tk_balance (va_prove v') a + (if a =? le_self L then sum (paid L x) rs else 0)
    = tk_balance (va_prove v) a + sum (received L x a) rs.
Proof.
  induction rs as [|r rs IH]; intros v v' H a; cbn [handle_receipts] in H; l1_inv.
  - subst v'. cbn [sum fold_right]. destruct (_ =? _); lia.
  - specialize (IH _ _ H a). cbn [sum fold_right]. fold (sum (paid L x) rs) (sum (received L x a) rs).
    assert (Hr : tk_balance (va_prove x0) a + (if a =? le_self L then paid L x r else 0)
      = tk_balance (va_prove v) a + received L x a r).
    { unfold paid, received, payment. change (2 ^ 64 - 1) with u64_max. destruct (sr_tx_id r =? u64_max); cbn [negb] in H0.
      - unfold handle_offchain_receipt in H0. destruct (sr_status r); try discriminate.
        + destruct (sr_variant r); try discriminate. l1_inv.
          match goal with Hd : l1_decode_withdraw _ = Ok ?w |- _ => rewrite (decode_withdrawal _ _ Hd) end.
          eapply withdraw_exact; eassumption.
        + assert (v = x0) as <- by congruence. destruct (a =? le_self L); lia.
      - apply onchain_token in H0. rewrite H0. destruct (a =? le_self L); lia. }
    destruct (a =? le_self L); lia.
Qed.

Lemma log_strings_app E log1 : forall s log2,
  log_strings E s (log1 ++ log2) = log_strings E s log1 ++ log_strings E (ledger_after E s log1) log2.
Proof.
  induction log1 as [|e log1 IH]; intros s log2; [reflexivity|].
  change ((e :: log1) ++ log2) with (e :: (log1 ++ log2)).
  rewrite (log_strings_cons E s e (log1 ++ log2)), IH, (log_strings_cons E s e log1), (ledger_after_cons E s e log1), app_assoc. reflexivity.
Qed.
