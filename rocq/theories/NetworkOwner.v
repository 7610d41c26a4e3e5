(** Which accounts of the ledger have an owner: the provers whose creation has been finalised. *)
From Verif Require Import AggFacts LedgerFacts StfFacts SparseSim Typed AbiFacts StakingFacts StakingUnstake.
From Verif Require Export L1Live NetworkSettle.
From Verif Require Import GovernorFacts.
From Coq Require Import Lia ZifyBool ZifyN ZifyNat.
Open Scope N_scope.
Local Opaque request_index.

Definition owner_fields (s : ledger) (a : N) : N * N := (acc_owner (acct (vs_accounts s) a), acc_bips (acct (vs_accounts s) a)).
(** Owner and fee that a receipt gives to an account. *)
Definition receipt_owner (a : N) (r : receipt) : list (N * N) :=
  match r with
  | RCreateProver o => if cp_prover (or_action o) =? a then [(cp_owner (or_action o), cp_bips (or_action o))] else []
  | _ => []
  end.
Definition queued_owner (a : N) (q : queued) : list (N * N) :=
  match q with
  | QCreateProver c => if cp_prover c =? a then [(cp_owner c, cp_bips c)] else []
  | QDeposit _ => []
  end.
Definition latest (d : N * N) (l : list (N * N)) : N * N := default d (last l).
Lemma latest_app d l l' : latest d (l ++ l') = latest (latest d l) l'.
Proof. unfold latest. rewrite last_app. destruct (last l'); reflexivity. Qed.

Lemma debit_owner k x m a : acc_owner (acct (m_debit k x m) a) = acc_owner (acct m a) /\
  acc_bips (acct (m_debit k x m) a) = acc_bips (acct m a).
Proof. unfold m_debit, m_credit, acct. destruct (N.eq_dec k a) as [->|Hk]; [rewrite lookup_insert|rewrite lookup_insert_ne by exact Hk]; split; reflexivity. Qed.
Lemma credit_owner k x m a : acc_owner (acct (m_credit k x m) a) = acc_owner (acct m a) /\
  acc_bips (acct (m_credit k x m) a) = acc_bips (acct m a).
Proof. unfold m_debit, m_credit, acct. destruct (N.eq_dec k a) as [->|Hk]; [rewrite lookup_insert|rewrite lookup_insert_ne by exact Hk]; split; reflexivity. Qed.
Lemma moves_owner ps m m' a : moves ps m m' ->
  acc_owner (acct m' a) = acc_owner (acct m a) /\ acc_bips (acct m' a) = acc_bips (acct m a).
Proof.
  induction 1 as [m|k x ps m m' Hx H [-> ->]|k x ps m m' Hx H [-> ->]]; [split; reflexivity|apply debit_owner|apply credit_owner].
Qed.

Lemma step_owner E s t s' r a : lstep E s t s' r ->
  owner_fields s' a = latest (owner_fields s a)
    (match r with ResOk (Some rc) => receipt_owner a rc | _ => [] end).
Proof.
  intros H. destruct H; try reflexivity;
    try (match goal with H : moves _ _ _ |- _ => destruct (moves_owner _ _ _ a H) as [Ho Hb] end;
      unfold owner_fields, after_onchain, after_signed; cbn [vs_accounts];
      try (cbn [receipt_owner]; unfold latest; cbn; rewrite Ho, Hb; reflexivity)).
  - subst act. cbn [receipt_owner or_action]. unfold owner_fields, after_onchain, acct. cbn [vs_accounts].
    destruct (N.eqb_spec (cp_prover (oc_action c)) a) as [->|Hk]; [rewrite lookup_insert|rewrite lookup_insert_ne by exact Hk];
      reflexivity.
  - unfold latest. cbn [last default from_option id]. rewrite <- Ho, <- Hb. unfold acct.
    destruct (N.eq_dec prover a) as [->|Hk]; [rewrite !lookup_insert|rewrite !lookup_insert_ne by exact Hk]; reflexivity.
Qed.

Lemma run_owner E l txs rs l' a : spec_run E l txs rs l' ->
  owner_fields l' a = latest (owner_fields l a) (flat_map (receipt_owner a) (batch_receipts rs)).
Proof.
  induction 1 as [l|l t r l1 ts rs l' Hstep _ IH]; [reflexivity|].
  rewrite IH, (step_owner _ _ _ _ _ a Hstep). cbn [batch_receipts].
  destruct r as [[rc|]| |]; cbn [flat_map]; rewrite <- ?latest_app; reflexivity.
Qed.

(** A receipt of an on-chain transaction gives an account the owner that the queue gives it. *)
Lemma receipt_queued C F v v' r a :
  Forall typed_queued C -> typed_receipt r -> queue_faithful C F v ->
  handle_onchain_receipt (sol_of_receipt r) v = Ok v' ->
  exists q, C !! length F = Some q /\ queued_owner a q = receipt_owner a r.
Proof.
  intros Hty Hr Hq H.
  destruct (queue_receipt C F v v' _ Hty (sol_bytes r Hr) Hq H) as [Hq' _].
  destruct (qf_receipts _ _ _ Hq' (length F) (sol_of_receipt r)) as (_ & _ & q & rest & HC & Hv & Ha);
    [now apply list_lookup_middle|]. exists q. split; [exact HC|].
  pose proof (proj1 (Forall_lookup _ _) Hty _ _ HC) as Htq.
  destruct r as [o|o|o], q as [d|c]; try discriminate; [reflexivity|].
  cbn [sol_of_receipt sr_action] in Ha. destruct Hr as [_ Hr].
  pose proof (decode_create_own (or_action o) [] Hr) as H1. rewrite app_nil_r in H1.
  pose proof (decode_create_own c rest Htq) as H2.
  change (abi_create_prover (or_action o)) with (queued_data (QCreateProver (or_action o))) in Ha.
  assert (c = or_action o) as -> by congruence. reflexivity.
Qed.

Lemma take_next {X} (l : list X) n x : l !! n = Some x -> take (n + 1) l = take n l ++ [x].
Proof. intros H. rewrite Nat.add_1_r. now apply take_S_r. Qed.

Lemma handle_owner L x C a rcs : forall F v v' d,
  Forall typed_queued C -> Forall typed_receipt rcs -> Forall completed rcs -> queue_faithful C F v ->
  handle_receipts L x (map sol_of_receipt rcs) v = Ok v' ->
  latest (latest d (flat_map (queued_owner a) (take (length F) C))) (flat_map (receipt_owner a) rcs) =
  latest d (flat_map (queued_owner a) (take (length (F ++ L1Spec.onchain (map sol_of_receipt rcs))) C)).
Proof.
  induction rcs as [|r rcs IH]; intros F v v' d HC Hty Hco Hq H; cbn [map handle_receipts] in H.
  - cbn [map]. unfold L1Spec.onchain. rewrite app_nil_r. reflexivity.
  - apply Forall_cons in Hty as [Hr Hty]. apply Forall_cons in Hco as [Hc Hco]. cbn [map]. rewrite onchain_cons.
    l1_inv. destruct (N.eqb_spec (sr_tx_id (sol_of_receipt r)) u64_max) as [Hid|Hid]; cbn [negb] in *.
    + pose proof (offchain_frame _ _ _ _ _ H0) as Hfr.
      destruct (offchain_is_withdraw _ _ _ _ _ Hc H0) as [o ->].
      exact (IH F x0 v' d HC Hty Hco (token_frame _ _ _ _ Hfr Hq) H).
    + destruct (queue_receipt C F v x0 _ HC (sol_bytes r Hr) Hq H0) as [Hq1 _].
      destruct (receipt_queued C F v x0 r a HC Hr Hq H0) as (q & HCq & Hqr).
      rewrite cons_middle, app_assoc. rewrite <- (IH _ _ _ d HC Hty Hco Hq1 H).
      rewrite app_length. cbn [length flat_map]. rewrite (take_next _ _ _ HCq), flat_map_app. cbn [flat_map].
      rewrite app_nil_r, Hqr, <- !latest_app, app_assoc. reflexivity.
Qed.

Lemma history_owner E L sha verify v log v' a :
  env_ok E -> l1_env_ok L -> addresses_ok L -> l1_history L v log v' ->
  forall s C F d, system_inv E L s C F v ->
  owner_fields (contents s) a = latest d (flat_map (queued_owner a) (take (length F) C)) ->
  Forall typed_entry log -> Forall no_fork log -> Forall (own_actions L) log ->
  Forall (proofs_sound E sha verify) log -> collision_free (keccak E) (log_strings E s log) ->
  owner_fields (contents (ledger_after E s log)) a =
  latest d (flat_map (queued_owner a) (take (length (F ++ finalised L log)) (C ++ created log))).
Proof.
  intros HE HL Ha H. induction H as [v|v x c i v1 log v' Ht H IH|v x c e v1 log v' Ht H IH|v o t log v' Ht H IH];
    intros s C F d Hinv Hcur Hty Hnf Hown Hsnd Hcol.
  - unfold finalised, created. cbn [flat_map]. rewrite !app_nil_r. exact Hcur.
  - apply Forall_cons in Hty as [Hty1 Hty]. apply Forall_cons in Hnf as [Hnf1 Hnf].
    apply Forall_cons in Hown as [Hown1 Hown]. apply Forall_cons in Hsnd as [Hsnd1 Hsnd].
    rewrite log_strings_cons in Hcol. apply collision_free_app in Hcol as [Hcol1 Hcol].
    apply transact_ok in Ht.
    pose proof (accepted_solvent E L sha verify s C F v x c i v1 HE HL Ha Hinv Hty1 Hnf1 Hown1 Hsnd1 Hcol1 Ht) as H1.
    rewrite ledger_after_cons. change (LAccepted x c i :: log) with ([LAccepted x c i] ++ log).
    rewrite (finalised_app L [_] log), (created_app [_] log), !app_assoc.
    eapply IH; try eassumption.
    assert (HF : (length F <= length C)%nat).
    { pose proof (sy_queue _ _ _ _ _ _ Hinv) as [Q1 Q2 Q3 Q4 Q5 Q6]. exact Q3. }
    assert (Hsame : (forall b proof, c <> CStep b proof) ->
      finalised L [LAccepted x c i] = [] /\ ledger_after E s [LAccepted x c i] = s).
    { intros Hns. split; destruct c; try reflexivity; now destruct (Hns public_values proof). }
    destruct c as [amount|from amount|prover owner bips|b proof|vkey root|c];
      try (destruct Hsame as [-> ->]; [discriminate|]; rewrite app_nil_r, take_app_le by exact HF; exact Hcur).
    clear Hsame. cbn [log_strings proofs_sound l1_run ledger_after] in *. rewrite app_nil_r in Hcol1.
    destruct Hinv as [Hq Htq Htok Hst Htyf Hroot Hfunds].
    destruct (made_from_spec E sha verify i b s HE Hst Htyf Hsnd1 Hcol1) as (p & Htp & -> & Hrun).
    pose proof (leo_inverts L HL p Htp) as Hdec.
    apply step_ok in Ht as (p' & Hp & Ht). assert (p' = p) as -> by (destruct Hp; congruence).
    destruct Hrun as (s' & rs & Hb & Hcalm & Hnew & Hrec & Hst' & Hty' & Htr); [destruct Hp; congruence|].
    rewrite Hb. cbn [fst]. rewrite Hrec in Ht. pose proof (run_batch_spec E _ _ _ _ Hb Hcalm) as Hspec.
    destruct (run_flow E _ _ _ _ Hspec) as [_ Hcomp]. rewrite (run_owner E _ _ _ _ a Hspec), Hcur.
    unfold created, finalised. cbn [flat_map]. rewrite !app_nil_r, Hdec, Hrec.
    eapply (handle_owner L x C a _ F); [exact Htq|exact Htr|exact Hcomp| |exact Ht].
    eapply queue_same; [exact Hq|reflexivity..].
  - apply Forall_cons in Hty as [Hty1 Hty]. apply Forall_cons in Hnf as [Hnf1 Hnf].
    apply Forall_cons in Hown as [Hown1 Hown]. apply Forall_cons in Hsnd as [Hsnd1 Hsnd].
    apply transact_err in Ht as [_ ->]. exact (IH _ _ _ _ Hinv Hcur Hty Hnf Hown Hsnd Hcol).
  - apply Forall_cons in Hty as [Hty1 Hty]. apply Forall_cons in Hnf as [Hnf1 Hnf].
    apply Forall_cons in Hown as [Hown1 Hown]. apply Forall_cons in Hsnd as [Hsnd1 Hsnd].
    destruct Hinv as [Hq Htq Htok Hst Htyf Hroot Hfunds].
    destruct (token_op_safe L v o t Hown1 Htok Ht) as [Htok' Hb].
    apply (IH s C F); try assumption. constructor; try assumption.
    + eapply queue_same; [exact Hq|reflexivity..].
    + cbn [va_set_prove va_prove]. lia.
Qed.

Lemma settled_owner E L sha verify domain v0 log v a :
  settled_run E L sha verify domain v0 log v ->
  collision_free (keccak E) (log_strings E (full_new E domain) log) ->
  owner_fields (contents (ledger_after E (full_new E domain) log)) a =
  latest (0, 0) (flat_map (queued_owner a) (take (length (finalised L log)) (created log))).
Proof.
  intros [HE HL Ha Hd Hdep Hh Hty Hnf Hown Hsnd] Hc.
  destruct Hdep as (pr & ow & pa & au & st & ve & md & vk & Hi & Hno).
  destruct Ha as [A1 A2 A3]. pose proof (Build_addresses_ok L A1 A2 A3) as Ha.
  pose proof (initial_solvent E L pr ow pa au st ve md vk domain v0 Hd A3 Hno Hi) as Hinv.
  refine (history_owner E L sha verify v0 log v a HE HL Ha Hh _ [] [] _ Hinv _ Hty Hnf Hown Hsnd Hc).
  reflexivity.
Qed.

(** ** The contracts together *)

Lemma run_keeps_staking L x c v v' : match c with CAdmin (AUpdateStaking _) => False | _ => True end ->
  l1_run L x c v = Ok v' -> va_staking v' = va_staking v.
Proof.
  intros Hc H. destruct (decide (settings v' = settings v)) as [He|Hne].
  - unfold settings in He. now injection He.
  - destruct c as [| | | |k r|a]; try (destruct (run_settings _ _ _ _ _ H Hne) as [_ [(? & Hx)|(? & ? & Hx)]]; discriminate).
    + cbn [l1_run] in H. unfold l1_fork in H. l1_inv. subst. reflexivity.
    + cbn [l1_run] in H. unfold l1_admin in H. l1_inv. cbv zeta in H.
      destruct a; try contradiction; repeat match type of H with context [if ?b then _ else _] => destruct b end; l1_inv; subst; reflexivity.
Qed.

Section Net.
Context (Y : net_env) (Ha : net_addresses_ok Y).

Definition same_registry (s s' : staking) : Prop :=
  rg_owners (sk_registry s') = rg_owners (sk_registry s) /\ rg_provers (sk_registry s') = rg_provers (sk_registry s).

Lemma world_registry x c w w' : kx_vapp_accepts x = false -> world_run (net_gov Y) x c w = Ok w' ->
  same_registry (w_staking w) (w_staking w').
Proof.
  intros Hx. apply (world_rel (net_gov Y) same_registry x).
  - intros s. split; reflexivity.
  - intros s s1 s' [H1 H2] [H3 H4]. split; congruence.
  - intros y c0 s s' evs Hy _ _ H. pose proof (registry_step _ _ _ _ _ _ H) as [H1 H2 _ _|b m -> _ _ _ _ _]; [split; assumption|].
    cbn [staking_run] in H. unfold k_create_prover in H. cbv zeta in H. sk_inv. congruence.
  - intros s t. split; reflexivity.
Qed.

Lemma action_registry x others a w w' : creates_prover a = false -> run_action (net_gov Y) x others a w = Ok w' ->
  same_registry (w_staking w) (w_staking w').
Proof.
  intros Hc H. destruct a as [c| | | | |o| |]; cbn [run_action] in H; try (gov_inv; split; reflexivity).
  - set (y := StakingCtx _ _ _ _ _ _) in H.
    assert (Hs : staking_step (net_gov Y) y c w = Ok w') by (destruct c; try exact H; discriminate).
    unfold staking_step in Hs. destruct (staking_run _ _ _ _) as [[s evs]|] eqn:Es; [|discriminate].
    assert (w_staking w' = s) as -> by (clear -Hs; gov_inv; reflexivity).
    apply registry_step in Es as [H1 H2 _ _|b m -> _ _ _ _ _]; [split; assumption|discriminate].
  - gov_inv. unfold token_step in H. destruct (run_token_op _ _); [|discriminate]. gov_inv. split; reflexivity.
Qed.
Lemma actions_registry x others l : forall w w', existsb creates_prover l = false ->
  run_actions (net_gov Y) x others l w = Ok w' -> same_registry (w_staking w) (w_staking w').
Proof.
  induction l as [|a l IH]; intros w w' Hl H; cbn [run_actions existsb] in *; [gov_inv; split; reflexivity|].
  apply orb_false_iff in Hl as [Hc Hl]. destruct (run_action _ _ _ _ _) as [w2|] eqn:E2 in H; [|discriminate].
  cbn [gv_bind] in H. apply action_registry in E2 as [A1 A2]; [|exact Hc]. destruct (IH w2 w' Hl H) as [B1 B2]. split; congruence.
Qed.
Lemma execute_registry x l d others w w' : existsb creates_prover l = false ->
  world_run (net_gov Y) x (WExecute l d others) w = Ok w' -> same_registry (w_staking w) (w_staking w').
Proof.
  intros Hl H. cbn [world_run] in H. unfold execute_proposal in H. gov_inv. apply actions_registry in H; [|exact Hl]. exact H.
Qed.

Lemma receipts_registry x rs : forall n n', net_receipts Y x rs n = Ok n' ->
  same_registry (w_staking (nw_world n)) (w_staking (nw_world n')).
Proof.
  induction rs as [|r rs IH]; intros n n' H; cbn [net_receipts] in H.
  - injection H as <-. split; reflexivity.
  - destruct (if negb _ then _ else _) as [n1|] eqn:E1 in H; [|discriminate]. cbn [net_bind] in H.
    destruct (IH _ _ H) as [H1 H2].
    assert (same_registry (w_staking (nw_world n)) (w_staking (nw_world n1))) as [H3 H4]; [|split; congruence].
    destruct (negb _) in E1.
    + unfold on_vapp in E1. destruct (handle_onchain_receipt _ _); [|discriminate]. injection E1 as <-. split; reflexivity.
    + unfold net_offchain_receipt in E1. destruct (sr_status r); try discriminate; [|injection E1 as <-; split; reflexivity].
      destruct (sr_variant r); try discriminate. destruct (l1_decode_withdraw _) as [a|]; [|discriminate].
      unfold net_withdraw, on_world in E1. destruct (sees_prover _ _ _ _);
        (destruct (world_run _ _ _ _) as [w|] eqn:Ew in E1; [|discriminate]; injection E1 as <-;
         eapply world_registry; [|exact Ew]; reflexivity).
Qed.

Lemma call_registry x c n n' : net_run_call Y x c n = Ok n' ->
  match c with CWorld (WStaking (KCreateProver _)) => False | _ => True end ->
  same_registry (w_staking (nw_world n)) (w_staking (nw_world n')).
Proof.
  intros H Hc. destruct c as [c|c].
  - destruct c; cbn [net_run_call] in H;
      try (unfold on_vapp in H; destruct (l1_run _ _ _ _); [|discriminate]; injection H as <-; split; reflexivity).
    unfold net_step in H. destruct (ne_decode _ _); [|discriminate].
    destruct (on_vapp _ _) as [n1|] eqn:E1 in H; [|discriminate]. cbn [net_bind] in H. apply receipts_registry in H.
    unfold on_vapp in E1. destruct (open_block _ _ _ _ _ _); [|discriminate]. injection E1 as <-. exact H.
  - destruct c as [c|o|d|via l d|via l d|via i f|l d others]; cbn [net_run_call] in H;
      try (unfold on_world in H; destruct (world_run _ _ _ _) as [w|] eqn:Ew in H; [|discriminate]; injection H as <-;
        eapply world_registry; [|exact Ew]; reflexivity).
    + destruct c; try contradiction; try discriminate;
        (unfold on_world in H; destruct (world_run _ _ _ _) as [w|] eqn:Ew in H; [|discriminate]; injection H as <-;
          eapply world_registry; [|exact Ew]; reflexivity).
    + apply executed in H as (H1 & _ & H2). exact (execute_registry _ _ _ _ _ _ H1 H2).
Qed.

Lemma world_vapp x c n n' : net_run_call Y x (CWorld c) n = Ok n' ->
  match c with WStaking (KCreateProver _) | WExecute _ _ _ => False | _ => True end -> nw_vapp n' = nw_vapp n.
Proof.
  intros H Hc. destruct c as [c|o|d|via l d|via l d|via i f|l d others]; cbn [net_run_call] in H; try contradiction;
    try (unfold on_world in H; destruct (world_run _ _ _ _); [|discriminate]; injection H as <-; reflexivity).
  destruct c; try contradiction; try discriminate;
    (unfold on_world in H; destruct (world_run _ _ _ _); [|discriminate]; injection H as <-; reflexivity).
Qed.

(** The calls that a proposal makes to the settlement contract are those for its owner. *)
Lemma actions_calls x l : forall v v', vapp_actions Y x l v = Ok v' ->
  Forall (fun a => match a with GaVApp c => match c with CFork _ _ | CAdmin _ => True | _ => False end | _ => True end) l.
Proof.
  induction l as [|a l IH]; intros v v' H; cbn [vapp_actions] in H; [constructor|].
  destruct a as [c|m|m|m|m|o|c|m]; try (constructor; [exact I|exact (IH _ _ H)]).
  destruct c; try discriminate; (destruct (l1_run _ _ _ _) as [v1|] in H; [|discriminate]; constructor; [exact I|exact (IH _ _ H)]).
Qed.
Lemma actions_keep_staking x l : forall v v', vapp_actions Y x l v = Ok v' ->
  Forall (fun a => match a with GaVApp (CAdmin (AUpdateStaking _)) => False | _ => True end) l -> va_staking v' = va_staking v.
Proof.
  induction l as [|a l IH]; intros v v' H Hf; cbn [vapp_actions] in H; [now injection H as <-|].
  apply Forall_cons in Hf as [Hf1 Hf]. destruct a as [c|m|m|m|m|o|c|m]; try (exact (IH _ _ H Hf)).
  destruct c as [| | | |k r|a]; try discriminate; (destruct (l1_run _ _ _ _) as [v1|] eqn:E1 in H; [|discriminate];
    rewrite (IH _ _ H Hf); eapply run_keeps_staking; [|exact E1]); [exact I|destruct a; auto].
Qed.

Lemma call_keeps_staking x c inputs n n' : net_run_call Y x c n = Ok n' -> keeps_staking (NAccepted x c inputs n') ->
  va_staking (nw_vapp n') = va_staking (nw_vapp n).
Proof using Ha.
  intros H Hk. destruct c as [c|c].
  - apply (vapp_call Y Ha) in H. apply run_keeps_staking in H; [exact H|]. destruct c as [| | | | |[]]; cbn in *; auto.
  - destruct (match c with WStaking (KCreateProver _) => true | _ => false end) eqn:Ec.
    + destruct c as [[]| | | | | |]; try discriminate. cbn [net_run_call] in H. apply created_prover in H as (Hr & _).
      unfold register_prover in Hr.
      change (l1_run (net_l1 Y) (L1Ctx (ne_staking Y) (nx_time x) (sees_prover Y x n)
         (fun a => if a =? new_prover Y x bips n then nx_sender x else nx_owner_of x a) (fun _ _ => true) (nx_permit_valid x))
         (CCreateProver (new_prover Y x bips n) (nx_sender x) bips) (vapp_of n) = Ok (nw_vapp n')) in Hr.
      apply run_keeps_staking in Hr; [exact Hr|exact I].
    + destruct (match c with WExecute _ _ _ => true | _ => false end) eqn:Ex.
      * destruct c as [[]| | | | | |]; try discriminate. apply executed in H as (_ & H & _).
        exact (actions_keep_staking _ _ _ _ H Hk).
      * rewrite (world_vapp x c n n' H); [reflexivity|]. destruct c as [[]| | | | | |]; auto; discriminate.
Qed.
End Net.

Lemma net_kept Y t0 n0 log n now : net_run Y t0 n0 log n now -> Forall keeps_staking log ->
  va_staking (nw_vapp n) = ne_staking Y.
Proof.
  intros H. pose proof (net_addresses _ _ _ _ _ _ H) as Ha.
  induction H as [Hs|log n now now' H IH H1 H2|log n now x c inputs n' H IH Ht Hb Hr|log n now x c e H IH Ht Hb Hr]; intros Hk.
  - destruct Hs as [_ _ (P & prove & _ & Hd)]. unfold atomic_deploy in Hd.
    destruct (governor_start _ _ _ _ _); [|discriminate].
    destruct (l1_initialize _ _ _ _ _ _ _ _ _ _) as [v|] eqn:El; [|discriminate].
    destruct (staking_initialize _ _ _ _ _ _); [|discriminate]. injection Hd as <-.
    unfold l1_initialize in El. destruct (_ || _) in El; [discriminate|]. injection El as <-. reflexivity.
  - auto.
  - apply Forall_app in Hk as [Hk Hk1]. apply Forall_inv in Hk1. rewrite (call_keeps_staking Y Ha x c inputs n n' Hr Hk1). auto.
  - apply Forall_app in Hk as [Hk _]. auto.
Qed.

(** The creations of a prover. *)
Definition creation (p : N) (e : net_entry) : list (N * N) :=
  match e with
  | NAccepted x (CWorld (WStaking (KCreateProver b))) _ after =>
      if prover_of after (nx_sender x) =? p then [(nx_sender x, b)] else []
  | _ => []
  end.
Definition creations (p : N) (log : list net_entry) : list (N * N) := flat_map (creation p) log.

Record registered (Y : net_env) (log : list net_entry) (n : network) : Prop := {
  rd_queue : forall p, flat_map (queued_owner p) (created (settlement Y log)) = creations p log;
  rd_created : forall p, creations p log = [] /\ ~ p ∈ rg_provers (sk_registry (w_staking (nw_world n))) \/
    exists o b, creations p log = [(o, b)] /\ p ∈ rg_provers (sk_registry (w_staking (nw_world n))) /\ p <> 0 /\
      o <> 0 /\ b <= 10000 /\ rg_owners (sk_registry (w_staking (nw_world n))) !! o = Some p
}.

Lemma creations_app p l l' : creations p (l ++ l') = creations p l ++ creations p l'.
Proof. apply flat_map_app. Qed.
Lemma settlement_app Y l l' : settlement Y (l ++ l') = settlement Y l ++ settlement Y l'.
Proof. apply flat_map_app. Qed.

Lemma net_registered Y t0 n0 log n now : net_run Y t0 n0 log n now -> Forall keeps_staking log -> registered Y log n.
Proof.
  intros H. pose proof (net_addresses _ _ _ _ _ _ H) as Ha.
  induction H as [Hs|log n now now' H IH H1 H2|log n now x c inputs n' H IH Ht Hb Hr|log n now x c e H IH Ht Hb Hr]; intros Hk.
  - split; [reflexivity|]. intros p. left. split; [reflexivity|].
    destruct Hs as [_ _ (P & prove & _ & Hd)]. unfold atomic_deploy in Hd.
    destruct (governor_start _ _ _ _ _); [|discriminate].
    destruct (l1_initialize _ _ _ _ _ _ _ _ _ _) as [v|] eqn:El; [|discriminate].
    destruct (staking_initialize _ _ _ _ _ _) as [s|] eqn:Es; [|discriminate]. injection Hd as <-.
    unfold staking_initialize in Es. destruct (forallb _ _); [|discriminate]. injection Es as <-. cbn. set_solver.
  - auto.
  - apply Forall_app in Hk as [Hk Hk1]. apply Forall_inv in Hk1. destruct (IH Hk) as [IQ IC].
    pose proof (net_kept _ _ _ _ _ _ H Hk) as Hst.
    destruct (match c with CWorld (WStaking (KCreateProver _)) => true | _ => false end) eqn:Ec.
    + destruct c as [|[[]| | | | | |]]; try discriminate. cbn [net_run_call] in Hr.
      apply created_prover in Hr as (Hr & Hp & _ & Hle & Hno & Hnew & Hps & Hos).
      assert (Hq : forall p, creations p (log ++ [NAccepted x (CWorld (WStaking (KCreateProver bips))) inputs n']) =
        creations p log ++ if new_prover Y x bips n =? p then [(nx_sender x, bips)] else []).
      { intros p. rewrite creations_app. unfold creations at 2. cbn [flat_map creation]. now rewrite app_nil_r, Hp. }
      split; intros p; rewrite Hq.
      * rewrite settlement_app, created_app, flat_map_app, IQ. f_equal. cbn. rewrite Hp. cbn.
        destruct (_ =? _); reflexivity.
      * destruct (N.eqb_spec (new_prover Y x bips n) p) as [Hpp|Hpp].
        -- right. exists (nx_sender x), bips.
           destruct (IC p) as [[HC _]|(o & b & _ & Hin & _)]; [|rewrite Hpp in Hnew; contradiction].
           rewrite HC, Hps, Hos, Hpp, lookup_insert. split; [reflexivity|]. split; [set_solver|].
           split; [|split; [apply Hb|auto]].
           destruct Ha as [_ _ Hc2]. destruct (Hc2 (nx_sender x) ((rg_count (sk_registry (w_staking (nw_world n))) + 1) mod two256) bips) as [_ Hz].
           intros ->. apply Hz. unfold new_prover in Hpp. rewrite Hpp. cbn. auto.
        -- rewrite app_nil_r, Hps, Hos. destruct (IC p) as [[HC HN]|(o & b & HC & Hin & Hp0 & Ho & Hb1 & Hl)].
           ++ left. split; [exact HC|]. set_solver.
           ++ right. exists o, b. split; [exact HC|]. split; [set_solver|]. do 3 (split; [assumption|]).
              rewrite lookup_insert_ne; [exact Hl|]. intros <-. rewrite Hl in Hno. cbn in Hno. congruence.
    + assert (Hc : match c with CWorld (WStaking (KCreateProver _)) => False | _ => True end)
        by (destruct c as [|[[]| | | | | |]]; auto; discriminate).
      destruct (call_registry Y x c n n' Hr Hc) as [Hos Hps].
      assert (Hq : forall p, creations p (log ++ [NAccepted x c inputs n']) = creations p log).
      { intros p. rewrite creations_app. unfold creations at 2. destruct c as [|[[]| | | | | |]]; cbn; try (apply app_nil_r). contradiction. }
      split; intros p; rewrite Hq, ?Hos, ?Hps; [|apply IC].
      rewrite settlement_app, created_app, flat_map_app, IQ.
      assert (flat_map (queued_owner p) (created (settlement Y [NAccepted x c inputs n'])) = []) as ->; [|apply app_nil_r].
      destruct c as [c|c]; [|destruct c as [[]| | | | | |]; try reflexivity; try contradiction].
      2: { apply executed in Hr as (_ & Hr & _). apply actions_calls in Hr. unfold settlement. cbn [flat_map settlement_entry].
           rewrite app_nil_r. clear -Hr. induction Hr as [|a l Ha Hr IH]; [reflexivity|]. cbn [flat_map].
           rewrite created_app, flat_map_app, IH, app_nil_r. destruct a; try reflexivity. destruct c; try contradiction; reflexivity. }
      destruct c; try reflexivity. exfalso.
      apply (vapp_call Y Ha) in Hr. cbn [l1_run] in Hr. unfold l1_create_prover in Hr. l1_inv.
      match goal with H : (cx_sender _ =? va_staking _) = true |- _ => apply N.eqb_eq in H; cbn in H end.
      destruct Hb as [(_ & Hb & _) _]. congruence.
  - apply Forall_app in Hk as [Hk _]. destruct (IH Hk) as [IQ IC].
    assert (Hq : forall p, creations p (log ++ [NReverted x c e]) = creations p log).
    { intros p. rewrite creations_app. apply app_nil_r. }
    split; intros p; rewrite Hq; [|apply IC]. rewrite settlement_app, created_app, flat_map_app, IQ. apply app_nil_r.
Qed.

Lemma take_part (a : N) (C : list queued) k : flat_map (queued_owner a) C =
  flat_map (queued_owner a) (take k C) ++ flat_map (queued_owner a) (drop k C).
Proof. rewrite <- flat_map_app, take_drop. reflexivity. Qed.

Lemma sound_owner E sha verify domain Y t0 n0 log n now a :
  sound_run E sha verify domain Y t0 n0 log n now ->
  collision_free (keccak E) (log_strings E (full_new E domain) (settlement Y log)) ->
  owner_fields (contents (ledger_after E (full_new E domain) (settlement Y log))) a =
  latest (0, 0) (flat_map (queued_owner a) (take (N.to_nat (va_finalized (nw_vapp n))) (created (settlement Y log)))).
Proof.
  intros Hs Hc. destruct (sound_settled _ _ _ _ _ _ _ _ _ _ Hs) as (llog & Hl & Fl). rewrite <- Fl in Hc |- *.
  rewrite calls_strings in Hc. rewrite calls_ledger, calls_created.
  destruct (L1Live.run_inv _ _ _ _ _ _ _ _ Hl Hc) as [Hinv _].
  rewrite (settled_owner _ _ _ _ _ _ _ _ a Hl Hc). f_equal. f_equal. f_equal.
  pose proof (qf_finalized _ _ _ (sy_queue _ _ _ _ _ _ Hinv)) as Hf. cbn in Hf. lia.
Qed.

Section Owners.
Context (E : env) (sha : bytes -> N) (verify : N -> bool) (domain : N) (Y : net_env) (t0 : N) (n0 : network)
  (log : list net_entry) (n : network) (now : N).
Context (Hs : sound_run E sha verify domain Y t0 n0 log n now)
  (Hc : collision_free (keccak E) (log_strings E (full_new E domain) (settlement Y log)))
  (Hk : Forall keeps_staking log).
Notation ledger := (ledger_after E (full_new E domain) (settlement Y log)).

Lemma creation_entry p o b : creations p log = [(o, b)] -> Exists (creates p o b) log.
Proof using.
  clear. unfold creations. induction log as [|e l IH]; cbn; [discriminate|]. intros H.
  destruct (creation p e) as [|ob rest] eqn:Ee; [right; now apply IH|]. left.
  injection H as -> _. unfold creation in Ee.
  destruct e as [x [|[[]| | | | | |]] i after|]; try discriminate.
  destruct (N.eqb_spec (prover_of after (nx_sender x)) p); [|discriminate]. injection Ee as <- <- <-. cbn. auto.
Qed.
Lemma entry_creation p o b : Exists (creates p o b) log -> (o, b) ∈ creations p log.
Proof using.
  clear. unfold creations. intros H. apply Exists_exists in H as (e & He & H). apply elem_of_list_In, in_flat_map.
  exists e. split; [now apply elem_of_list_In|]. destruct e as [x [|[[]| | | | | |]] i after|]; try contradiction.
  destruct H as (<- & <- & <-). cbn. rewrite N.eqb_refl. now left.
Qed.

Lemma owner_created p : acc_owner (acct (accounts ledger) p) <> 0 ->
  Exists (creates p (acc_owner (acct (accounts ledger) p)) (acc_bips (acct (accounts ledger) p))) log /\
  rg_owners (sk_registry (w_staking (nw_world n))) !! acc_owner (acct (accounts ledger) p) = Some p /\
  p ∈ rg_provers (sk_registry (w_staking (nw_world n))) /\ acc_bips (acct (accounts ledger) p) <= 10000.
Proof using Hs Hc Hk.
  intros Ho. pose proof (sound_owner _ _ _ _ _ _ _ _ _ _ p Hs Hc) as Hf.
  destruct (net_registered _ _ _ _ _ _ (sn_run _ _ _ _ _ _ _ _ _ _ Hs) Hk) as [IQ IC].
  specialize (IQ p). rewrite (take_part p _ (N.to_nat (va_finalized (nw_vapp n)))) in IQ.
  unfold owner_fields in Hf. change (vs_accounts (contents ledger)) with (accounts ledger) in Hf.
  destruct (flat_map (queued_owner p) (take _ _)) as [|ob l1]; [injection Hf as Hf _; contradiction|].
  destruct (IC p) as [[HC _]|(o & b & HC & Hin & _ & Hoz & Hb & Hl)]; rewrite HC in IQ; [discriminate|].
  injection IQ as -> Hnil. apply app_eq_nil in Hnil as [-> _]. cbn in Hf. injection Hf as -> ->.
  apply creation_entry in HC. auto.
Qed.

Lemma queue_position p o b : Exists (creates p o b) log ->
  exists k, created (settlement Y log) !! k = Some (QCreateProver (CreateProverAction p o b)) /\
    (acc_owner (acct (accounts ledger) p), acc_bips (acct (accounts ledger) p)) =
      if N.of_nat k <? va_finalized (nw_vapp n) then (o, b) else (0, 0).
Proof using Hs Hc Hk.
  intros He. apply entry_creation in He. pose proof (sound_owner _ _ _ _ _ _ _ _ _ _ p Hs Hc) as Hf.
  destruct (net_registered _ _ _ _ _ _ (sn_run _ _ _ _ _ _ _ _ _ _ Hs) Hk) as [IQ IC].
  destruct (IC p) as [[HC _]|(o' & b' & HC & Hin & _ & Hoz & Hb & Hl)]; rewrite HC in He; [now apply elem_of_nil in He|].
  apply elem_of_list_singleton in He. injection He as <- <-.
  assert (Hx : (o, b) ∈ flat_map (queued_owner p) (created (settlement Y log))) by (rewrite IQ, HC; left).
  apply elem_of_list_In, in_flat_map in Hx as (q & Hq & Hx). destruct q as [|c]; [contradiction|]. cbn in Hx.
  destruct (N.eqb_spec (cp_prover c) p) as [Hp|]; [|contradiction]. destruct Hx as [[= <- <-]|[]].
  apply elem_of_list_In, elem_of_list_lookup in Hq as [k Hq]. exists k.
  split; [destruct c; cbn in *; subst; exact Hq|].
  unfold owner_fields in Hf. change (vs_accounts (contents ledger)) with (accounts ledger) in Hf. rewrite Hf. clear Hf.
  specialize (IQ p). rewrite HC in IQ. rewrite (take_part p _ (N.to_nat (va_finalized (nw_vapp n)))) in IQ.
  assert (Hown : forall l : list queued, QCreateProver c ∈ l -> exists ob r, flat_map (queued_owner p) l = ob :: r).
  { intros l Hin'. destruct (flat_map (queued_owner p) l) eqn:El; [|eauto]. exfalso.
    assert (In (cp_owner c, cp_bips c) (flat_map (queued_owner p) l)); [|now rewrite El in *].
    apply in_flat_map. exists (QCreateProver c). split; [now apply elem_of_list_In|]. cbn. rewrite Hp, N.eqb_refl. now left. }
  destruct (N.ltb_spec (N.of_nat k) (va_finalized (nw_vapp n))) as [Hlt|Hge].
  - destruct (Hown (take (N.to_nat (va_finalized (nw_vapp n))) (created (settlement Y log)))) as (ob & r & Hr).
    { apply elem_of_list_lookup. exists k. rewrite lookup_take by lia. exact Hq. }
    rewrite Hr in IQ |- *. injection IQ as -> Hnil. apply app_eq_nil in Hnil as [-> _]. reflexivity.
  - destruct (Hown (drop (N.to_nat (va_finalized (nw_vapp n))) (created (settlement Y log)))) as (ob & r & Hr).
    { apply elem_of_list_lookup. exists (k - N.to_nat (va_finalized (nw_vapp n)))%nat. rewrite lookup_drop.
      rewrite <- Hq. f_equal. lia. }
    rewrite Hr in IQ. destruct (flat_map (queued_owner p) (take _ _)) as [|ob' l1]; [reflexivity|].
    injection IQ as _ Hnil. destruct l1; discriminate.
Qed.
End Owners.
