(** The exact effect of each call of the settlement contract except [step]. *)
From Verif Require Export L1Facts TokenFacts.
From Coq Require Import ZifyBool ZifyN ZifyNat.
Open Scope N_scope.

Lemma transact_run L x c v v' : l1_run L x c v = Ok v' -> l1_transact L x c v = (v', None).
Proof. unfold l1_transact. now intros ->. Qed.

Lemma create_exact q v v' :
  create_transaction (queued_variant q) (queued_data q) v = Ok v' ->
  va_current v + 1 < two64 /\ va_prove v' = va_prove v /\ one_queued q v v'.
Proof.
  unfold create_transaction. intros H. l1_inv. subst v'. split; [assumption|]. split; [reflexivity|].
  constructor; try reflexivity; cbn [va_set_queue va_txs va_current].
  - apply lookup_insert.
  - intros k Hk. apply lookup_insert_ne. congruence.
Qed.

Lemma create_accepts variant data v : va_current v + 1 < two64 ->
  create_transaction variant data v
  = Ok (va_set_queue (va_current v + 1)
         (<[va_current v + 1 := L1Tx variant StPending (va_current v + 1) data]> (va_txs v)) v).
Proof. intros H. unfold create_transaction, l1_succ. destruct (N.ltb_spec (va_current v + 1) two64); [reflexivity|lia]. Qed.

Lemma spend_allowance t owner spender amount t' :
  tk_spend t owner spender amount = Ok t' ->
  tk_allowance t' owner spender
  = (if tk_allowance t owner spender =? unlimited then unlimited else tk_allowance t owner spender - amount) /\
  (forall o s, (o, s) <> (owner, spender) -> tk_allowance t' o s = tk_allowance t o s).
Proof.
  unfold tk_spend. change unlimited with u256_max. destruct (N.eqb_spec (tk_allowance t owner spender) u256_max) as [He|].
  - intros [= <-]. auto.
  - destruct (_ <? amount); [discriminate|]. intros [= <-]. split.
    + rewrite allowance_approve, !N.eqb_refl. reflexivity.
    + intros o s Hne. rewrite allowance_approve.
      destruct (N.eqb_spec o owner), (N.eqb_spec s spender); cbn [andb]; try reflexivity. congruence.
Qed.

Lemma transfer_from_exact L t from amount t' :
  tk_transfer_from t (le_self L) from (le_self L) amount = Ok t' ->
  from <> 0 /\ le_self L <> 0 /\ amount <= tk_balance t from /\
  (amount <= tk_allowance t from (le_self L) \/ tk_allowance t from (le_self L) = unlimited) /\
  deposit_paid L from amount (tk_allowance t from (le_self L)) t t'.
Proof.
  unfold tk_transfer_from. destruct (tk_spend t from (le_self L) amount) as [t1|e] eqn:Hs; [|discriminate].
  intros H. pose proof (spend_ok _ _ _ _ _ Hs) as (Hb & Hg & _).
  pose proof (spend_allowance _ _ _ _ _ Hs) as [Hu Ho].
  assert (Hz : from <> 0 /\ le_self L <> 0).
  { unfold tk_transfer in H. destruct (N.eqb_spec from 0), (N.eqb_spec (le_self L) 0); try discriminate. auto. }
  apply transfer_ok in H as (Ha & Hle & Hbal).
  rewrite (balances_eq _ _ _ Hb) in Hle.
  split; [tauto|]. split; [tauto|]. split; [assumption|]. split; [exact Hg|].
  constructor.
  - intros a. rewrite Hbal, (balances_eq _ _ a Hb). destruct (N.eqb_spec a from) as [->|]; destruct (_ =? le_self L); lia.
  - unfold tk_allowance at 1. rewrite Ha. fold (tk_allowance t1 from (le_self L)). exact Hu.
  - intros o s Hne. unfold tk_allowance at 1. rewrite Ha. fold (tk_allowance t1 o s). now apply Ho.
Qed.

Lemma deposit_from_exact L from amount v v' :
  deposit_from L from amount v = Ok v' ->
  va_min_deposit v <= amount /\ from <> 0 /\ le_self L <> 0 /\ amount <= tk_balance (va_prove v) from /\
  (amount <= tk_allowance (va_prove v) from (le_self L) \/ tk_allowance (va_prove v) from (le_self L) = unlimited) /\
  va_current v + 1 < two64 /\
  one_queued (QDeposit (DepositAction from amount)) v v' /\
  deposit_paid L from amount (tk_allowance (va_prove v) from (le_self L)) (va_prove v) (va_prove v').
Proof.
  intros H. apply deposit_from_ok in H as (Hmin & v1 & t & Hc & Ht & ->).
  apply (create_exact (QDeposit (DepositAction from amount))) in Hc as (Hid & Hp & Hq).
  rewrite Hp in Ht. apply transfer_from_exact in Ht as (H1 & H2 & H3 & H4 & H5).
  repeat match goal with |- _ /\ _ => split end; try assumption.
  destruct Hq. constructor; assumption.
Qed.

Lemma deposit_from_accepts L from amount v :
  va_min_deposit v <= amount -> from <> 0 -> le_self L <> 0 -> amount <= tk_balance (va_prove v) from ->
  (amount <= tk_allowance (va_prove v) from (le_self L) \/ tk_allowance (va_prove v) from (le_self L) = unlimited) ->
  va_current v + 1 < two64 -> exists v', deposit_from L from amount v = Ok v'.
Proof.
  intros Hmin Hf Hs Hb Hg Hid. unfold deposit_from. destruct (N.ltb_spec amount (va_min_deposit v)); [lia|].
  rewrite create_accepts by assumption. cbn [l1_bind va_set_queue va_prove].
  unfold tk_transfer_from, tk_spend. change unlimited with u256_max in Hg.
  assert (Hz : forall t, tk_balances t = tk_balances (va_prove v) ->
    exists t', tk_transfer t from (le_self L) amount = Ok t').
  { intros t Ht. unfold tk_transfer. destruct (N.eqb_spec from 0), (N.eqb_spec (le_self L) 0); try contradiction.
    cbn [orb]. rewrite (balances_eq _ _ _ Ht). destruct (N.ltb_spec (tk_balance (va_prove v) from) amount); [lia|eauto]. }
  destruct (N.eqb_spec (tk_allowance (va_prove v) from (le_self L)) u256_max).
  - destruct (Hz (va_prove v) eq_refl) as [t' ->]. cbn [l1_token l1_bind]. eauto.
  - destruct (N.ltb_spec (tk_allowance (va_prove v) from (le_self L)) amount); [lia|].
    match goal with |- context [tk_transfer ?t _ _ _] => destruct (Hz t eq_refl) as [t' ->] end.
    cbn [l1_token l1_bind]. eauto.
Qed.

(** ** Deposits *)

Lemma deposit_exact L x amount v v' :
  l1_transact L x (CDeposit amount) v = (v', None) ->
  let granted := tk_allowance (va_prove v) (cx_sender x) (le_self L) in
  deposit_allowed L (cx_sender x) amount granted v /\
  one_queued (QDeposit (DepositAction (cx_sender x) amount)) v v' /\
  deposit_paid L (cx_sender x) amount granted (va_prove v) (va_prove v').
Proof.
  intros H. apply transact_ok in H. cbn [l1_run] in H. unfold l1_deposit in H. l1_inv.
  apply deposit_from_exact in H as (H1 & H2 & H3 & H4 & H5 & H6 & H7 & H8).
  split; [|split; assumption]. constructor; auto. now apply negb_true_iff.
Qed.

Lemma deposit_accepted L x amount v :
  deposit_allowed L (cx_sender x) amount (tk_allowance (va_prove v) (cx_sender x) (le_self L)) v ->
  exists v', l1_transact L x (CDeposit amount) v = (v', None).
Proof.
  intros [Hr Hm [Hf Hs] Hb Hg Hid]. destruct (deposit_from_accepts L (cx_sender x) amount v Hm Hf Hs Hb Hg Hid) as [v' Hv].
  exists v'. apply transact_run. cbn [l1_run]. unfold l1_deposit. rewrite Hr. exact Hv.
Qed.

Lemma approved_paid L from amount t t' :
  deposit_paid L from amount amount (tk_approve t from (le_self L) amount) t' ->
  deposit_paid L from amount amount t t'.
Proof.
  intros [Hb Hu Ho]. constructor; [exact Hb|exact Hu|].
  intros o s Hne. rewrite (Ho o s Hne), allowance_approve.
  destruct (N.eqb_spec o from), (N.eqb_spec s (le_self L)); cbn [andb]; try reflexivity. congruence.
Qed.

Lemma permit_exact L x from amount v v' :
  l1_transact L x (CPermitAndDeposit from amount) v = (v', None) ->
  (tk_allowance (va_prove v) from (le_self L) = amount \/ cx_permit_valid x = true) /\
  deposit_allowed L from amount amount v /\
  one_queued (QDeposit (DepositAction from amount)) v v' /\
  deposit_paid L from amount amount (va_prove v) (va_prove v').
Proof.
  intros H. apply transact_ok in H. cbn [l1_run] in H. apply permit_ok in H as (Hr & [(He & H)|(Hp & H)]).
  - apply deposit_from_exact in H as (H1 & H2 & H3 & H4 & H5 & H6 & H7 & H8). rewrite He in H8.
    split; [auto|]. split; [constructor; auto; left; lia|]. split; assumption.
  - apply deposit_from_exact in H as (H1 & H2 & H3 & H4 & H5 & H6 & H7 & H8).
    cbn [va_set_prove va_prove va_min_deposit va_current] in *.
    rewrite allowance_approve, !N.eqb_refl in H8. cbn [andb] in H8. apply approved_paid in H8.
    split; [auto|]. split; [constructor; auto; left; lia|]. split; [|assumption].
    destruct H7. constructor; assumption.
Qed.

Lemma permit_accepted L x from amount v :
  (tk_allowance (va_prove v) from (le_self L) = amount \/ cx_permit_valid x = true) ->
  deposit_allowed L from amount amount v ->
  exists v', l1_transact L x (CPermitAndDeposit from amount) v = (v', None).
Proof.
  intros Hp [Hr Hm [Hf Hs] Hb _ Hid].
  assert (H : exists v', l1_run L x (CPermitAndDeposit from amount) v = Ok v').
  { cbn [l1_run]. unfold l1_permit_and_deposit. rewrite Hr. cbn [negb l1_require l1_bind].
    destruct (N.eqb_spec (tk_allowance (va_prove v) from (le_self L)) amount) as [He|Hne].
    - cbn [l1_bind]. apply deposit_from_accepts; auto. left. lia.
    - destruct Hp as [He | ->]; [contradiction|]. cbn [l1_bind].
      apply deposit_from_accepts; auto. left. cbn [va_set_prove va_prove]. rewrite allowance_approve, !N.eqb_refl.
      cbn [andb]. lia. }
  destruct H as [v' H]. exists v'. now apply transact_run.
Qed.

(** ** Provers *)

Lemma create_prover_exact L x prover owner bips v v' :
  l1_transact L x (CCreateProver prover owner bips) v = (v', None) ->
  cx_sender x = va_staking v /\ va_paused v = false /\ owner <> 0 /\ owner = cx_owner_of x prover /\
  va_current v + 1 < two64 /\
  one_queued (QCreateProver (CreateProverAction prover owner bips)) v v' /\ va_prove v' = va_prove v.
Proof.
  intros H. apply transact_ok in H. cbn [l1_run] in H. unfold l1_create_prover in H. l1_inv.
  apply (create_exact (QCreateProver (CreateProverAction prover owner bips))) in H as (Hid & Hp & Hq).
  repeat match goal with
  | H : (_ =? _) = true |- _ => apply N.eqb_eq in H
  | H : negb _ = true |- _ => apply negb_true_iff in H
  | H : (_ =? _) = false |- _ => apply N.eqb_neq in H
  end. auto 10.
Qed.

Lemma create_prover_accepted L x prover owner bips v :
  cx_sender x = va_staking v -> va_paused v = false -> owner <> 0 -> owner = cx_owner_of x prover ->
  va_current v + 1 < two64 -> exists v', l1_transact L x (CCreateProver prover owner bips) v = (v', None).
Proof.
  intros H1 H2 H3 H4 H5. eexists. apply transact_run. cbn [l1_run]. unfold l1_create_prover.
  apply N.eqb_eq in H1, H4. apply N.eqb_neq in H3. rewrite H1, H2, H3, H4. cbn [negb l1_require l1_bind].
  apply create_accepts. exact H5.
Qed.

(** ** The owner *)

Lemma admin_exact L x c v v' :
  l1_transact L x (CAdmin c) v = (v', None) ->
  cx_sender x = va_owner v /\ new_settings c (settings v) (settings v') /\ not_settings v' = not_settings v.
Proof.
  intros H. apply transact_ok in H. cbn [l1_run] in H. unfold l1_admin in H. l1_inv.
  split; [now apply N.eqb_eq|].
  destruct v as [o p k a s f bl m cu fi ro ti tx pr].
  cbn [va_owner va_paused va_vkey va_auctioneer va_staking va_verifier va_min_deposit] in *.
  destruct c; cbn beta iota zeta in H; try destruct p; try discriminate;
    try (match type of H with (if ?a =? 0 then _ else _) = _ => destruct (N.eqb_spec a 0); [discriminate|] end);
    injection H as <-; (split; [now constructor|reflexivity]).
Qed.

Lemma admin_accepted L x c v new :
  cx_sender x = va_owner v -> new_settings c (settings v) new ->
  exists v', l1_transact L x (CAdmin c) v = (v', None) /\ settings v' = new.
Proof.
  intros Hs Hn. destruct v as [o p k a s f bl m cu fi ro ti tx pr].
  cbn [va_owner settings va_paused va_vkey va_auctioneer va_staking va_verifier va_min_deposit] in *.
  apply N.eqb_eq in Hs.
  unfold l1_transact, l1_run, l1_admin.
  cbn [va_owner va_paused va_vkey va_auctioneer va_staking va_verifier va_min_deposit]. rewrite Hs.
  cbn [l1_require l1_bind].
  inversion Hn; subst; try (eexists; split; reflexivity).
  match goal with H : ?a <> 0 |- _ => apply N.eqb_neq in H; rewrite H end. eexists; split; reflexivity.
Qed.

Lemma fork_exact L x vkey root v v' :
  l1_transact L x (CFork vkey root) v = (v', None) ->
  cx_sender x = va_owner v /\ vkey <> 0 /\ root <> 0 /\ va_block v + 1 < two64 /\
  va_vkey v' = vkey /\ va_block v' = va_block v + 1 /\ va_root v' = root /\
  va_timestamp v' = cx_time x mod two64 /\
  (forall n, n <> va_block v + 1 ->
     va_roots v' !! n = va_roots v !! n /\ va_timestamps v' !! n = va_timestamps v !! n) /\
  (va_owner v', va_paused v', va_auctioneer v', va_staking v', va_verifier v', va_min_deposit v')
  = (va_owner v, va_paused v, va_auctioneer v, va_staking v, va_verifier v, va_min_deposit v) /\
  (va_current v', va_finalized v', va_txs v', va_prove v') = (va_current v, va_finalized v, va_txs v, va_prove v).
Proof.
  intros H. apply transact_ok in H. cbn [l1_run] in H. unfold l1_fork in H. l1_inv. subst v'.
  match goal with H : negb (_ || _) = true |- _ => apply negb_true_iff, orb_false_iff in H as [?%N.eqb_neq ?%N.eqb_neq] end.
  match goal with H : (_ =? _) = true |- _ => apply N.eqb_eq in H end.
  unfold va_root, va_timestamp. cbn [va_set_block va_set_admin va_block va_roots va_timestamps va_vkey va_owner
    va_paused va_auctioneer va_staking va_verifier va_min_deposit va_current va_finalized va_txs va_prove].
  rewrite !lookup_insert. repeat match goal with |- _ /\ _ => split end; auto.
  intros n Hn. rewrite !lookup_insert_ne by congruence. auto.
Qed.

Lemma fork_accepted L x vkey root v :
  cx_sender x = va_owner v -> vkey <> 0 -> root <> 0 -> va_block v + 1 < two64 ->
  exists v', l1_transact L x (CFork vkey root) v = (v', None).
Proof.
  intros H1 H2 H3 H4. eexists. apply transact_run. cbn [l1_run]. unfold l1_fork, l1_succ.
  apply N.eqb_eq in H1. apply N.eqb_neq in H2, H3. rewrite H1, H2, H3. cbn [orb negb l1_require l1_bind].
  destruct (N.ltb_spec (va_block v + 1) two64); [reflexivity|lia].
Qed.

(** ** Deployment *)

Lemma initialize_exact L prove owner pa auctioneer staking verifier md vkey genesis v :
  l1_initialize L prove owner pa auctioneer staking verifier md vkey genesis = Some v ->
  ~ In 0 [owner; pa; le_iprove L; auctioneer; staking; verifier; vkey; genesis] /\
  settings v = (owner, false, vkey, auctioneer, staking, verifier, md) /\
  va_block v = 0 /\ va_root v = genesis /\ va_timestamp v = 0 /\
  va_current v = 0 /\ va_finalized v = 0 /\ (forall k, va_txs v !! k = None) /\
  (forall a, tk_balance (va_prove v) a = tk_balance prove a) /\
  tk_allowance (va_prove v) (le_self L) (le_iprove L) = unlimited /\
  (forall o s, (o, s) <> (le_self L, le_iprove L) -> tk_allowance (va_prove v) o s = tk_allowance prove o s).
Proof.
  unfold l1_initialize. destruct (_ || _) eqn:Hz; [discriminate|]. intros [= <-].
  repeat match goal with H : _ || _ = false |- _ => apply orb_false_iff in H as [? ?] end.
  repeat match goal with H : (_ =? _) = false |- _ => apply N.eqb_neq in H end.
  repeat match goal with |- _ /\ _ => split end; try reflexivity.
  - cbn [In]. intuition congruence.
  - cbn [va_prove]. rewrite allowance_approve, !N.eqb_refl. reflexivity.
  - intros o s Hne. cbn [va_prove]. rewrite allowance_approve.
    destruct (N.eqb_spec o (le_self L)), (N.eqb_spec s (le_iprove L)); cbn [andb]; try reflexivity. congruence.
Qed.
