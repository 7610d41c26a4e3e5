(** The pending queue can be proven and settled, and so can a covered withdrawal. *)
From Verif Require Export LiveFacts.
From Coq Require Import Lia ZifyBool ZifyN ZifyNat.
Open Scope N_scope.
Local Opaque request_index.

(** ** The queue on the ledger *)

Lemma observed_runs E id b l qs txs : observed_from id b l qs txs ->
  forall s : ledger, vs_onchain_tx_id s = id -> vs_onchain_block s = b -> vs_onchain_log_index s = l ->
  total_balance (vs_accounts s) + sum queued_amount qs < two256 -> id + N.of_nat (length qs) < two64 ->
  exists rs s', spec_run E s txs rs s' /\
    map sol_of_receipt (batch_receipts rs) = imap (fun j q => carried_out (id + N.of_nat j) q) qs /\
    (forall k, bal (vs_accounts s') k = bal (vs_accounts s) k + sum (deposited_to k) qs).
Proof.
  induction 1 as [id b l|id b l b' l' q qs txs Hlater Hb Hl Hob IH]; intros s Hid Hbl Hlo Htot Hlen.
  { exists [], s. split; [constructor|]. split; [reflexivity|]. intros k. cbn. lia. }
  cbn [sum fold_right] in Htot. fold (sum queued_amount qs) in Htot. cbn [length] in Hlen.
  assert (Hstep : exists s1 r, lstep E s (queued_tx id b' l' q) s1 (ResOk (Some r)) /\
    sol_of_receipt r = carried_out id q /\ vs_onchain_tx_id s1 = next_u64 id /\ vs_onchain_block s1 = b' /\
    vs_onchain_log_index s1 = l' /\ total_balance (vs_accounts s1) = total_balance (vs_accounts s) + queued_amount q /\
    forall k, bal (vs_accounts s1) k = bal (vs_accounts s) k + deposited_to k q).
  { destruct q as [d|c]; cbn [queued_tx queued_amount deposited_to] in *.
    - pose proof (bal_le_total (vs_accounts s) (da_account d)).
      exists (after_onchain s (Onchain b' l' id d) (m_credit (da_account d) (da_amount d) (vs_accounts s))),
        (RDeposit (OnchainReceipt id StCompleted d)).
      split.
      { apply (step_deposit E s (Onchain b' l' id d)).
        - split; [now symmetry|]. cbn. now rewrite Hbl, Hlo.
        - cbn [payments oc_action]. apply moves_receive; [lia|constructor]. }
      split; [reflexivity|]. cbn. rewrite Hid. split; [reflexivity|]. split; [reflexivity|]. split; [reflexivity|].
      split; [apply total_credit|]. intros k. apply bal_credit.
    - exists (after_onchain s (Onchain b' l' id c)
        (<[cp_prover c := Account (bal (vs_accounts s) (cp_prover c)) (cp_owner c) (cp_owner c) (cp_bips c)]> (vs_accounts s))),
        (RCreateProver (OnchainReceipt id StCompleted c)).
      split.
      { apply (step_create_prover E s (Onchain b' l' id c)). split; [now symmetry|]. cbn. now rewrite Hbl, Hlo. }
      split; [reflexivity|]. cbn. rewrite Hid. split; [reflexivity|]. split; [reflexivity|]. split; [reflexivity|].
      split; [rewrite total_same by reflexivity; lia|].
      intros k. rewrite bal_insert. destruct (N.eqb_spec (cp_prover c) k); subst; cbn; lia. }
  destruct Hstep as (s1 & r & Hs & Hr & H1 & H2 & H3 & H4 & H5).
  rewrite u64_succ_small in H1 by lia.
  destruct (IH s1 H1 H2 H3) as (rs & s' & Hrun & Hmap & Hbal); [lia|lia|].
  exists (ResOk (Some r) :: rs), s'. split; [econstructor; eassumption|]. split.
  - cbn [batch_receipts map imap]. rewrite Hr, Hmap. cbn [N.of_nat]. rewrite N.add_0_r. f_equal.
    apply imap_ext. intros j x _. unfold compose. f_equal. lia.
  - intros k. rewrite Hbal, H5. cbn [sum fold_right]. fold (sum (deposited_to k) qs). lia.
Qed.

Lemma observed_typed id b l qs txs : observed_from id b l qs txs ->
  Forall typed_queued qs -> id + N.of_nat (length qs) < two64 -> Forall typed_tx txs.
Proof.
  induction 1 as [id b l|id b l b' l' q qs txs Hlater Hb Hl Hob IH]; intros Hq Hlen; [constructor|].
  apply Forall_cons in Hq as [Hq Hqs]. cbn [length] in Hlen. constructor; [|apply IH; [assumption|lia]].
  assert (is_u64 id) by (unfold is_u64; change two64 with (2 ^ 64) in Hlen; lia).
  destruct q; cbn; split; auto.
Qed.

Lemma observed_from_queue C id b l qs txs : observed_from id b l qs txs ->
  forall n, id = N.of_nat n + 1 -> (forall j q, qs !! j = Some q -> C !! (n + j)%nat = Some q) ->
  Forall (from_queue C) txs.
Proof.
  induction 1 as [id b l|id b l b' l' q qs txs Hlater Hb Hl Hob IH]; intros n Hn Hq; constructor.
  - specialize (Hq 0%nat q eq_refl). rewrite Nat.add_0_r in Hq. destruct q; cbn; exists n; auto.
  - apply (IH (S n)); [lia|]. intros j q' Hj. rewrite Nat.add_succ_comm. now apply (Hq (S j)).
Qed.

Lemma observed_places E id b l qs txs : observed_from id b l qs txs -> places_differ E txs.
Proof.
  intros Hob t1 t2 a c H1 _ Hr _ _. exfalso. induction Hob as [|id b l b' l' q qs txs Hlater Hb Hl Hob IH].
  - now apply elem_of_nil in H1.
  - apply elem_of_cons in H1 as [->|H1]; [now destruct q|auto].
Qed.

Lemma sum_take_drop {A} (f : A -> N) n l : sum f (take n l) <= sum f l.
Proof. revert n. induction l; intros [|n]; cbn; try lia. specialize (IHl n). unfold sum in *. lia. Qed.

Lemma filter_all {A} (P : A -> Prop) `{!forall x, Decision (P x)} (l : list A) : Forall P l -> filter P l = l.
Proof. induction 1; [reflexivity|]. rewrite filter_cons_True by assumption. now f_equal. Qed.

Lemma carried_onchain id qs : id + N.of_nat (length qs) < two64 ->
  L1Spec.onchain (imap (fun j q => carried_out (id + N.of_nat j) q) qs)
  = imap (fun j q => carried_out (id + N.of_nat j) q) qs.
Proof.
  intros Hlen. unfold L1Spec.onchain. change two64 with (2 ^ 64) in Hlen. apply filter_all. apply Forall_lookup. intros i x Hx.
  rewrite list_lookup_imap in Hx. destruct (qs !! i) as [q|] eqn:Hq; [|discriminate].
  injection Hx as <-. apply lookup_lt_Some in Hq. cbn [carried_out sr_tx_id]. lia.
Qed.

Section queue.
  Context (E : env) (L : l1_env) (sha : bytes -> N) (verify : N -> bool) (domain : N) (v0 v : l1_state) (log : list l1_entry).
  Context (Hrun : settled_run E L sha verify domain v0 log v)
    (Hhash : collision_free (keccak E) (log_strings E (full_new E domain) log))
    (Hheld : tk_balance (va_prove v) (le_self L) < 2 ^ 256) (Hlen : N.of_nat (length (created log)) < 2 ^ 64 - 1).
  Let s := ledger_after E (full_new E domain) log.
  Context (n : nat) (txs : list tx)
    (Hob : observed_from (va_finalized v + 1) (vs_onchain_block s) (vs_onchain_log_index s) (next_pending log v n) txs).
  Let qs := next_pending log v n.

  Lemma pending_length : va_finalized v + N.of_nat (length qs) <= N.of_nat (length (created log)).
  Proof.
    destruct (run_inv E L sha verify domain v0 log v Hrun Hhash) as [Hinv _].
    destruct (sy_queue _ _ _ _ _ _ Hinv) as [_ Hf Hb _ _ _].
    unfold qs, next_pending. rewrite take_length, drop_length. lia.
  Qed.

  Lemma pending_lookup j q : qs !! j = Some q -> created log !! (N.to_nat (va_finalized v) + j)%nat = Some q.
  Proof.
    unfold qs, next_pending. intros H. apply lookup_take_Some in H as [H _]. now rewrite lookup_drop in H.
  Qed.

  Lemma queue_runs : exists rs l', spec_run E (contents s) txs rs l' /\
    map sol_of_receipt (batch_receipts rs) = imap (fun j q => carried_out (va_finalized v + 1 + N.of_nat j) q) qs /\
    forall k, bal (vs_accounts l') k = bal (accounts s) k + sum (deposited_to k) qs.
  Proof.
    pose proof pending_length as Hpl.
    destruct (run_inv E L sha verify domain v0 log v Hrun Hhash) as [Hinv Hcur]. fold s in Hinv, Hcur.
    destruct (sy_queue _ _ _ _ _ _ Hinv) as [_ Hf Hb _ _ _].
    pose proof (sy_funds _ _ _ _ _ _ Hinv) as Hfunds. unfold pending_deposits in Hfunds.
    pose proof (sum_take_drop queued_amount n (drop (length (finalised L log)) (created log))) as Hsum.
    replace (length (finalised L log)) with (N.to_nat (va_finalized v)) in Hsum, Hfunds by lia.
    fold (next_pending log v n) in Hsum. fold qs in Hsum.
    apply (observed_runs E _ _ _ _ _ Hob (contents s)); cbn [contents vs_onchain_tx_id vs_onchain_block vs_onchain_log_index vs_accounts].
    - rewrite Hcur. apply u64_succ_small. change two64 with (2 ^ 64). lia.
    - reflexivity.
    - reflexivity.
    - fold qs. change (mk_leaves (vs_accounts s)) with (accounts s). change two256 with (2 ^ 256). lia.
    - fold qs. change two64 with (2 ^ 64). lia.
  Qed.

  Lemma queue_typed : Forall typed_tx txs.
  Proof.
    pose proof pending_length as Hpl. eapply observed_typed; [exact Hob| |fold qs; change two64 with (2 ^ 64); lia].
    apply Forall_take, Forall_drop, created_typed. apply Hrun.
  Qed.

  Lemma queue_provable timestamp : exists s',
    stf_main E (recorded_input E s txs timestamp) =
      Some (StepPv (va_root v) (full_root E s') timestamp
        (imap (fun j q => carried_out (va_finalized v + 1 + N.of_nat j) q) qs)) /\
    forall k, bal (accounts s') k = bal (accounts s) k + sum (deposited_to k) qs.
  Proof.
    destruct queue_runs as (rs & l' & Hspec & Hmap & Hbal).
    destruct (batch_provable E L sha verify domain v0 v log Hrun Hhash txs timestamp rs l' queue_typed
      (observed_places E _ _ _ _ _ Hob) Hspec) as (s' & _ & Hc & Hm).
    exists s'. rewrite Hmap in Hm. split; [exact Hm|]. intros k. rewrite <- Hbal, <- Hc. reflexivity.
  Qed.

  Lemma queue_settles timestamp p x proof :
    is_u64 timestamp -> stf_main E (recorded_input E s txs timestamp) = Some p ->
    N.of_nat (length (abi_step p)) < 2 ^ 256 -> verify (sha (abi_step p)) = true ->
    collision_free (keccak E) (log_strings E (full_new E domain)
      (log ++ [LAccepted x (CStep (abi_step p) proof) [recorded_input E s txs timestamp]])) ->
    is_address (cx_sender x) -> step_allowed L x (abi_step p) proof p v -> va_block v + 1 < 2 ^ 64 ->
    exists v', l1_transact L x (CStep (abi_step p) proof) v = (v', None) /\
      settled_run E L sha verify domain v0
        (log ++ [LAccepted x (CStep (abi_step p) proof) [recorded_input E s txs timestamp]]) v' /\
      va_finalized v' = va_finalized v + N.of_nat (length qs) /\
      forall j q, qs !! j = Some q -> va_txs v' !! (va_finalized v + 1 + N.of_nat j)
        = Some (L1Tx (queued_variant q) StCompleted (va_finalized v + 1 + N.of_nat j) (queued_data q)).
  Proof.
    intros Ht Hp Hsize Hv Hc Hx Hal Hb. pose proof pending_length as Hpl.
    destruct queue_runs as (rs & l' & Hspec & Hmap & Hbal).
    destruct (queue_provable timestamp) as (s' & Hm & _). rewrite Hp in Hm. injection Hm as Hm.
    assert (Hrc : pv_receipts p = imap (fun j q => carried_out (va_finalized v + 1 + N.of_nat j) q) qs) by now subst p.
    assert (Hon : L1Spec.onchain (pv_receipts p) = pv_receipts p).
    { rewrite Hrc. apply carried_onchain. change two64 with (2 ^ 64). lia. }
    destruct (run_inv E L sha verify domain v0 log v Hrun Hhash) as [Hinv _].
    destruct (sy_queue _ _ _ _ _ _ Hinv) as [_ Hf _ _ _ _].
    destruct (batch_settles E L sha verify domain v0 v log Hrun Hhash txs timestamp rs l' p x proof queue_typed
      (observed_places E _ _ _ _ _ Hob) Hspec Ht Hp Hsize Hv Hc Hx Hal Hb Hlen) as (v' & Hacc & Hset & Hq & _).
    - apply (observed_from_queue _ _ _ _ _ _ Hob (N.to_nat (va_finalized v))); [lia|]. exact pending_lookup.
    - rewrite Hrc. apply Forall_lookup. intros i r Hr. rewrite list_lookup_imap in Hr.
      destruct (qs !! i) as [q|]; [|discriminate]. injection Hr as <-. intros a m Hw. destruct q; discriminate.
    - exists v'. split; [exact Hacc|]. split; [exact Hset|]. rewrite Hon, Hrc in Hq.
      destruct Hq as [_ Hf' _ Htx _ _]. split.
      + rewrite Hf', app_length, imap_length. lia.
      + intros j q Hj. pose proof (Htx _ _ (pending_lookup j q Hj)) as Hrec.
        replace (N.of_nat (N.to_nat (va_finalized v) + j) + 1) with (va_finalized v + 1 + N.of_nat j) in Hrec by lia.
        rewrite Hrec. unfold status_at. rewrite lookup_app_r by lia.
        replace (N.to_nat (va_finalized v) + j - length (finalised L log))%nat with j by lia.
        now rewrite list_lookup_imap, Hj.
  Qed.
End queue.

(** ** A withdrawal *)

Lemma withdrawn_pays who amount : is_address who -> is_word amount ->
  withdrawal (sr_action (withdrawal_done who amount)) = Some (who, amount).
Proof.
  intros Hw Ha. unfold withdrawal. cbn [withdrawal_done sr_action]. rewrite app_length, !be_bytes_length. cbn [Nat.add Nat.leb].
  rewrite take_app_alt, drop_app_alt, take_ge by (rewrite ?be_bytes_length; lia).
  rewrite !from_be_be_bytes. change (256 ^ N.of_nat 32) with (2 ^ 256).
  unfold is_address, is_word, two160 in *.
  assert (2 ^ 160 < 2 ^ 256) by reflexivity.
  now rewrite !N.mod_small by lia.
Qed.

Lemma payment_done L x who amount : is_address who -> is_word amount ->
  payment L x (withdrawal_done who amount) = Some (if cx_is_prover x who then le_iprove L else who, amount).
Proof. intros Hw Ha. unfold payment. now rewrite (withdrawn_pays who amount Hw Ha). Qed.

Lemma withdrawal_paid L x who amount : is_address who -> is_word amount ->
  sum (paid L x) [withdrawal_done who amount] = amount.
Proof. intros Hw Ha. cbn [sum fold_right]. unfold paid. rewrite (payment_done L x who amount Hw Ha). apply N.add_0_r. Qed.

Lemma withdrawal_received L x a who amount : is_address who -> is_word amount ->
  sum (received L x a) [withdrawal_done who amount]
  = if (if cx_is_prover x who then le_iprove L else who) =? a then amount else 0.
Proof. intros Hw Ha. cbn [sum fold_right]. unfold received. rewrite (payment_done L x who amount Hw Ha). apply N.add_0_r. Qed.

Lemma withdrawal_receivable x who amount : is_address who -> is_word amount ->
  who <> 0 -> (cx_is_prover x who = true -> cx_vault_accepts x who amount = true) ->
  Forall (can_receive x) [withdrawal_done who amount].
Proof.
  intros Hwa Ha Hw Hv. constructor; [|constructor]. intros a m _ He. rewrite (withdrawn_pays who amount Hwa Ha) in He.
  injection He as <- <-. auto.
Qed.

Lemma withdrawal_receipt who amount :
  sol_of_receipt (RWithdraw (OffchainReceipt StCompleted (WithdrawAction who amount))) = withdrawal_done who amount.
Proof. reflexivity. Qed.

Section withdraw.
  Context (E : env) (L : l1_env) (sha : bytes -> N) (verify : N -> bool) (domain : N) (v0 v : l1_state) (log : list l1_entry).
  Context (Hrun : settled_run E L sha verify domain v0 log v)
    (Hhash : collision_free (keccak E) (log_strings E (full_new E domain) log))
    (Hheld : tk_balance (va_prove v) (le_self L) < 2 ^ 256).
  Let s := ledger_after E (full_new E domain) log.
  Context (w : signed withdraw_body) (body : withdraw_body) (from who amount auctioneer fee : N)
    (Hty : typed_tx (TxWithdraw w)) (Hok : withdraw_ok E (contents s) w body from who amount auctioneer fee)
    (Hcov : withdrawal_covered s from who amount fee).

  Lemma withdraw_moves A : total_balance A < two256 ->
    (if who =? from then amount + fee <= bal A who else amount <= bal A who /\ fee <= bal A from) ->
    exists A', moves (payments (AWithdraw from who amount auctioneer fee)) A A'.
  Proof.
    intros Htot Hc. eexists. cbn [payments].
    assert (H1 : amount <= bal A who) by (destruct (who =? from); lia).
    assert (H2 : fee <= bal (m_debit who amount A) from).
    { rewrite bal_debit. destruct (N.eqb_spec who from); subst; lia. }
    pose proof (total_debit who amount A H1) as Ht1.
    pose proof (total_debit from fee _ H2) as Ht2.
    pose proof (bal_le_total (m_debit from fee (m_debit who amount A)) auctioneer) as Ht3.
    apply moves_pay; [exact H1|]. apply moves_pay; [exact H2|]. apply moves_receive; [lia|constructor].
  Qed.

  Lemma withdraw_runs : exists l', spec_run E (contents s) [TxWithdraw w]
    [ResOk (Some (RWithdraw (OffchainReceipt StCompleted (WithdrawAction who amount))))] l'.
  Proof.
    destruct (run_inv E L sha verify domain v0 log v Hrun Hhash) as [Hinv _]. fold s in Hinv.
    pose proof (sy_funds _ _ _ _ _ _ Hinv) as Hfunds.
    destruct (withdraw_moves (accounts s)) as [A' HA']; [change two256 with (2 ^ 256); lia|exact Hcov|].
    eexists. econstructor; [|constructor].
    apply (step_withdraw E (contents s) w body from who amount auctioneer fee A'); assumption.
  Qed.

  Lemma withdraw_places : places_differ E [TxWithdraw w].
  Proof.
    intros t1 t2 a b H1 H2. apply elem_of_list_singleton in H1 as ->. apply elem_of_list_singleton in H2 as ->.
    intros (b1 & w1 & S1 & ->) (b2 & w2 & S2 & ->) _. destruct (signed_by_fun _ _ _ _ _ _ _ _ S1 S2) as [-> ->].
    reflexivity.
  Qed.

  Lemma withdraw_typed : is_address who /\ is_word amount.
  Proof.
    destruct Hok as [[Hb _] _ _ _ Hw Ha _ _ _ _]. split.
    - destruct (Hty body Hb) as (_ & [Hacc _] & _).
      unfold as_address in Hw. destruct (Nat.eqb_spec (length (wb_account body)) 20) as [Hl|]; [|discriminate].
      injection Hw as <-. pose proof (from_be_lt (wb_account body) Hacc) as Hlt. rewrite Hl in Hlt. exact Hlt.
    - exact (parse_u256_lt E (sr_env _ _ _ _ _ _ _ _ Hrun) _ _ Ha).
  Qed.

  Lemma withdraw_provable timestamp : exists s',
    stf_main E (recorded_input E s [TxWithdraw w] timestamp) =
      Some (StepPv (va_root v) (full_root E s') timestamp [withdrawal_done who amount]).
  Proof.
    destruct withdraw_runs as [l' Hspec].
    destruct (batch_provable E L sha verify domain v0 v log Hrun Hhash [TxWithdraw w] timestamp _ l'
      ltac:(constructor; [exact Hty|constructor]) withdraw_places Hspec) as (s' & _ & _ & Hm).
    exists s'. cbn [batch_receipts map] in Hm. rewrite withdrawal_receipt in Hm. exact Hm.
  Qed.

  Lemma withdraw_settles timestamp p x proof :
    is_u64 timestamp -> stf_main E (recorded_input E s [TxWithdraw w] timestamp) = Some p ->
    N.of_nat (length (abi_step p)) < 2 ^ 256 -> verify (sha (abi_step p)) = true ->
    collision_free (keccak E) (log_strings E (full_new E domain)
      (log ++ [LAccepted x (CStep (abi_step p) proof) [recorded_input E s [TxWithdraw w] timestamp]])) ->
    is_address (cx_sender x) -> step_allowed L x (abi_step p) proof p v ->
    va_block v + 1 < 2 ^ 64 -> N.of_nat (length (created log)) < 2 ^ 64 - 1 ->
    who <> 0 -> (cx_is_prover x who = true -> cx_vault_accepts x who amount = true) ->
    exists v', l1_transact L x (CStep (abi_step p) proof) v = (v', None) /\
      settled_run E L sha verify domain v0
        (log ++ [LAccepted x (CStep (abi_step p) proof) [recorded_input E s [TxWithdraw w] timestamp]]) v' /\
      forall a, tk_balance (va_prove v') a + (if a =? le_self L then amount else 0)
        = tk_balance (va_prove v) a + (if (if cx_is_prover x who then le_iprove L else who) =? a then amount else 0).
  Proof.
    intros Ht Hp Hsize Hv Hc Hx Hal Hb Hlen Hwho Hvault.
    assert (Htys : Forall typed_tx [TxWithdraw w]) by (constructor; [exact Hty|constructor]).
    destruct withdraw_runs as [l' Hspec]. destruct withdraw_typed as [Hwa Haw].
    destruct (withdraw_provable timestamp) as [s' Hm].
    pose proof (f_equal (from_option pv_receipts []) (eq_trans (eq_sym Hp) Hm)) as Hrc. cbn [from_option pv_receipts] in Hrc.
    destruct (batch_settles E L sha verify domain v0 v log Hrun Hhash [TxWithdraw w] timestamp
      [ResOk (Some (RWithdraw (OffchainReceipt StCompleted (WithdrawAction who amount))))] l' p x proof
      Htys withdraw_places Hspec Ht Hp Hsize Hv Hc Hx Hal Hb Hlen)
      as (v' & Hacc & Hset & _ & Hpay).
    - constructor; [exact I|constructor].
    - rewrite Hrc. now apply withdrawal_receivable.
    - exists v'. split; [exact Hacc|]. split; [exact Hset|]. intros a. specialize (Hpay a).
      rewrite Hrc in Hpay. rewrite (withdrawal_paid L x who amount Hwa Haw), (withdrawal_received L x a who amount Hwa Haw) in Hpay.
      exact Hpay.
  Qed.
End withdraw.
