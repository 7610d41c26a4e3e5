(** The proofs of the theorems and examples of [Props_Ledger.v]. *)
From Verif Require Export LedgerFacts Toy.
From Coq Require Import ZifyBool ZifyN ZifyNat.
Open Scope N_scope.

Lemma short_id_index a b : request_index a = request_index b <-> short_id a = short_id b.
Proof.
  split; [|intros H; unfold short_id in H; unfold request_index; now rewrite H].
  apply from_be_inj; try (apply bytes_ok_take, be_bytes_ok).
  unfold short_id. now rewrite !take_length, !be_bytes_length.
Qed.

Local Opaque request_index.

Lemma main_history : history toy_env world1 main_events world2.
Proof. apply run_txs_history. Qed.

Lemma main_no_panic : no_panic main_events.
Proof. apply no_panicb_ok. vm_compute. reflexivity. Qed.

Lemma C01_funds_conserved_proof E s evs s' :
  forall (Hhistory : history E s evs s') (Hnopanic : no_panic evs),
  total_balance (accounts s') + sum (withdrawn E) (txs_of evs)
  = total_balance (accounts s) + sum deposited (txs_of evs).
Proof.
  intros Hh Hn. apply history_contents in Hh.
  change (accounts s) with (vs_accounts (contents s)).
  change (accounts s') with (vs_accounts (contents s')).
  pattern (contents s), (txs_of evs), (contents s').
  eapply map_history_steps; [| |exact Hh|exact Hn]; clear.
  - intros s. reflexivity.
  - intros s t r s1 l s' Hstep IH. apply step_total in Hstep.
    cbn [sum fold_right]. fold (sum (withdrawn E) l). fold (sum deposited l). lia.
Qed.

Lemma C02_balances_exact_proof E s t s' o :
  forall (Happlied : execute_full E t s = (s', ResOk o)),
  (exists a, asks E (accounts s) t a) /\
  forall a, asks E (accounts s) t a ->
  forall who, Z.of_N (bal (accounts s') who) = (Z.of_N (bal (accounts s) who) + net (payments a) who)%Z.
Proof.
  intros H. apply execute_full_sound in H; [|now cbn]. apply step_asks in H as (a & Ha & Hb).
  split; [now exists a|]. intros a' Ha' who. rewrite (asks_fun _ _ _ _ _ Ha' Ha). apply Hb.
Qed.

Lemma C02_example_proof :
  (exists s', execute_full toy_env clear1 world1 = (s', ResOk None)) /\
  asks toy_env (accounts world1) clear1 (AClear alice treasury1 prover1 owner1 207 1000) /\
  map (net (payments (AClear alice treasury1 prover1 owner1 207 1000))) [alice; prover1; owner1; bob]
  = [-207; 20; 187; 0]%Z.
Proof.
  split; [apply exec_by; vm_compute; reflexivity|]. split; [|vm_compute; reflexivity].
  assert (Hp : acct (accounts world1) prover1 = Account 0 owner1 owner1 1000)
    by (vm_compute; reflexivity).
  replace owner1 with (acc_owner (acct (accounts world1) prover1)) at 1 by (rewrite Hp; reflexivity).
  replace 1000 with (acc_bips (acct (accounts world1) prover1)) by (rewrite Hp; reflexivity).
  change 207 with (2 * 100 + 7).
  unfold clear1, tx_clear.
  eapply asks_clear with (request := request1) (bid := bid_msg (req_id alice request1) 2 prover1)
    (execute := executed_msg (req_id alice request1) 100); first [toy_signed|vm_compute; reflexivity].
Qed.

Lemma map_history_flag E s l s' i :
  map_history E s l s' -> vs_transactions s !! i = Some true -> vs_transactions s' !! i = Some true.
Proof.
  induction 1 as [|s t r s1 l s' Hx _ IH]; [auto|]. intros Hi. apply IH.
  apply execute_map_tame in Hx. apply Hx. exact Hi.
Qed.

Lemma consumes_signed E s t s' r who bs :
  lstep E s t s' r -> consumes E t who bs ->
  unused (vs_transactions s) (message_id E who bs) /\
  vs_transactions s' = <[request_index (message_id E who bs) := true]> (vs_transactions s) /\
  vs_onchain_tx_id s' = vs_onchain_tx_id s /\ vs_onchain_block s' = vs_onchain_block s /\
  vs_onchain_log_index s' = vs_onchain_log_index s.
Proof.
  intros Hs Hc. apply step_kind in Hs. destruct t; try (inversion Hc; fail);
    destruct Hs as (w0 & b0 & Hc' & H); destruct (consumes_fun _ _ _ _ _ _ Hc Hc') as [-> ->]; exact H.
Qed.

Lemma C03_message_once_proof E s t s1 r evs s2 t' s3 r' who bs :
  forall (Hfirst : execute_full E t s = (s1, r)) (Hnopanic : ~ is_panic r)
    (Hmessage : consumes E t who bs)
    (Hlater : history E s1 evs s2)
    (Hsame : consumes E t' who bs)
    (Hagain : execute_full E t' s2 = (s3, r')),
  is_panic r'.
Proof.
  intros H1 Hn Hc Hh Hc' H2.
  apply execute_full_sound in H1; [|exact Hn].
  destruct (consumes_signed _ _ _ _ _ _ _ H1 Hc) as (_ & Hset & _).
  apply history_contents in Hh. eapply map_history_flag in Hh; [|rewrite Hset; apply lookup_insert].
  destruct r' as [o|v|e]; [| |exact I]; exfalso;
    (apply execute_full_sound in H2; [|now cbn]);
    destruct (consumes_signed _ _ _ _ _ _ _ H2 Hc') as (Hu & _); exact (Hu Hh).
Qed.

Lemma C03_example_proof :
  (exists s1, execute_full toy_env transfer1 world1 = (s1, ResOk None)) /\
  consumes toy_env transfer1 alice (encode_transfer (transfer_msg 1 bob 100 2)) /\
  consumes toy_env transfer1_again alice (encode_transfer (transfer_msg 1 bob 100 2)) /\
  transfer1 <> transfer1_again /\
  (exists s3 id, execute_full toy_env transfer1_again world2
                 = (s3, ResPanic (TransactionAlreadyProcessed id))).
Proof.
  split; [apply exec_by; vm_compute; reflexivity|].
  split; [apply consumes_transfer; toy_signed|]. split; [apply consumes_transfer; toy_signed|].
  split; [discriminate|].
  assert (H : exists id, (execute_full toy_env transfer1_again world2).2
                         = ResPanic (TransactionAlreadyProcessed id))
    by (eexists; vm_compute; reflexivity).
  destruct H as [id H]. apply exec_by in H as [s3 H]. exists s3, id. exact H.
Qed.

Lemma C04_revert_is_clean_proof E s t s' v :
  forall (Hreverted : execute_full E t s = (s', ResRevert v)),
  accounts s' = accounts s /\
  cursor s' = cursor s /\
  vs_domain s' = vs_domain s /\
  vs_tx_id s' = (vs_tx_id s + 1) mod 2 ^ 64 /\
  (exists who bs, consumes E t who bs /\
     ~ processed E s (message_id E who bs) /\ processed E s' (message_id E who bs) /\
     forall id, short_id id <> short_id (message_id E who bs) -> processed E s' id <-> processed E s id) /\
  (exists who required,
     revert_data v = (who, required, bal (accounts s) who) /\ bal (accounts s) who < required).
Proof.
  intros H. pose proof H as Hx. apply execute_full_sound in H; [|now cbn].
  pose proof (step_revert _ _ _ _ _ H) as [Ha Hr]. pose proof (step_meta _ _ _ _ _ H) as [Hd Ht].
  assert (Hcons : exists who bs, consumes E t who bs).
  { apply step_kind in H. destruct t; try (destruct H as (w0 & b0 & Hc & _); eauto; fail);
      destruct H as (_ & _ & _ & _ & _ & o & Ho); discriminate. }
  destruct Hcons as (who & bs & Hc).
  destruct (consumes_signed _ _ _ _ _ _ _ H Hc) as (Hu & Hf & H1 & H2 & H3).
  cbn [contents vs_accounts vs_domain vs_tx_id vs_transactions vs_onchain_tx_id vs_onchain_block
    vs_onchain_log_index] in *.
  split; [exact Ha|]. split; [unfold cursor; congruence|]. split; [exact Hd|]. split; [exact Ht|].
  split; [|exact Hr].
  exists who, bs. unfold processed, merkle_get_untracked. cbn [request_tree tc_index].
  split; [exact Hc|]. split; [exact Hu|]. rewrite Hf. split; [apply lookup_insert|].
  intros id Hid. rewrite lookup_insert_ne; [reflexivity|]. intros He. apply Hid.
  symmetry. now apply short_id_index.
Qed.

Lemma C05_counter_proof E s evs s' :
  forall (Hhistory : history E s evs s') (Hu64 : vs_tx_id s < 2 ^ 64),
  vs_tx_id s' = (vs_tx_id s + sum counted (txs_of evs)) mod 2 ^ 64.
Proof.
  intros Hh. apply history_contents in Hh.
  change (vs_tx_id s) with (vs_tx_id (contents s)). change (vs_tx_id s') with (vs_tx_id (contents s')).
  revert Hh. generalize (contents s) (txs_of evs) (contents s'). clear.
  induction 1 as [s|s t r s1 l s' Hx _ IH]; intros Hu.
  - cbn [sum fold_right]. rewrite N.add_0_r, N.mod_small; [reflexivity|exact Hu].
  - cbn [sum fold_right]. fold (sum counted l).
    apply execute_map_tame in Hx as (_ & Hp & Hn & _).
    destruct r as [o|v|e]; cbn [counted snd is_panic] in *.
    + specialize (Hn ltac:(tauto)). rewrite Hn in IH.
      rewrite IH by (unfold next_u64; apply N.mod_lt; discriminate).
      unfold next_u64. change two64 with (2 ^ 64). rewrite N.add_mod_idemp_l by discriminate.
      f_equal. lia.
    + specialize (Hn ltac:(tauto)). rewrite Hn in IH.
      rewrite IH by (unfold next_u64; apply N.mod_lt; discriminate).
      unfold next_u64. change two64 with (2 ^ 64). rewrite N.add_mod_idemp_l by discriminate.
      f_equal. lia.
    + specialize (Hp I). rewrite Hp in IH. rewrite IH by exact Hu. f_equal.
Qed.

Lemma C05_example_proof :
  exists evs s', history toy_env world1 evs s' /\ vs_tx_id world1 = 5 /\ length (txs_of evs) = 11%nat /\
    sum counted (txs_of evs) = 10 /\ vs_tx_id s' = 15.
Proof.
  exists (run_txs toy_env (main_txs ++ [transfer1_again]) world1).1.
  exists (run_txs toy_env (main_txs ++ [transfer1_again]) world1).2.
  split; [apply run_txs_history|]. vm_compute. auto.
Qed.

Lemma consecutive_mod n : forall i, consecutive (i mod 2 ^ 64) n = consecutive i n.
Proof.
  induction n as [|n IH]; intros i; cbn [consecutive]; [reflexivity|].
  rewrite N.mod_mod by discriminate. f_equal.
  rewrite <- (IH (i mod 2 ^ 64 + 1)), <- (IH (i + 1)). f_equal.
  apply N.add_mod_idemp_l. discriminate.
Qed.

Lemma C06_onchain_order_proof E s evs s' :
  forall (Hhistory : history E s evs s') (Hnopanic : no_panic evs)
    (Hu64 : vs_onchain_tx_id s < 2 ^ 64),
  let applied := onchain_applied (txs_of evs) in
  let position (s : full_state) := (vs_onchain_block s, vs_onchain_log_index s) in
  let positions := map (fun x => (x.1.2, x.2)) applied in
  map (fun x => x.1.1) applied = consecutive (vs_onchain_tx_id s) (length applied) /\
  ascending (position s) positions /\
  vs_onchain_tx_id s' = (vs_onchain_tx_id s + N.of_nat (length applied)) mod 2 ^ 64 /\
  position s' = last_or (position s) positions.
Proof.
  intros Hh Hn Hu. apply history_contents in Hh. cbv beta zeta.
  change (vs_onchain_tx_id s) with (vs_onchain_tx_id (contents s)) in *.
  change (vs_onchain_block s) with (vs_onchain_block (contents s)) in *.
  change (vs_onchain_log_index s) with (vs_onchain_log_index (contents s)) in *.
  change (vs_onchain_tx_id s') with (vs_onchain_tx_id (contents s')) in *.
  change (vs_onchain_block s') with (vs_onchain_block (contents s')) in *.
  change (vs_onchain_log_index s') with (vs_onchain_log_index (contents s')) in *.
  revert Hu. pattern (contents s), (txs_of evs), (contents s').
  eapply map_history_steps; [| |exact Hh|exact Hn]; clear.
  - intros s Hu. cbn. rewrite N.add_0_r, N.mod_small; auto.
  - intros s t r s1 l s' Hstep IH Hu. apply step_kind in Hstep.
    assert (Hon : forall A (d : onchain A),
      next_onchain s d -> vs_onchain_tx_id s1 = next_u64 (vs_onchain_tx_id s) ->
      vs_onchain_block s1 = oc_block d -> vs_onchain_log_index s1 = oc_log_index d ->
      let ap := (oc_tx d, oc_block d, oc_log_index d) :: onchain_applied l in
      map (fun x => x.1.1) ap = consecutive (vs_onchain_tx_id s) (length ap) /\
      ascending (vs_onchain_block s, vs_onchain_log_index s) (map (fun x => (x.1.2, x.2)) ap) /\
      vs_onchain_tx_id s' = (vs_onchain_tx_id s + N.of_nat (length ap)) mod 2 ^ 64 /\
      (vs_onchain_block s', vs_onchain_log_index s')
      = last_or (vs_onchain_block s, vs_onchain_log_index s) (map (fun x => (x.1.2, x.2)) ap)).
    { intros A d [Hid Hpos] Ht Hb Hl ap. subst ap. rewrite Ht, Hb, Hl in IH.
      specialize (IH ltac:(unfold next_u64; apply N.mod_lt; discriminate)).
      destruct IH as (I1 & I2 & I3 & I4).
      cbn [map length fst snd consecutive ascending last_or].
      split; [|split; [|split]].
      - rewrite Hid, N.mod_small by exact Hu. f_equal. rewrite I1. unfold next_u64.
        change two64 with (2 ^ 64). apply consecutive_mod.
      - split; [|exact I2]. destruct Hpos as [Hp|[Hp1 Hp2]]; [left; exact Hp|right; split; [exact Hp1|exact Hp2]].
      - rewrite I3. unfold next_u64. change two64 with (2 ^ 64).
        rewrite N.add_mod_idemp_l by discriminate. f_equal. lia.
      - exact I4. }
    destruct t as [d|c|d|t|c|w]; cbn [onchain_applied];
      try (destruct Hstep as (w0 & b0 & _ & _ & _ & H1 & H2 & H3); rewrite H1, H2, H3 in IH;
           exact (IH Hu));
      destruct Hstep as (H1 & H2 & H3 & H4 & _ & o & ->); apply Hon; assumption.
Qed.

Lemma C06_example_proof :
  let evs := (run_txs toy_env (setup_txs ++ main_txs) world0).1 in
  history toy_env world0 evs (run_txs toy_env (setup_txs ++ main_txs) world0).2 /\ no_panic evs /\
  onchain_applied (txs_of evs) = [(1, 100, 0); (2, 100, 3); (3, 101, 0); (4, 105, 1); (5, 105, 2)].
Proof.
  split; [apply run_txs_history|]. split; [apply no_panicb_ok|]; vm_compute; reflexivity.
Qed.

Lemma C07_authorised_proof E s t s' r who :
  forall (Hrun : execute_full E t s = (s', r)) (Hnopanic : ~ is_panic r)
    (Hless : bal (accounts s') who < bal (accounts s) who),
  (exists m body amount fee, t = TxTransfer m /\
     signed_by E encode_transfer (json_transfer E) m body who /\
     parse_u256 E (tb_amount body) = Some amount /\ parse_u256 E (tb_fee body) = Some fee /\
     drops_at_most s s' who (amount + fee)) \/
  (exists m body fee, t = TxDelegate m /\
     signed_by E encode_delegation (json_delegation E) m body who /\
     parse_u256 E (db_fee body) = Some fee /\ drops_at_most s s' who fee) \/
  (exists m body account amount fee, t = TxWithdraw m /\
     signed_by E encode_withdraw (json_withdraw E) m body who /\
     as_address (wb_account body) = Some account /\
     parse_u256 E (wb_amount body) = Some amount /\ parse_u256 E (wb_fee body) = Some fee /\
     drops_at_most s s' who (if account =? who then amount + fee else fee)) \/
  (exists m body signer amount, t = TxWithdraw m /\
     signed_by E encode_withdraw (json_withdraw E) m body signer /\
     as_address (wb_account body) = Some who /\
     acc_owner (acct (accounts s) who) <> 0 /\
     parse_u256 E (wb_amount body) = Some amount /\
     r = ResOk (Some (RWithdraw (OffchainReceipt StCompleted (WithdrawAction who amount)))) /\
     drops_at_most s s' who amount) \/
  (exists c request base_fee max_price, t = TxClear c /\
     signed_by E encode_request (json_request E) (cl_request c) request who /\
     parse_u256 E (rb_base_fee request) = Some base_fee /\
     parse_u256 E (rb_max_price_per_pgu request) = Some max_price /\
     drops_at_most s s' who (base_fee + max_price * rb_gas_limit request)).
Proof.
  intros Hrun Hn Hless. apply execute_full_sound in Hrun; [|exact Hn].
  unfold drops_at_most.
  change (accounts s) with (vs_accounts (contents s)) in *.
  change (accounts s') with (vs_accounts (contents s')) in *.
  revert Hrun Hless. generalize (contents s'). intros l' Hrun Hless.
  inversion Hrun as [d A' Hno Hm|c Hno act|d body owner prover auct fee Hok Hlt
    |d body owner prover auct fee dg A' Hok Hle Hdg Hm|m body from to amount auct fee Hok Hlt
    |m body from to amount auct fee A' Hok Hle Hm|w body from acc amount auct fee payer req Hok Hsh
    |w body from acc amount auct fee A' Hok Hle Hm|c x settle bidder auct exe pa pun Hca Hp Hlt
    |c x settle bidder auct exe pa pun tr A' Hca Hp Hle Htr Hm
    |c x settle bidder auct exe pa f body signer pvh pgus Hca Hf Hz Hlt
    |c x settle bidder auct exe pa f body signer pvh pgus tr A' Hca Hf Hz Hle Htr Hb Hfit Hm];
    subst t r l'; cbn [after_onchain after_signed vs_accounts] in *;
    try lia;
    try (pose proof (moves_net _ _ _ who Hm) as Hnet; unfold net in Hnet;
         cbn [payments fold_right payment_delta] in Hnet).
  - destruct (da_account (oc_action d) =? who); lia.
  - rewrite bal_insert in Hless. subst act.
    destruct (N.eqb_spec (cp_prover (oc_action c)) who); subst; cbn [acc_balance] in *; lia.
  - right; left. destruct Hok. exists d, body, fee.
    rewrite bal_insert in *. cbn [acc_balance] in *.
    assert (Hbal : (if prover =? who then bal A' prover else bal A' who)
                   = bal A' who) by (destruct (N.eqb_spec prover who); subst; reflexivity).
    rewrite Hbal in *.
    destruct (N.eqb_spec owner who); [subst owner|destruct (auct =? who); lia].
    repeat (split; [first [reflexivity|assumption]|]). destruct (auct =? who); lia.
  - left. destruct Hok. exists m, body, amount, fee.
    destruct (N.eqb_spec from who); [subst from|destruct (to =? who), (auct =? who); lia].
    repeat (split; [first [reflexivity|assumption]|]). destruct (to =? who), (auct =? who); lia.
  - right; right. destruct Hok.
    destruct (N.eqb_spec from who) as [Hfr|Hfr].
    + subst from. left. exists w, body, acc, amount, fee.
      repeat (split; [first [reflexivity|assumption]|]).
      destruct (acc =? who), (auct =? who); lia.
    + right; left. exists w, body, from, amount.
      destruct (N.eqb_spec acc who); [subst acc|destruct (auct =? who); lia].
      split; [reflexivity|]. split; [assumption|]. split; [assumption|].
      split; [destruct wk_allowed; [congruence|assumption]|].
      repeat (split; [first [reflexivity|assumption]|]). destruct (auct =? who); lia.
  - right; right; right; right. destruct Hca, Hp.
    exists c, (cc_request x), (cc_base_fee x), (cc_max_price x).
    destruct (N.eqb_spec (cc_requester x) who) as [Hr|]; [rewrite Hr in *|destruct (tr =? who); lia].
    repeat (split; [first [reflexivity|assumption]|]). destruct (tr =? who); lia.
  - right; right; right; right. destruct Hca, Hz.
    exists c, (cc_request x), (cc_base_fee x), (cc_max_price x).
    destruct (N.eqb_spec (cc_requester x) who) as [Hr|];
      [rewrite Hr in *|destruct (tr =? who), (cc_prover x =? who), (cc_prover_owner x =? who); lia].
    repeat (split; [first [reflexivity|assumption]|]).
    assert (Hc1 : clear_cost x pgus <= cc_base_fee x + cc_max_price x * rb_gas_limit (cc_request x)).
    { unfold clear_cost. rewrite N.add_comm. apply N.add_le_mono_l. now apply N.mul_le_mono. }
    destruct (tr =? who), (cc_prover x =? who), (cc_prover_owner x =? who); lia.
Qed.

Lemma C08_account_fields_proof E s t s' r a :
  forall (Hrun : execute_full E t s = (s', r)) (Hnopanic : ~ is_panic r),
  let old := acct (accounts s) a in
  let new := acct (accounts s') a in
  (acc_owner new <> acc_owner old \/ acc_bips new <> acc_bips old ->
   exists c o, t = TxCreateProver c /\ r = ResOk o /\ cp_prover (oc_action c) = a /\
     acc_owner new = cp_owner (oc_action c) /\ acc_signer new = cp_owner (oc_action c) /\
     acc_bips new = cp_bips (oc_action c)) /\
  (acc_signer new <> acc_signer old ->
   (exists c o, t = TxCreateProver c /\ r = ResOk o /\ cp_prover (oc_action c) = a /\
     acc_signer new = cp_owner (oc_action c)) \/
   (exists d body o, t = TxDelegate d /\ r = ResOk o /\
     signed_by E encode_delegation (json_delegation E) d body (acc_owner old) /\
     as_address (db_prover body) = Some a /\
     as_address (db_delegate body) = Some (acc_signer new))).
Proof.
  intros Hrun Hn. apply execute_full_sound in Hrun; [|exact Hn]. cbn zeta.
  pose proof (step_fields _ _ _ _ _ a Hrun) as Hf. cbn zeta in Hf.
  change (vs_accounts (contents s)) with (accounts s) in Hf.
  change (vs_accounts (contents s')) with (accounts s') in Hf.
  destruct t as [d|c|d|t|c|w];
    try (destruct Hf as (Ho & Hb & Hs); rewrite Ho, Hb, Hs; split; [intros [?|?]|intros ?]; congruence).
  - apply step_kind in Hrun. destruct Hrun as (_ & _ & _ & _ & _ & o & ->).
    destruct (N.eqb_spec (cp_prover (oc_action c)) a).
    + rewrite Hf. cbn [acc_owner acc_bips acc_signer]. split.
      * intros _. exists c, o. auto 10.
      * intros _. left. exists c, o. auto.
    + rewrite Hf. split; [intros [?|?]|intros ?]; congruence.
  - destruct Hf as (Ho & Hb & Hs). split; [rewrite Ho, Hb; intros [?|?]; congruence|].
    intros Hne. destruct Hs as [?|(body & H1 & H2 & H3 & o & ->)]; [congruence|].
    right. exists d, body, o. auto.
Qed.

Lemma C09_clear_requires_signatures_proof E s c s' r execute :
  forall (Hrun : execute_full E (TxClear c) s = (s', r)) (Hnopanic : ~ is_panic r)
    (Hreport : s_body (cl_execute c) = Some execute)
    (Hsuccess : eb_execution_status execute <> 3%Z),
  exists request requester bid bidder settle auctioneer executor fm fulfill fulfiller prover pa pvh,
    let id := be_bytes 32 (message_id E requester (encode_request request)) in
    (* five signed messages *)
    signed_by E encode_request (json_request E) (cl_request c) request requester /\
    signed_by E encode_bid (json_bid E) (cl_bid c) bid bidder /\
    signed_by E encode_settle (json_settle E) (cl_settle c) settle auctioneer /\
    signed_by E encode_execute (json_execute E) (cl_execute c) execute executor /\
    cl_fulfill c = Some fm /\
    signed_by E encode_fulfill (json_fulfill E) fm fulfill fulfiller /\
    (* of the right types *)
    (rb_variant request, bb_variant bid, sb_variant settle, eb_variant execute, fb_variant fulfill)
      = (0, 1, 2, 3, 4)%Z /\
    (* for this ledger *)
    Forall (fun d => as_word d = Some (vs_domain s))
      [rb_domain request; bb_domain bid; sb_domain settle; eb_domain execute; fb_domain fulfill] /\
    (* about the same request, which is new *)
    Forall (fun x => x = id)
      [bb_request_id bid; sb_request_id settle; eb_request_id execute; fb_request_id fulfill] /\
    ~ processed E s (message_id E requester (encode_request request)) /\
    (* by the designated parties *)
    as_address (bb_prover bid) = Some prover /\
    accounts s !! prover = Some pa /\ acc_signer pa = bidder /\
    as_address (rb_auctioneer request) = Some auctioneer /\
    as_address (rb_executor request) = Some executor /\
    (rb_whitelist request = [] \/ be_bytes 20 prover ∈ rb_whitelist request) /\
    (* with a successful execution and a proof *)
    eb_execution_status execute = 2%Z /\
    eb_public_values_hash execute = Some pvh /\
    (forall h, rb_public_values_hash request = Some h -> h = pvh) /\
    length pvh = 32%nat /\ length (rb_vk_hash request) = 32%nat /\
    (* checked by the circuit itself for compressed proofs of version 6 (mode 2), and vouched for by
       the verifier the requester named in the other cases (3 is Plonk, 4 is Groth16) *)
    ((is_sp1_v6 (rb_version request) /\ rb_mode request = 2%Z /\
      sp1_verify E (vk_words (rb_vk_hash request)) pvh = true) \/
     ((rb_mode request = 4%Z \/ rb_mode request = 3%Z \/
       (rb_mode request = 2%Z /\ ~ is_sp1_v6 (rb_version request))) /\
      exists sig verifier, cl_verify c = Some sig /\
        ecrecover E (be_bytes 32 (message_id E fulfiller (encode_fulfill fulfill))) sig = Some verifier /\
        as_address (rb_verifier request) = Some verifier)).
Proof.
  intros Hrun Hn Hrep Hs. apply execute_full_sound in Hrun; [|exact Hn].
  assert (Hcl : exists x settle bidder auct exe pa f body signer pvh,
    clear_authorised E (vs_domain s) (accounts s) (flags s) c x settle bidder auct exe pa /\
    clear_fulfilled E (vs_domain s) c x f body signer pvh).
  { inversion Hrun; subst;
      repeat match goal with H : clear_punishable _ _ _ |- _ => destruct H end;
      repeat match goal with H : clear_authorised _ _ _ _ _ ?x _ _ _ _ _ |- _ =>
        lazymatch goal with
        | _ : cc_execute x = execute |- _ => fail
        | _ => assert (cc_execute x = execute) by (destruct H as [_ _ _ [Hb _]]; congruence)
        end end;
      try congruence;
      do 10 eexists; split; eassumption. }
  destruct Hcl as (x & settle & bidder & auct & exe & pa & f & body & signer & pvh & Hca & Hcf).
  destruct Hca, Hcf. pose proof ca_execute as [Hb _]. assert (cc_execute x = execute) as <- by congruence.
  exists (cc_request x), (cc_requester x), (cc_bid x), bidder, settle, auct, exe, f, body, signer,
    (cc_prover x), pa, pvh. cbn zeta. rewrite <- ca_id.
  repeat (split; [first [assumption
    | repeat constructor; assumption
    | cbn [variant_tag] in *; congruence]|]).
  destruct cf_proof as [H|[H1 H2]]; [left; exact H|right]. split; [|exact H2].
  destruct H1 as [[? ?]|[?|?]]; auto.
Qed.

Lemma C10_requester_maximum_proof E s c s' o request requester :
  forall (Happlied : execute_full E (TxClear c) s = (s', ResOk o))
    (Hrequest : signed_by E encode_request (json_request E) (cl_request c) request requester),
  exists base_fee max_price,
    parse_u256 E (rb_base_fee request) = Some base_fee /\
    parse_u256 E (rb_max_price_per_pgu request) = Some max_price /\
    let maximum := base_fee + max_price * rb_gas_limit request in
    ((exists treasury punishment,
        asks E (accounts s) (TxClear c) (APunish requester treasury punishment) /\
        punishment <= maximum) \/
     (exists bid bidder execute executor price pgus treasury prover prover_owner bips,
        signed_by E encode_bid (json_bid E) (cl_bid c) bid bidder /\
        signed_by E encode_execute (json_execute E) (cl_execute c) execute executor /\
        parse_u256 E (bb_amount bid) = Some price /\ price <= max_price /\
        eb_pgus execute = Some pgus /\ pgus <= rb_gas_limit request /\
        asks E (accounts s) (TxClear c)
          (AClear requester treasury prover prover_owner (price * pgus + base_fee) bips) /\
        price * pgus + base_fee <= maximum)) /\
    bal (accounts s) requester <= bal (accounts s') requester + maximum.
Proof.
  intros Hrun Hreq. pose proof (C02_balances_exact_proof _ _ _ _ _ Hrun) as [_ Hbal].
  apply execute_full_sound in Hrun; [|now cbn].
  inversion Hrun as [| | | | | | | | |c0 x settle bidder auct exe pa pun tr A' Hca Hp Hle Htr Hm
    | |c0 x settle bidder auct exe pa f body signer pvh pgus tr A' Hca Hf Hz Hle Htr Hb Hfit Hm];
    subst c0; clear Hrun Hm.
  - destruct Hca, Hp as [Hst (str & Hs1 & Hs2) Hcap _].
    destruct (signed_by_fun _ _ _ _ _ _ _ _ Hreq ca_request) as [-> ->].
    exists (cc_base_fee x), (cc_max_price x). split; [assumption|]. split; [assumption|]. cbn zeta.
    assert (Ha : asks E (accounts s) (TxClear c) (APunish (cc_requester x) tr pun))
      by (eapply asks_punish; eassumption).
    split; [left; exists tr, pun; split; [exact Ha|lia]|].
    specialize (Hbal _ Ha (cc_requester x)). unfold net in Hbal.
    cbn [payments fold_right payment_delta] in Hbal. rewrite N.eqb_refl in Hbal.
    destruct (tr =? cc_requester x); lia.
  - destruct Hca, Hf, Hz.
    destruct (signed_by_fun _ _ _ _ _ _ _ _ Hreq ca_request) as [-> ->].
    exists (cc_base_fee x), (cc_max_price x). split; [assumption|]. split; [assumption|]. cbn zeta.
    assert (Ha : asks E (accounts s) (TxClear c) (AClear (cc_requester x) tr (cc_prover x)
      (acc_owner (acct (accounts s) (cc_prover x))) (cc_price x * pgus + cc_base_fee x)
      (acc_bips (acct (accounts s) (cc_prover x))))) by (eapply asks_clear; eassumption).
    assert (Hc1 : cc_price x * pgus + cc_base_fee x
                  <= cc_base_fee x + cc_max_price x * rb_gas_limit (cc_request x)).
    { rewrite N.add_comm. apply N.add_le_mono_l. now apply N.mul_le_mono. }
    split.
    + right. do 10 eexists. repeat (split; [eassumption|]). assumption.
    + specialize (Hbal _ Ha (cc_requester x)). unfold net in Hbal.
      cbn [payments fold_right payment_delta] in Hbal. rewrite N.eqb_refl in Hbal.
      destruct (tr =? cc_requester x), (cc_prover x =? cc_requester x),
        (acc_owner (acct (accounts s) (cc_prover x)) =? cc_requester x); lia.
Qed.

Lemma C11_fee_split_proof amount protocol_bips staker_bips protocol staker owner :
  forall (Hfee : fee amount protocol_bips staker_bips = Ok (protocol, staker, owner)),
  protocol = amount * protocol_bips / 10000 /\
  staker = amount * capped protocol_bips staker_bips / 10000 /\
  protocol + staker + owner = amount.
Proof.
  intros H. apply fee_inv_full in H as (Hp & Hs & _ & _ & H).
  apply pair_equal_spec in H as [H ->]. apply pair_equal_spec in H as [-> ->].
  split; [reflexivity|]. split; [reflexivity|].
  pose proof (fee_parts_le amount protocol_bips (capped protocol_bips staker_bips)) as Hle.
  unfold capped in *. lia.
Qed.

Lemma C11_fee_domain_proof amount protocol_bips staker_bips :
  forall (Hamount : amount < 2 ^ 256),
  (exists parts, fee amount protocol_bips staker_bips = Ok parts) <->
  (protocol_bips <= 10000 /\ staker_bips <= 10000 /\
   amount * protocol_bips < 2 ^ 256 /\ amount * capped protocol_bips staker_bips < 2 ^ 256).
Proof.
  intros _. split.
  - intros [parts H]. apply fee_inv_full in H as (H1 & H2 & H3 & H4 & _).
    exact (conj H1 (conj H2 (conj H3 H4))).
  - intros (H1 & H2 & H3 & H4). eexists. apply fee_inv_full.
    exact (conj H1 (conj H2 (conj H3 (conj H4 eq_refl)))).
Qed.

Lemma C12_receipts_proof E s evs s' :
  forall (Hhistory : history E s evs s') (Hnopanic : no_panic evs),
  receipts_of (txs_of evs) = receipts_due E (txs_of evs).
Proof.
  intros Hh Hn. apply history_contents in Hh.
  refine (map_history_steps E _ _ _ (fun _ l _ => receipts_of l = receipts_due E l) _ _ Hh Hn); clear.
  - reflexivity.
  - intros s t r s1 l s' Hstep IH. unfold receipts_due in *. cbn [flat_map receipts_of fst snd].
    destruct r as [o|v|e]; [|exact IH|exact IH].
    rewrite (step_receipt _ _ _ _ _ Hstep), <- IH. destruct o; reflexivity.
Qed.

Lemma C12_receipt_on_l1_proof E s t s' rc :
  forall (Happlied : execute_full E t s = (s', ResOk (Some rc))),
  let l1 := sol_of_receipt rc in
  sr_status l1 = StCompleted /\
  match t with
  | TxDeposit d => sr_variant l1 = VDeposit /\ sr_tx_id l1 = oc_tx d /\
      sr_action l1 = be_bytes 32 (da_account (oc_action d)) ++ be_bytes 32 (da_amount (oc_action d))
  | TxCreateProver c => sr_variant l1 = VCreateProver /\ sr_tx_id l1 = oc_tx c /\
      sr_action l1 = be_bytes 32 (cp_prover (oc_action c)) ++ be_bytes 32 (cp_owner (oc_action c)) ++
                     be_bytes 32 (cp_bips (oc_action c))
  | TxWithdraw _ => sr_variant l1 = VWithdraw /\ sr_tx_id l1 = 2 ^ 64 - 1 /\
      exists signer account amount auctioneer fee,
        asks E (accounts s) t (AWithdraw signer account amount auctioneer fee) /\
        sr_action l1 = be_bytes 32 account ++ be_bytes 32 amount
  | _ => False
  end.
Proof.
  intros Hrun. cbn zeta. pose proof (C02_balances_exact_proof _ _ _ _ _ Hrun) as [[a Ha] _].
  apply execute_full_sound in Hrun; [|now cbn].
  inversion Hrun; subst; (split; [reflexivity|]); try (split; [reflexivity|split; reflexivity]).
  split; [reflexivity|]. split; [reflexivity|].
  match goal with H : withdraw_ok _ _ _ _ _ _ _ _ _ |- _ => destruct H end.
  do 5 eexists. split; [eapply asks_withdraw; eassumption|reflexivity].
Qed.

Lemma C13_balances_fit_proof E s evs s' :
  forall (Hhistory : history E s evs s') (Hfits : forall a, bal (accounts s) a < 2 ^ 256),
  forall a, bal (accounts s') a < 2 ^ 256.
Proof.
  intros Hh. apply history_contents in Hh.
  change (accounts s) with (vs_accounts (contents s)).
  change (accounts s') with (vs_accounts (contents s')).
  revert Hh. generalize (contents s) (txs_of evs) (contents s'). clear.
  induction 1 as [s|s t r s1 l s' Hx _ IH]; [auto|]. intros Hb. apply IH.
  apply execute_map_tame in Hx. apply Hx. exact Hb.
Qed.

Lemma bounded_by_list (m : gmap N account) :
  forallb (fun ka => acc_balance ka.2 <? two256) (map_to_list m) = true ->
  forall a, bal m a < 2 ^ 256.
Proof.
  intros H a. rewrite forallb_forall in H. unfold bal, acct.
  destruct (m !! a) as [x|] eqn:Hx; [|reflexivity]. apply elem_of_map_to_list in Hx.
  apply elem_of_list_In, H in Hx. cbn in *. now apply N.ltb_lt.
Qed.

Lemma C13_no_wrap_proof E s t s' r a who :
  forall (Hrun : execute_full E t s = (s', r))
    (Hfits : forall a, bal (accounts s) a < 2 ^ 256)
    (Hasks : asks E (accounts s) t a)
    (Hbad : let exact := (Z.of_N (bal (accounts s) who) + net (payments a) who)%Z in
            (exact < 0 \/ 2 ^ 256 <= exact)%Z),
  (forall o, r <> ResOk o) /\ (forall d, t = TxDeposit d -> is_panic r).
Proof.
  intros Hrun Hfits Ha Hbad. cbn zeta in Hbad.
  assert (Hno : forall o, r <> ResOk o).
  { intros o ->. pose proof (C02_balances_exact_proof _ _ _ _ _ Hrun) as [_ Hb]. specialize (Hb a Ha who).
    assert (Hlt : bal (accounts s') who < 2 ^ 256).
    { eapply (C13_balances_fit_proof E s [EvTx t (ResOk o)] s'); [|exact Hfits].
      econstructor; [constructor; exact Hrun|constructor]. }
    lia. }
  split; [exact Hno|]. intros d ->.
  destruct r as [o|v|e]; [destruct (Hno o eq_refl)| |exact I].
  apply execute_full_sound in Hrun; [|now cbn]. inversion Hrun.
Qed.

Lemma C13_example_overflow_proof :
  let t := tx_deposit 5 106 0 alice (2 ^ 256 - 1) in
  (execute_full toy_env t world1).2 = ResPanic ArithmeticOverflow /\
  asks toy_env (accounts world1) t (ADeposit alice (2 ^ 256 - 1)) /\
  (2 ^ 256 <= Z.of_N (bal (accounts world1) alice)
             + net (payments (ADeposit alice (2 ^ 256 - 1))) alice)%Z.
Proof.
  split; [vm_compute; reflexivity|]. split; [apply asks_deposit|].
  vm_compute. discriminate.
Qed.

Lemma C14_signed_message_checked_proof E s t s' r :
  forall (Hrun : execute_full E t s = (s', r)) (Hnopanic : ~ is_panic r),
  match t with
  | TxDeposit _ | TxCreateProver _ => True
  | TxDelegate d => exists b, s_body d = Some b /\
      as_word (db_domain b) = Some (vs_domain s) /\ db_variant b = 5%Z
  | TxTransfer d => exists b, s_body d = Some b /\
      as_word (tb_domain b) = Some (vs_domain s) /\ tb_variant b = 6%Z
  | TxWithdraw d => exists b, s_body d = Some b /\
      as_word (wb_domain b) = Some (vs_domain s) /\ wb_variant b = 7%Z
  | TxClear c =>
      (exists b, s_body (cl_request c) = Some b /\
         as_word (rb_domain b) = Some (vs_domain s) /\ rb_variant b = 0%Z) /\
      (exists b, s_body (cl_bid c) = Some b /\
         as_word (bb_domain b) = Some (vs_domain s) /\ bb_variant b = 1%Z) /\
      (exists b, s_body (cl_settle c) = Some b /\
         as_word (sb_domain b) = Some (vs_domain s) /\ sb_variant b = 2%Z) /\
      (exists b, s_body (cl_execute c) = Some b /\
         as_word (eb_domain b) = Some (vs_domain s) /\ eb_variant b = 3%Z /\
         (eb_execution_status b = 3%Z \/
          exists f b', cl_fulfill c = Some f /\ s_body f = Some b' /\
            as_word (fb_domain b') = Some (vs_domain s) /\ fb_variant b' = 4%Z))
  end.
Proof.
  intros Hrun Hn. apply execute_full_sound in Hrun; [|exact Hn].
  revert Hrun. generalize (contents s'). intros l' Hrun.
  change (vs_domain s) with (vs_domain (contents s)).
  destruct Hrun; try exact I;
    try match goal with H : delegate_ok _ _ _ _ _ _ _ _ |- _ => destruct H as [[Hb _]]; eauto end;
    try match goal with H : transfer_ok _ _ _ _ _ _ _ _ _ |- _ => destruct H as [[Hb _]]; eauto end;
    try match goal with H : withdraw_ok _ _ _ _ _ _ _ _ _ |- _ => destruct H as [[Hb _]]; eauto end;
    match goal with H : clear_authorised _ _ _ _ _ _ _ _ _ _ _ |- _ =>
      destruct H as [[Hb1 _] [Hb2 _] [Hb3 _] [Hb4 _]] end;
    repeat (split; [eauto|]); exists (cc_execute x); repeat (split; [assumption|]);
    try match goal with H : clear_punishable _ _ _ |- _ => destruct H; left; assumption end;
    match goal with H : clear_fulfilled _ _ _ _ _ _ _ _ |- _ => destruct H as [_ ? [Hb5 _]] end;
    right; exists f, body; auto.
Qed.

Lemma C14_fulfil_ignored_when_punishing_proof :
  exists s' c f b, punish_foreign_fulfil = TxClear c /\ cl_fulfill c = Some f /\ s_body f = Some b /\
    as_word (fb_domain b) = Some 43 /\ vs_domain world1 = 42 /\ fb_variant b = 7%Z /\
    execute_full toy_env punish_foreign_fulfil world1 = (s', ResOk None).
Proof.
  destruct (exec_by toy_env punish_foreign_fulfil world1 (ResOk None)) as [s' Hs];
    [vm_compute; reflexivity|].
  exists s'. unfold punish_foreign_fulfil in *. cbn [punish1 tx_clear] in *.
  do 3 eexists. do 3 (split; [reflexivity|]). do 3 (split; [vm_compute; reflexivity|]).
  exact Hs.
Qed.

Lemma C27_marks_proof E s t s' r who bs :
  forall (Hrun : execute_full E t s = (s', r)) (Hnopanic : ~ is_panic r)
    (Hmessage : consumes E t who bs),
  forall id, processed E s' id <-> processed E s id \/ short_id id = short_id (message_id E who bs).
Proof.
  intros Hrun Hn Hc id. apply execute_full_sound in Hrun; [|exact Hn].
  destruct (consumes_signed _ _ _ _ _ _ _ Hrun Hc) as (_ & Hf & _).
  cbn [contents vs_transactions] in Hf.
  unfold processed, merkle_get_untracked. cbn [request_tree tc_index]. rewrite Hf, <- short_id_index.
  split.
  - intros [[-> _]|[_ H]]%lookup_insert_Some; auto.
  - intros [H|H].
    + destruct (decide (request_index (message_id E who bs) = request_index id)) as [->|Hne];
        [apply lookup_insert|now rewrite lookup_insert_ne].
    + rewrite H. apply lookup_insert.
Qed.

Lemma C27_blocks_proof E s t s' r who bs id :
  forall (Hrun : execute_full E t s = (s', r)) (Hmessage : consumes E t who bs)
    (Hprocessed : processed E s id) (Hsame : short_id id = short_id (message_id E who bs)),
  is_panic r.
Proof.
  intros Hrun Hc Hp Hs. apply short_id_index in Hs.
  unfold processed, merkle_get_untracked in Hp. cbn [request_tree tc_index] in Hp. rewrite Hs in Hp.
  destruct r as [o|v|e]; [| |exact I]; exfalso;
    (apply execute_full_sound in Hrun; [|now cbn]);
    destruct (consumes_signed _ _ _ _ _ _ _ Hrun Hc) as (Hu & _); exact (Hu Hp).
Qed.

Lemma C27_no_other_blocks_proof E s1 s2 t s1' r :
  forall (Hrun : execute_full E t s1 = (s1', r)) (Hnopanic : ~ is_panic r)
    (Haccounts : accounts s1 = accounts s2) (Hcursor : cursor s1 = cursor s2)
    (Hdomain : vs_domain s1 = vs_domain s2) (Hcounter : vs_tx_id s1 = vs_tx_id s2)
    (Hown : forall who bs, consumes E t who bs ->
       processed E s1 (message_id E who bs) <-> processed E s2 (message_id E who bs)),
  exists s2', execute_full E t s2 = (s2', r) /\ accounts s2' = accounts s1'.
Proof.
  intros Hrun Hn Ha Hc Hd Ht Hown. apply execute_full_sound in Hrun; [|exact Hn].
  assert (Hs2 : contents s2 = with_transactions (flags s2) (contents s1)).
  { unfold cursor in Hc. unfold contents, with_transactions, accounts, flags in *. cbn. congruence. }
  destruct (lstep_other_flags E (contents s1) t (contents s1') r (flags s2) Hrun) as (l & Hl & Hacc).
  { intros who bs Hcons. specialize (Hown _ _ Hcons). unfold unused.
    unfold processed, merkle_get_untracked in Hown. cbn [request_tree tc_index] in Hown.
    cbn [contents vs_transactions]. fold (flags s1). unfold flags. tauto. }
  rewrite <- Hs2 in Hl. apply execute_full_complete in Hl as (s2' & H & <-).
  exists s2'. split; [exact H|exact Hacc].
Qed.

Lemma C42_winner_irrelevant_proof E s c s' r settle auctioneer settlement2 settle2 :
  forall (Hrun : execute_full E (TxClear c) s = (s', r)) (Hnopanic : ~ is_panic r)
    (Hsettle : signed_by E encode_settle (json_settle E) (cl_settle c) settle auctioneer)
    (Hsettle2 : signed_by E encode_settle (json_settle E) settlement2 settle2 auctioneer)
    (Hid : sb_request_id settle2 = sb_request_id settle)
    (Hdomain : sb_domain settle2 = sb_domain settle)
    (Hvariant : sb_variant settle2 = sb_variant settle),
  let c2 := ClearTx (cl_request c) (cl_bid c) settlement2 (cl_execute c) (cl_fulfill c) (cl_verify c) in
  exists s2, execute_full E (TxClear c2) s = (s2, r) /\ contents s2 = contents s'.
Proof.
  intros Hrun Hn Hs Hs2 Hi Hd Hv c2. apply execute_full_sound in Hrun; [|exact Hn].
  apply execute_full_complete. eapply lstep_other_settlement; eassumption.
Qed.

Lemma C42_winner_paid_refuted_proof :
  exists E s c s' settle auctioneer bid bidder prover,
    execute_full E (TxClear c) s = (s', ResOk None) /\
    signed_by E encode_settle (json_settle E) (cl_settle c) settle auctioneer /\
    signed_by E encode_bid (json_bid E) (cl_bid c) bid bidder /\
    as_address (bb_prover bid) = Some prover /\
    bal (accounts s) prover < bal (accounts s') prover /\
    sb_winner settle <> bb_prover bid /\
    as_address (sb_winner settle) = Some mallory.
Proof.
  exists toy_env, world1.
  destruct (exec_by toy_env clear_wrong_winner world1 (ResOk None)) as [s' Hs];
    [vm_compute; reflexivity|].
  unfold clear_wrong_winner, tx_clear in Hs.
  eexists _, s', (settle_msg (req_id alice request1) mallory), auctioneer1,
    (bid_msg (req_id alice request1) 2 prover1), owner1, prover1.
  split; [exact Hs|]. split; [toy_signed|]. split; [toy_signed|].
  split; [vm_compute; reflexivity|]. split.
  - apply (f_equal fst) in Hs. cbn [fst] in Hs. rewrite <- Hs. vm_compute. reflexivity.
  - split; [vm_compute; discriminate|vm_compute; reflexivity].
Qed.

Lemma C43_monotone_proof E s evs s' :
  forall (Hhistory : history E s evs s'),
  (forall id, processed E s id -> processed E s' id) /\
  (forall a, is_Some (accounts s !! a) -> is_Some (accounts s' !! a)).
Proof.
  intros Hh. apply history_contents in Hh. split.
  - intros id. unfold processed, merkle_get_untracked. cbn [request_tree tc_index].
    exact (map_history_flag _ _ _ _ _ Hh).
  - intros a.
    change (accounts s) with (vs_accounts (contents s)).
    change (accounts s') with (vs_accounts (contents s')).
    revert Hh. generalize (contents s) (txs_of evs) (contents s'). clear.
    induction 1 as [s|s t r s1 l s' Hx _ IH]; [auto|]. intros Hb. apply IH.
    apply execute_map_tame in Hx. apply Hx. exact Hb.
Qed.

Lemma C43_flags_true_proof E s evs s' :
  forall (Hhistory : history E s evs s') (Hnopanic : no_panic evs)
    (Hstart : forall i b, flags s !! i = Some b -> b = true),
  forall i b, flags s' !! i = Some b -> b = true.
Proof.
  intros Hh Hn. apply history_contents in Hh.
  change (flags s) with (vs_transactions (contents s)).
  change (flags s') with (vs_transactions (contents s')).
  pattern (contents s), (txs_of evs), (contents s').
  eapply map_history_steps; [| |exact Hh|exact Hn]; clear.
  - auto.
  - intros s t r s1 l s' Hstep IH Hs. apply IH. intros i b. apply step_kind in Hstep.
    destruct t; try (destruct Hstep as (w0 & b0 & _ & _ & -> & _);
      intros [[_ <-]|[_ Hl]]%lookup_insert_Some; eauto; fail);
      destruct Hstep as (_ & _ & _ & _ & -> & _); eauto.
Qed.

Lemma C44_specification_proof E s t l r :
  lstep E (contents s) t l r <->
  exists s', execute_full E t s = (s', r) /\ contents s' = l /\ ~ is_panic r.
Proof.
  split.
  - intros H. pose proof (lstep_not_panic _ _ _ _ _ H). apply execute_full_complete in H as (s' & ? & ?).
    eauto.
  - intros (s' & H & <- & Hn). now apply execute_full_sound.
Qed.

Lemma C44_example_proof : exists l, lstep toy_env (contents world1) clear1 l (ResOk None).
Proof.
  destruct (exec_by toy_env clear1 world1 (ResOk None)) as [s' Hs]; [vm_compute; reflexivity|].
  exists (contents s'). apply C44_specification_proof. exists s'. split; [exact Hs|]. cbn. auto.
Qed.
