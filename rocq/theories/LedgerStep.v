(** The complete declarative description of a step of the ledger that does not panic, and the proof
    that [execute] on plain maps satisfies it. *)
From Verif Require Export Ledger.
From Coq Require Import ZifyBool ZifyN ZifyNat.
Open Scope N_scope.

(** ** Payments on maps *)

Lemma acct_insert m k a x : acct (<[k := a]> m) x = if k =? x then a else acct m x.
Proof.
  unfold acct. destruct (N.eqb_spec k x) as [->|Hne].
  - now rewrite lookup_insert.
  - now rewrite lookup_insert_ne.
Qed.

Lemma bal_insert m k a x : bal (<[k := a]> m) x = if k =? x then acc_balance a else bal m x.
Proof. unfold bal. rewrite acct_insert. now destruct (k =? x). Qed.

Lemma bal_credit m k x a : bal (m_credit k x m) a = bal m a + (if k =? a then x else 0).
Proof. unfold m_credit. rewrite bal_insert. destruct (N.eqb_spec k a); subst; cbn; lia. Qed.

Lemma bal_debit m k x a : bal (m_debit k x m) a = bal m a - (if k =? a then x else 0).
Proof. unfold m_debit. rewrite bal_insert. destruct (N.eqb_spec k a); subst; cbn; lia. Qed.

Lemma acct_credit m k x a :
  acct (m_credit k x m) a = set_balance (acct m a) (bal (m_credit k x m) a).
Proof.
  unfold m_credit. rewrite bal_insert, acct_insert. unfold bal.
  destruct (N.eqb_spec k a); subst; [reflexivity|]. now destruct (acct m a).
Qed.

Lemma acct_debit m k x a :
  acct (m_debit k x m) a = set_balance (acct m a) (bal (m_debit k x m) a).
Proof.
  unfold m_debit. rewrite bal_insert, acct_insert. unfold bal.
  destruct (N.eqb_spec k a); subst; [reflexivity|]. now destruct (acct m a).
Qed.

Lemma total_insert_fresh m k a :
  m !! k = None -> total_balance (<[k := a]> m) = acc_balance a + total_balance m.
Proof.
  intros H. unfold total_balance. rewrite map_fold_insert_L; [reflexivity| |exact H].
  intros. lia.
Qed.

Lemma total_insert m k a : total_balance (<[k := a]> m) + bal m k = total_balance m + acc_balance a.
Proof.
  unfold bal, acct. destruct (m !! k) as [b|] eqn:Hk; cbn.
  - rewrite <- (insert_delete m k b) at 2 by exact Hk.
    rewrite <- insert_delete_insert.
    rewrite !total_insert_fresh by apply lookup_delete. lia.
  - rewrite total_insert_fresh by exact Hk. lia.
Qed.

Lemma bal_le_total m k : bal m k <= total_balance m.
Proof.
  unfold bal, acct. destruct (m !! k) as [b|] eqn:Hk; cbn; [|lia].
  rewrite <- (insert_delete m k b) at 1 by exact Hk.
  rewrite total_insert_fresh by apply lookup_delete. lia.
Qed.

Lemma moves_net ps m m' a :
  moves ps m m' -> Z.of_N (bal m' a) = (Z.of_N (bal m a) + net ps a)%Z.
Proof.
  induction 1 as [m|k x ps m m' Hx _ IH|k x ps m m' Hx _ IH]; cbn [net fold_right payment_delta].
  - lia.
  - rewrite IH, bal_debit. unfold net. destruct (N.eqb_spec k a); subst; lia.
  - rewrite IH, bal_credit. unfold net. destruct (N.eqb_spec k a); subst; lia.
Qed.

Lemma total_credit k x m : total_balance (m_credit k x m) = total_balance m + x.
Proof.
  unfold m_credit. cbv zeta.
  match goal with |- context [<[k := ?a]> m] => pose proof (total_insert m k a) as H end.
  cbn in H. lia.
Qed.

Lemma total_debit k x m : x <= bal m k -> total_balance (m_debit k x m) + x = total_balance m.
Proof.
  unfold m_debit. intros Hx.
  cbv zeta. match goal with |- context [<[k := ?a]> m] => pose proof (total_insert m k a) as H end.
  cbn in H. lia.
Qed.

Lemma moves_total ps m m' :
  moves ps m m' -> Z.of_N (total_balance m') = (Z.of_N (total_balance m) + net_total ps)%Z.
Proof.
  induction 1 as [m|k x ps m m' Hx _ IH|k x ps m m' Hx _ IH]; cbn [net_total fold_right].
  - lia.
  - rewrite IH. unfold net_total. pose proof (total_debit k x m Hx). lia.
  - rewrite IH. unfold net_total. pose proof (total_credit k x m). lia.
Qed.

(** Payments change nothing but balances. *)
Lemma moves_fields ps m m' a :
  moves ps m m' -> acct m' a = set_balance (acct m a) (bal m' a).
Proof.
  induction 1 as [m|k x ps m m' Hx _ IH|k x ps m m' Hx _ IH].
  - unfold bal. now destruct (acct m a).
  - rewrite IH, acct_debit. reflexivity.
  - rewrite IH, acct_credit. reflexivity.
Qed.

Lemma moves_dom ps m m' a : moves ps m m' -> is_Some (m !! a) -> is_Some (m' !! a).
Proof.
  induction 1 as [m|k x ps m m' Hx _ IH|k x ps m m' Hx _ IH]; auto; intros Ha; apply IH.
  - unfold m_debit. apply lookup_insert_is_Some. destruct (decide (k = a)); auto.
  - unfold m_credit. apply lookup_insert_is_Some. destruct (decide (k = a)); auto.
Qed.

(** All balances fit 256 bits. *)
Definition bounded (m : gmap N account) : Prop := forall a, bal m a < two256.

Lemma moves_bounded ps m m' : moves ps m m' -> bounded m -> bounded m'.
Proof.
  induction 1 as [m|k x ps m m' Hx _ IH|k x ps m m' Hx _ IH]; auto; intros Hb; apply IH; intros a.
  - rewrite bal_debit. specialize (Hb a). lia.
  - rewrite bal_credit. specialize (Hb a). destruct (N.eqb_spec k a); subst; lia.
Qed.

(** ** Inversion of the programs *)

Lemma signed_by_intro {B} E (bin : B -> bytes) json (m : signed B) body fmt who :
  s_body m = Some body -> format_of_tag (s_format m) = Some fmt ->
  verify_signed_message E (bin body) (json body) (s_signature m) fmt = Ok who ->
  signed_by E bin json m body who.
Proof.
  intros Hb Hf Hv. split; [exact Hb|].
  assert (Hz : forall z, format_of_tag z = Some fmt ->
    z = match fmt with UnspecifiedFormat => 0 | BinaryFormat => 1 | JsonFormat => 2 end%Z).
  { intros z Hz. unfold format_of_tag in Hz.
    destruct z as [|[p|[p|p|]|]|p]; try discriminate; injection Hz as <-; reflexivity. }
  apply Hz in Hf.
  destruct fmt; cbn in Hv; try discriminate.
  - left. split; [exact Hf|]. unfold eth_sign_verify in Hv.
    destruct (ecrecover _ _ _); congruence.
  - right. split; [exact Hf|]. destruct (json body) as [js|]; [|discriminate].
    exists js. split; [reflexivity|]. unfold eth_sign_verify in Hv.
    destruct (ecrecover _ _ _); congruence.
Qed.

Ltac simp_state := cbn [with_accounts with_transactions with_cursor vs_domain vs_tx_id
  vs_onchain_tx_id vs_onchain_block vs_onchain_log_index vs_accounts vs_transactions] in *.

Lemma u256_add_ok a b c : u256_add a b = Ok c -> c = a + b /\ a + b < two256.
Proof.
  unfold u256_add. destruct (N.ltb_spec (a + b) two256); [|discriminate].
  intros [= <-]. auto.
Qed.
Lemma u256_sub_ok a b c : u256_sub a b = Ok c -> c = a - b /\ b <= a.
Proof.
  unfold u256_sub. destruct (N.leb_spec b a); [|discriminate]. intros [= <-]. auto.
Qed.
Lemma u256_mul_ok a b c : u256_mul a b = Ok c -> c = a * b /\ a * b < two256.
Proof.
  unfold u256_mul. destruct (N.ltb_spec (a * b) two256); [|discriminate].
  intros [= <-]. auto.
Qed.
Lemma u256_div_ok a b c : u256_div a b = Ok c -> c = a / b /\ b <> 0.
Proof.
  unfold u256_div. destruct (N.eqb_spec b 0); [discriminate|]. intros [= <-]. auto.
Qed.

Ltac arith_inv :=
  repeat match goal with
  | H : u256_add _ _ = Ok _ |- _ => apply u256_add_ok in H as [-> H]
  | H : u256_sub _ _ = Ok _ |- _ => apply u256_sub_ok in H as [-> H]
  | H : u256_mul _ _ = Ok _ |- _ => apply u256_mul_ok in H as [-> H]
  | H : u256_div _ _ = Ok _ |- _ => apply u256_div_ok in H as [-> H]
  | H : (_ =? _) = true |- _ => apply N.eqb_eq in H
  | H : (_ =? _) = false |- _ => apply N.eqb_neq in H
  | H : (_ <? _) = true |- _ => apply N.ltb_lt in H
  | H : (_ <? _) = false |- _ => apply N.ltb_ge in H
  | H : negb _ = true |- _ => apply negb_true_iff in H
  | H : negb _ = false |- _ => apply negb_false_iff in H
  end.

Lemma deposit_inv d s s' o :
  run_map (exec_deposit d) s = (s', Ok o) ->
  exists A',
  oc_tx d = vs_onchain_tx_id s /\
  (vs_onchain_block s < oc_block d \/
   (vs_onchain_block s = oc_block d /\ vs_onchain_log_index s < oc_log_index d)) /\
  moves (payments (ADeposit (da_account (oc_action d)) (da_amount (oc_action d))))
    (vs_accounts s) A' /\
  s' = VState (vs_domain s) (vs_tx_id s) (next_u64 (vs_onchain_tx_id s)) (oc_block d)
         (oc_log_index d) A' (vs_transactions s) /\
  o = Applied (Some (RDeposit (OnchainReceipt (oc_tx d) StCompleted (oc_action d)))).
Proof.
  unfold exec_deposit. intros H. repeat run_step. simp_state.
  eexists. repeat split; eauto.
  apply moves_receive; [assumption|apply moves_nil].
Qed.

Lemma create_prover_inv c s s' o :
  run_map (exec_create_prover c) s = (s', Ok o) ->
  oc_tx c = vs_onchain_tx_id s /\
  (vs_onchain_block s < oc_block c \/
   (vs_onchain_block s = oc_block c /\ vs_onchain_log_index s < oc_log_index c)) /\
  s' = VState (vs_domain s) (vs_tx_id s) (next_u64 (vs_onchain_tx_id s)) (oc_block c)
         (oc_log_index c)
         (<[cp_prover (oc_action c) :=
              Account (bal (vs_accounts s) (cp_prover (oc_action c))) (cp_owner (oc_action c))
                (cp_owner (oc_action c)) (cp_bips (oc_action c))]> (vs_accounts s))
         (vs_transactions s) /\
  o = Applied (Some (RCreateProver (OnchainReceipt (oc_tx c) StCompleted (oc_action c)))).
Proof.
  unfold exec_create_prover. intros H. repeat run_step. simp_state.
  cbn in Hp1. apply pair_ok_inj in Hp1 as [<- <-].
  cbn in Hp2. apply pair_ok_inj in Hp2 as [<- _].
  simp_state. repeat split; auto.
  f_equal. unfold address_index. rewrite insert_insert. reflexivity.
Qed.

Lemma tx_double T id : <[request_index id := true]> (<[request_index id := false]> T)
  = <[request_index id := true]> (T : gmap N bool).
Proof. apply insert_insert. Qed.

Lemma delegate_inv E d s s' o :
  run_map (exec_delegate E d) s = (s', Ok o) ->
  exists body owner prover auctioneer fee pa,
  let id := message_id E owner (encode_delegation body) in
  signed_by E encode_delegation (json_delegation E) d body owner /\
  db_variant body = variant_tag DelegateVariant /\
  as_word (db_domain body) = Some (vs_domain s) /\
  unused (vs_transactions s) id /\
  as_address (db_prover body) = Some prover /\
  parse_u256 E (db_fee body) = Some fee /\
  as_address (db_auctioneer body) = Some auctioneer /\
  vs_accounts s !! prover = Some pa /\ acc_owner pa = owner /\
  ((bal (vs_accounts s) owner < fee /\
    o = Reverted (InsufficientDelegateBalance owner fee (bal (vs_accounts s) owner)) /\
    s' = with_transactions (<[request_index id := true]> (vs_transactions s)) s) \/
   (exists delegate A', fee <= bal (vs_accounts s) owner /\
    as_address (db_delegate body) = Some delegate /\
    moves (payments (ADelegate owner prover delegate auctioneer fee)) (vs_accounts s) A' /\
    o = Applied None /\
    s' = with_accounts (<[prover := set_signer (acct A' prover) delegate]> A')
           (with_transactions (<[request_index id := true]> (vs_transactions s)) s))).
Proof.
  unfold exec_delegate. intros H. repeat run_step. simp_state.
  match goal with H : run_map (if ?b then _ else _) _ = _ |- _ => destruct b eqn:Hlt end;
    repeat run_step; simp_state; arith_inv; subst.
  - do 6 eexists. cbn zeta. repeat split; eauto.
    + eapply signed_by_intro; eauto.
    + left. repeat split; auto.
      unfold with_transactions; cbn. f_equal. apply tx_double.
  - do 6 eexists. cbn zeta. repeat split; eauto.
    + eapply signed_by_intro; eauto.
    + right.
      match goal with H : run_map (acc_put _ _) _ = _ |- _ =>
        cbn in H; apply pair_ok_inj in H as [<- _] end.
      simp_state.
      do 2 eexists. split; [|split; [|split; [|split; [reflexivity|]]]].
      * eassumption.
      * eassumption.
      * eapply moves_pay; [eassumption|]. eapply moves_receive; [eassumption|]. apply moves_nil.
      * match goal with H : _ !! _ = Some ?b |- context[set_signer ?b _] =>
          unfold acct at 1; rewrite H end.
        unfold with_transactions, with_accounts; cbn. f_equal. apply tx_double.
Qed.

Lemma transfer_inv E t s s' o :
  run_map (exec_transfer E t) s = (s', Ok o) ->
  exists body from to amount auctioneer fee,
  let id := message_id E from (encode_transfer body) in
  signed_by E encode_transfer (json_transfer E) t body from /\
  tb_variant body = variant_tag TransferVariant /\
  as_word (tb_domain body) = Some (vs_domain s) /\
  unused (vs_transactions s) id /\
  as_address (tb_to body) = Some to /\
  parse_u256 E (tb_amount body) = Some amount /\
  parse_u256 E (tb_fee body) = Some fee /\
  as_address (tb_auctioneer body) = Some auctioneer /\
  amount + fee < two256 /\
  ((bal (vs_accounts s) from < amount + fee /\
    o = Reverted (InsufficientTransferBalance from (amount + fee) (bal (vs_accounts s) from)) /\
    s' = with_transactions (<[request_index id := true]> (vs_transactions s)) s) \/
   (exists A', amount + fee <= bal (vs_accounts s) from /\
    moves (payments (ATransfer from to amount auctioneer fee)) (vs_accounts s) A' /\
    o = Applied None /\
    s' = with_accounts A'
           (with_transactions (<[request_index id := true]> (vs_transactions s)) s))).
Proof.
  unfold exec_transfer. intros H. repeat run_step. simp_state.
  match goal with H : run_map (if ?b then _ else _) _ = _ |- _ => destruct b eqn:Hlt end;
    repeat run_step; simp_state; arith_inv; subst.
  - do 6 eexists. cbn zeta. repeat split; eauto.
    + eapply signed_by_intro; eauto.
    + left. repeat split; auto.
      unfold with_transactions; cbn. f_equal. apply tx_double.
  - do 6 eexists. cbn zeta. repeat split; eauto.
    + eapply signed_by_intro; eauto.
    + right. eexists. split; [eassumption|]. split; [|split; [reflexivity|]].
      * repeat first [eapply moves_pay; [eassumption|] | eapply moves_receive; [eassumption|]].
        apply moves_nil.
      * unfold with_transactions, with_accounts; cbn. f_equal. apply tx_double.
Qed.

Lemma withdraw_inv E w s s' o :
  run_map (exec_withdraw E w) s = (s', Ok o) ->
  exists body from who amount auctioneer fee,
  let id := message_id E from (encode_withdraw body) in
  signed_by E encode_withdraw (json_withdraw E) w body from /\
  wb_variant body = variant_tag WithdrawVariant /\
  as_word (wb_domain body) = Some (vs_domain s) /\
  unused (vs_transactions s) id /\
  as_address (wb_account body) = Some who /\
  parse_u256 E (wb_amount body) = Some amount /\
  parse_u256 E (wb_fee body) = Some fee /\
  as_address (wb_auctioneer body) = Some auctioneer /\
  (who = from \/ acc_owner (acct (vs_accounts s) who) <> 0) /\
  (who = from -> amount + fee < two256) /\
  ((exists payer required,
    ((who = from /\ payer = who /\ required = amount + fee) \/
     (who <> from /\ payer = who /\ required = amount) \/
     (who <> from /\ amount <= bal (vs_accounts s) who /\ payer = from /\ required = fee)) /\
    bal (vs_accounts s) payer < required /\
    o = Reverted (InsufficientWithdrawBalance payer required (bal (vs_accounts s) payer)) /\
    s' = with_transactions (<[request_index id := true]> (vs_transactions s)) s) \/
   (exists A',
    (if who =? from then amount + fee <= bal (vs_accounts s) who
     else amount <= bal (vs_accounts s) who /\ fee <= bal (vs_accounts s) from) /\
    moves (payments (AWithdraw from who amount auctioneer fee)) (vs_accounts s) A' /\
    o = Applied (Some (RWithdraw (OffchainReceipt StCompleted (WithdrawAction who amount)))) /\
    s' = with_accounts A'
           (with_transactions (<[request_index id := true]> (vs_transactions s)) s))).
Proof.
  unfold exec_withdraw. intros H. repeat run_step. simp_state.
  match goal with H : as_address (wb_account _) = Some ?y |- _ => rename y into who end.
  match goal with H : verify_signed_message _ _ _ _ _ = Ok ?y |- _ => rename y into from end.
  assert (Hperm : who = from \/ acc_owner (acct (vs_accounts s) who) <> 0).
  { match goal with H : negb (_ && _) = true |- _ => rename H into Hg end.
    arith_inv. apply andb_false_iff in Hg as [Hg|Hg]; arith_inv.
    - right. unfold acct. destruct (_ !! who); cbn; exact Hg.
    - left. exact Hg. }
  unfold address_index in *.
  destruct (who =? from) eqn:Hself; arith_inv; repeat run_step; simp_state.
  - subst who.
    match goal with H : run_map (if ?b then _ else _) _ = _ |- _ => destruct b eqn:Hlt end;
      repeat run_step; simp_state; arith_inv.
    + do 6 eexists. cbn zeta. repeat split; eauto.
      { eapply signed_by_intro; eauto. }
      left. do 2 eexists. split; [left; repeat split|]. repeat split; auto.
      unfold with_transactions; cbn. f_equal. apply tx_double.
    + do 6 eexists. cbn zeta. repeat split; eauto.
      { eapply signed_by_intro; eauto. }
      right. eexists. rewrite N.eqb_refl. split; [eassumption|]. split; [|split; [reflexivity|]].
      * repeat first [eapply moves_pay; [eassumption|] | eapply moves_receive; [eassumption|]].
        apply moves_nil.
      * unfold with_transactions, with_accounts; cbn. f_equal. apply tx_double.
  - match goal with H : run_map (if ?b then _ else _) _ = _ |- _ => destruct b eqn:Hlt end;
      repeat run_step; simp_state; arith_inv.
    { do 6 eexists. cbn zeta. repeat split; eauto.
      { eapply signed_by_intro; eauto. }
      { congruence. }
      left. do 2 eexists. split; [right; left; repeat split; auto|]. repeat split; auto.
      unfold with_transactions; cbn. f_equal. apply tx_double. }
    match goal with H : run_map (if ?b then _ else _) _ = _ |- _ => destruct b eqn:Hlt2 end;
      repeat run_step; simp_state; arith_inv.
    + do 6 eexists. cbn zeta. repeat split; eauto.
      { eapply signed_by_intro; eauto. }
      { congruence. }
      left. do 2 eexists. split; [right; right; repeat split; auto|]. repeat split; auto.
      unfold with_transactions; cbn. f_equal. apply tx_double.
    + do 6 eexists. cbn zeta. repeat split; eauto.
      { eapply signed_by_intro; eauto. }
      { congruence. }
      right. eexists. apply N.eqb_neq in Hself. rewrite Hself.
      split; [split; eassumption|]. split; [|split; [reflexivity|]].
      * repeat first [eapply moves_pay; [eassumption|] | eapply moves_receive; [eassumption|]].
        apply moves_nil.
      * unfold with_transactions, with_accounts; cbn. f_equal. apply tx_double.
Qed.
