(** Every step of the transition relation of [StepSpec.v] is taken by [execute]. *)
From Verif Require Export Refine.
From Coq Require Import ZifyBool ZifyN ZifyNat.
Open Scope N_scope.

Lemma map_bind_eq {X Y} (p : prog X) (f : X -> prog Y) s :
  run_map (bind p f) s =
  match run_map p s with
  | (s', Ok x) => run_map (f x) s'
  | (s', Err e) => (s', Err e)
  end.
Proof. apply run_bind. Qed.

Section forward.
  Context {Y : Type}.
  Implicit Types (s : ledger) (R : ledger * result Y panic).

  Lemma fwd_bind {X} (p : prog X) (f : X -> prog Y) s s1 x R :
    run_map p s = (s1, Ok x) -> run_map (f x) s1 = R -> run_map (bind p f) s = R.
  Proof. intros H1 H2. rewrite map_bind_eq, H1. exact H2. Qed.

  Lemma fwd_ok_or {X} (o : option X) e x (f : X -> prog Y) s R :
    o = Some x -> run_map (f x) s = R -> run_map (bind (ok_or o e) f) s = R.
  Proof. intros -> H. exact H. Qed.

  Lemma fwd_lift {X} (o : result X panic) x (f : X -> prog Y) s R :
    o = Ok x -> run_map (f x) s = R -> run_map (bind (lift o) f) s = R.
  Proof. intros -> H. exact H. Qed.

  Lemma fwd_ensure b e (f : unit -> prog Y) s R :
    b = true -> run_map (f tt) s = R -> run_map (bind (ensure b e) f) s = R.
  Proof. intros -> H. exact H. Qed.

End forward.

Section forward2.
  Context {Y : Type}.
  Implicit Types (s : ledger) (R : ledger * result Y panic).

  Lemma fwd_parse_address b x (f : N -> prog Y) s R :
    as_address b = Some x -> run_map (f x) s = R -> run_map (bind (parse_address b) f) s = R.
  Proof. apply fwd_ok_or. Qed.

  Lemma fwd_parse_format b x (f : msg_format -> prog Y) s R :
    format_of_tag b = Some x -> run_map (f x) s = R -> run_map (bind (parse_format b) f) s = R.
  Proof. apply fwd_ok_or. Qed.

  Lemma fwd_parse_amount E b e x (f : N -> prog Y) s R :
    parse_u256 E b = Some x -> run_map (f x) s = R -> run_map (bind (parse_amount E b e) f) s = R.
  Proof. apply fwd_ok_or. Qed.

  Lemma variant_of_tag_tag v : variant_of_tag (variant_tag v) = Some v.
  Proof. destruct v; reflexivity. Qed.
  Lemma variant_eqb_refl v : variant_eqb v v = true.
  Proof. destruct v; reflexivity. Qed.

  Lemma fwd_check_variant z v (f : unit -> prog Y) s R :
    z = variant_tag v -> run_map (f tt) s = R -> run_map (bind (check_variant z v) f) s = R.
  Proof.
    intros -> H. eapply fwd_bind; [|exact H]. unfold check_variant.
    rewrite variant_of_tag_tag. cbn. rewrite variant_eqb_refl. reflexivity.
  Qed.

  Lemma fwd_check_domain d e (f : unit -> prog Y) s R :
    as_word d = Some (vs_domain s) -> run_map (f tt) s = R ->
    run_map (bind (check_domain d e) f) s = R.
  Proof.
    intros H1 H. eapply fwd_bind; [|exact H]. unfold check_domain. change b256_of_bytes with as_word. rewrite H1. cbn.
    rewrite N.eqb_refl. reflexivity.
  Qed.

  Lemma fwd_acc_get k (f : option account -> prog Y) s R :
    run_map (f (vs_accounts s !! k)) s = R -> run_map (bind (acc_get k) f) s = R.
  Proof. intros H. destruct s. exact H. Qed.

  Lemma fwd_acc_get_mut k (f : option account -> prog Y) s R :
    run_map (f (vs_accounts s !! k)) s = R -> run_map (bind (acc_get_mut k) f) s = R.
  Proof. intros H. destruct s. exact H. Qed.

  Lemma fwd_balance_of k (f : N -> prog Y) s R :
    run_map (f (bal (vs_accounts s) k)) s = R -> run_map (bind (balance_of k) f) s = R.
  Proof.
    intros H. eapply fwd_bind; [|exact H]. unfold bal, acct, balance_of.
    destruct s; cbn. unfold address_index. destruct (_ !! k); reflexivity.
  Qed.

  Lemma fwd_credit k x (f : unit -> prog Y) s R :
    bal (vs_accounts s) k + x < two256 ->
    run_map (f tt) (with_accounts (m_credit k x (vs_accounts s)) s) = R ->
    run_map (bind (credit k x) f) s = R.
  Proof.
    intros H1 H. eapply fwd_bind; [|exact H]. unfold credit.
    eapply (fwd_bind (acc_entry k)); [reflexivity|].
    eapply (@fwd_bind unit N).
    - unfold u256_add. change (acc_balance _) with (bal (vs_accounts s) k).
      apply N.ltb_lt in H1. rewrite H1. reflexivity.
    - cbn. f_equal. unfold with_accounts; cbn. f_equal. apply insert_insert.
  Qed.

  Lemma fwd_debit k x (f : unit -> prog Y) s R :
    x <= bal (vs_accounts s) k ->
    run_map (f tt) (with_accounts (m_debit k x (vs_accounts s)) s) = R ->
    run_map (bind (debit k x) f) s = R.
  Proof.
    intros H1 H. eapply fwd_bind; [|exact H]. unfold debit.
    eapply (fwd_bind (acc_entry k)); [reflexivity|].
    eapply (@fwd_bind unit N).
    - unfold u256_sub. change (acc_balance _) with (bal (vs_accounts s) k).
      apply N.leb_le in H1. rewrite H1. reflexivity.
    - cbn. f_equal. unfold with_accounts; cbn. f_equal. apply insert_insert.
  Qed.

  Lemma fwd_check_fresh id (f : unit -> prog Y) s R :
    unused (vs_transactions s) id ->
    run_map (f tt) (with_transactions (<[request_index id := false]> (vs_transactions s)) s) = R ->
    run_map (bind (check_fresh id) f) s = R.
  Proof.
    intros H1 H. eapply fwd_bind; [|exact H]. unfold check_fresh.
    unfold unused in H1.
    assert (Hd : default false (vs_transactions s !! request_index id) = false).
    { destruct (vs_transactions s !! request_index id) as [[]|]; cbn; congruence. }
    eapply (fwd_bind (tx_entry id)); [cbn; rewrite Hd; reflexivity|]. reflexivity.
  Qed.

  Lemma fwd_tx_insert id b (f : unit -> prog Y) s R :
    run_map (f tt) (with_transactions (<[request_index id := b]> (vs_transactions s)) s) = R ->
    run_map (bind (tx_insert id b) f) s = R.
  Proof. intros H. exact H. Qed.

  Lemma fwd_check_request_id id o (f : unit -> prog Y) s R :
    o = be_bytes 32 id -> run_map (f tt) s = R -> run_map (bind (check_request_id id o) f) s = R.
  Proof.
    intros -> H. apply fwd_ensure; [|exact H]. unfold bytes_eqb. now apply bool_decide_eq_true.
  Qed.

  Lemma fwd_signed {B} E (bin : B -> bytes) json (m : signed B) body who (f : msg_format -> prog Y) s R :
    signed_by E bin json m body who ->
    (forall fmt, format_of_tag (s_format m) = Some fmt ->
       verify_signed_message E (bin body) (json body) (s_signature m) fmt = Ok who ->
       run_map (f fmt) s = R) ->
    run_map (bind (parse_format (s_format m)) f) s = R.
  Proof.
    intros (_ & [[Hf Hr]|[Hf (js & Hj & Hr)]]) H; rewrite Hf.
    - eapply fwd_parse_format; [reflexivity|]. apply H; [rewrite Hf; reflexivity|].
      cbn. unfold eth_sign_verify. rewrite Hr. reflexivity.
    - eapply fwd_parse_format; [reflexivity|]. apply H; [rewrite Hf; reflexivity|].
      cbn. rewrite Hj. unfold eth_sign_verify. rewrite Hr. reflexivity.
  Qed.

  Lemma fwd_validate {A} (o : onchain A) (f : unit -> prog Y) (s : ledger) R :
    next_onchain s o -> run_map (f tt) s = R ->
    run_map (bind (validate_onchain_tx (oc_block o) (oc_log_index o) (oc_tx o)) f) s = R.
  Proof.
    intros [H1 H2] H. eapply fwd_bind; [|exact H]. unfold validate_onchain_tx.
    eapply (fwd_bind get_cursor); [reflexivity|]. cbn beta iota.
    apply fwd_ensure; [apply N.eqb_eq; exact H1|].
    rewrite map_bind_eq.
    replace (oc_block o <? vs_onchain_block s) with false by (symmetry; apply N.ltb_ge; lia).
    cbn [negb ensure run_map run].
    replace ((oc_block o =? vs_onchain_block s) && (oc_log_index o <=? vs_onchain_log_index s))
      with false by (symmetry; apply andb_false_iff; rewrite N.eqb_neq, N.leb_gt; lia).
    reflexivity.
  Qed.
End forward2.

Lemma u256_add_fits a b : a + b < two256 -> u256_add a b = Ok (a + b).
Proof. intros H. unfold u256_add. apply N.ltb_lt in H. now rewrite H. Qed.
Lemma u256_mul_fits a b : a * b < two256 -> u256_mul a b = Ok (a * b).
Proof. intros H. unfold u256_mul. apply N.ltb_lt in H. now rewrite H. Qed.

(** Take one forward step. *)
Ltac fwd :=
  match goal with
  | |- run_map (bind (ok_or _ _) _) _ = _ => eapply fwd_ok_or; [eassumption|]
  | |- run_map (bind (lift (verify_signed_message _ _ _ _ _)) _) _ = _ =>
      eapply fwd_lift; [eassumption|]
  | |- run_map (bind (lift (u256_add _ _)) _) _ = _ => eapply fwd_lift; [eapply u256_add_fits; eassumption|]
  | |- run_map (bind (lift (u256_mul _ _)) _) _ = _ => eapply fwd_lift; [eapply u256_mul_fits; eassumption|]
  | |- run_map (bind (parse_address _) _) _ = _ => eapply fwd_parse_address; [eassumption|]
  | |- run_map (bind (parse_format _) _) _ = _ =>
      eapply fwd_signed; [eassumption|]; intros ? ? ?
  | |- run_map (bind (parse_amount _ _ _) _) _ = _ => eapply fwd_parse_amount; [eassumption|]
  | |- run_map (bind (check_variant _ _) _) _ = _ => eapply fwd_check_variant; [eassumption|]
  | |- run_map (bind (check_domain _ _) _) _ = _ => eapply fwd_check_domain; [eassumption|]
  | |- run_map (bind (acc_get _) _) _ = _ => eapply fwd_acc_get
  | |- run_map (bind (acc_get_mut _) _) _ = _ => eapply fwd_acc_get_mut
  | |- run_map (bind (balance_of _) _) _ = _ => eapply fwd_balance_of
  | |- run_map (bind (credit _ _) _) _ = _ => eapply fwd_credit; [eassumption|]
  | |- run_map (bind (debit _ _) _) _ = _ => eapply fwd_debit; [eassumption|]
  | |- run_map (bind (check_fresh _) _) _ = _ => eapply fwd_check_fresh; [eassumption|]
  | |- run_map (bind (tx_insert _ _) _) _ = _ => eapply fwd_tx_insert
  | |- run_map (bind (check_request_id _ _) _) _ = _ => eapply fwd_check_request_id; [eassumption|]
  | |- run_map (bind (validate_onchain_tx _ _ _) _) _ = _ => eapply fwd_validate; [eassumption|]
  end; cbv beta iota zeta.

Ltac moves_inv :=
  repeat match goal with
  | H : moves (payments _) _ _ |- _ => cbn [payments] in H
  | H : moves (_ :: _) _ _ |- _ => inversion H; subst; clear H
  | H : moves [] _ _ |- _ => inversion H; subst; clear H
  end.

Definition outcome_of (r : exec_result) : option outcome :=
  match r with ResOk x => Some (Applied x) | ResRevert v => Some (Reverted v) | ResPanic _ => None end.

Lemma execute_map_of_run E t s s1 o s' r :
  run_map (execute_inner E t) s = (s1, Ok o) -> s' = bump_tx_id s1 -> outcome_of r = Some o ->
  execute_map E t s = (s', r).
Proof.
  unfold execute_map, execute, run_map. intros -> -> Hr.
  destruct r; cbn in Hr; try discriminate; injection Hr as <-; reflexivity.
Qed.

Lemma deposit_complete E s d A' :
  next_onchain s d ->
  moves (payments (ADeposit (da_account (oc_action d)) (da_amount (oc_action d))))
    (vs_accounts s) A' ->
  execute_map E (TxDeposit d) s = (after_onchain s d A',
    ResOk (Some (RDeposit (OnchainReceipt (oc_tx d) StCompleted (oc_action d))))).
Proof.
  intros Hn Hm. moves_inv.
  eapply execute_map_of_run; [| |reflexivity].
  - cbn [execute_inner]. unfold exec_deposit. fwd.
    eapply fwd_bind; [reflexivity|]. fwd. reflexivity.
  - reflexivity.
Qed.

Lemma create_prover_complete E s c :
  next_onchain s c ->
  let act := oc_action c in
  execute_map E (TxCreateProver c) s =
    (after_onchain s c
      (<[cp_prover act := Account (bal (vs_accounts s) (cp_prover act)) (cp_owner act)
                            (cp_owner act) (cp_bips act)]> (vs_accounts s)),
     ResOk (Some (RCreateProver (OnchainReceipt (oc_tx c) StCompleted act)))).
Proof.
  intros Hn act. subst act.
  eapply execute_map_of_run; [| |reflexivity].
  - cbn [execute_inner]. unfold exec_create_prover. fwd.
    eapply fwd_bind; [reflexivity|]. eapply (fwd_bind (acc_entry _)); [reflexivity|].
    eapply fwd_bind; [reflexivity|]. reflexivity.
  - unfold bump_tx_id, after_onchain. cbn. f_equal. unfold address_index.
    rewrite insert_insert. reflexivity.
Qed.

Lemma run_if {X} (b : bool) (p q : prog X) s R :
  (b = true -> run_map p s = R) -> (b = false -> run_map q s = R) ->
  run_map (if b then p else q) s = R.
Proof. destruct b; auto. Qed.

Lemma after_signed_eq s id A :
  bump_tx_id (with_accounts A (with_transactions (<[request_index id := true]>
     (<[request_index id := false]> (vs_transactions s))) s)) = after_signed s id A.
Proof. unfold bump_tx_id, after_signed. cbn. f_equal. apply tx_double. Qed.

Ltac decide_if :=
  apply run_if; (let H := fresh "Hif" in intros H); arith_inv; simp_state; [try lia|try lia].

Lemma delegate_revert_complete E s d body owner prover auctioneer fee :
  delegate_ok E s d body owner prover auctioneer fee ->
  bal (vs_accounts s) owner < fee ->
  execute_map E (TxDelegate d) s =
    (after_signed s (message_id E owner (encode_delegation body)) (vs_accounts s),
     ResRevert (InsufficientDelegateBalance owner fee (bal (vs_accounts s) owner))).
Proof.
  intros [Hs Hv Hd Hf Hp Hfee Ha (pa & Hpa & Ho)] Hlt. pose proof Hs as [Hb _].
  eapply execute_map_of_run; [| |reflexivity].
  - cbn [execute_inner]. unfold exec_delegate. repeat fwd.
    apply fwd_ensure; [now apply N.eqb_eq|]. repeat fwd. simp_state.
    decide_if. reflexivity.
  - rewrite <- after_signed_eq. reflexivity.
Qed.

Lemma delegate_complete E s d body owner prover auctioneer fee delegate A' :
  delegate_ok E s d body owner prover auctioneer fee ->
  fee <= bal (vs_accounts s) owner ->
  as_address (db_delegate body) = Some delegate ->
  moves (payments (ADelegate owner prover delegate auctioneer fee)) (vs_accounts s) A' ->
  execute_map E (TxDelegate d) s =
    (after_signed s (message_id E owner (encode_delegation body))
      (<[prover := set_signer (acct A' prover) delegate]> A'), ResOk None).
Proof.
  intros [Hs Hv Hd Hf Hp Hfee Ha (pa & Hpa & Ho)] Hle Hdel Hm. pose proof Hs as [Hb _].
  pose proof (moves_dom _ _ _ prover Hm ltac:(eauto)) as [pa' Hpa'].
  moves_inv.
  eapply execute_map_of_run; [| |reflexivity].
  - cbn [execute_inner]. unfold exec_delegate. repeat fwd.
    apply fwd_ensure; [now apply N.eqb_eq|]. repeat fwd. simp_state.
    decide_if. repeat fwd. eapply fwd_bind; reflexivity.
  - unfold acct. rewrite Hpa'. cbn [default from_option].
    rewrite <- after_signed_eq. reflexivity.
Qed.

Lemma transfer_revert_complete E s t body from to amount auctioneer fee :
  transfer_ok E s t body from to amount auctioneer fee ->
  bal (vs_accounts s) from < amount + fee ->
  execute_map E (TxTransfer t) s =
    (after_signed s (message_id E from (encode_transfer body)) (vs_accounts s),
     ResRevert (InsufficientTransferBalance from (amount + fee) (bal (vs_accounts s) from))).
Proof.
  intros [Hs Hv Hd Hf Hto Ham Hfee Ha Hfit] Hlt. pose proof Hs as [Hb _].
  eapply execute_map_of_run; [| |reflexivity].
  - cbn [execute_inner]. unfold exec_transfer. repeat fwd. decide_if. reflexivity.
  - rewrite <- after_signed_eq. reflexivity.
Qed.

Lemma transfer_complete E s t body from to amount auctioneer fee A' :
  transfer_ok E s t body from to amount auctioneer fee ->
  amount + fee <= bal (vs_accounts s) from ->
  moves (payments (ATransfer from to amount auctioneer fee)) (vs_accounts s) A' ->
  execute_map E (TxTransfer t) s =
    (after_signed s (message_id E from (encode_transfer body)) A', ResOk None).
Proof.
  intros [Hs Hv Hd Hf Hto Ham Hfee Ha Hfit] Hle Hm. pose proof Hs as [Hb _]. moves_inv.
  eapply execute_map_of_run; [| |reflexivity].
  - cbn [execute_inner]. unfold exec_transfer. repeat fwd. decide_if. repeat fwd. reflexivity.
  - rewrite <- after_signed_eq. reflexivity.
Qed.

Lemma withdraw_revert_complete E s w body from who amount auctioneer fee payer required :
  withdraw_ok E s w body from who amount auctioneer fee ->
  withdraw_short (vs_accounts s) from who amount fee payer required ->
  execute_map E (TxWithdraw w) s =
    (after_signed s (message_id E from (encode_withdraw body)) (vs_accounts s),
     ResRevert (InsufficientWithdrawBalance payer required (bal (vs_accounts s) payer))).
Proof.
  intros [Hs Hv Hd Hf Hto Ham Hfee Ha Hal Hfit] [Hsh Hlt]. pose proof Hs as [Hb _].
  assert (Hens : negb ((match vs_accounts s !! who with Some a => acc_owner a | None => 0 end =? 0)
                       && negb (who =? from)) = true).
  { apply negb_true_iff, andb_false_iff. rewrite negb_false_iff, N.eqb_neq, N.eqb_eq.
    unfold acct in Hal. destruct (vs_accounts s !! who); cbn in *; tauto. }
  destruct Hsh as [(Hw & -> & ->)|[(Hne & -> & ->)|(Hne & Hle & -> & ->)]];
    (eapply execute_map_of_run; [| |reflexivity];
     [cbn [execute_inner]; unfold exec_withdraw; repeat fwd; simp_state;
      apply fwd_ensure; [exact Hens|]; repeat fwd|]).
  - specialize (Hfit Hw). apply N.eqb_eq in Hw. rewrite Hw. repeat fwd. decide_if. reflexivity.
  - rewrite <- after_signed_eq. reflexivity.
  - apply N.eqb_neq in Hne. rewrite Hne. repeat fwd. decide_if. reflexivity.
  - rewrite <- after_signed_eq. reflexivity.
  - apply N.eqb_neq in Hne. rewrite Hne. repeat fwd. decide_if. repeat fwd. decide_if.
    reflexivity.
  - rewrite <- after_signed_eq. reflexivity.
Qed.

Lemma withdraw_complete E s w body from who amount auctioneer fee A' :
  withdraw_ok E s w body from who amount auctioneer fee ->
  (if who =? from then amount + fee <= bal (vs_accounts s) who
   else amount <= bal (vs_accounts s) who /\ fee <= bal (vs_accounts s) from) ->
  moves (payments (AWithdraw from who amount auctioneer fee)) (vs_accounts s) A' ->
  execute_map E (TxWithdraw w) s =
    (after_signed s (message_id E from (encode_withdraw body)) A',
     ResOk (Some (RWithdraw (OffchainReceipt StCompleted (WithdrawAction who amount))))).
Proof.
  intros [Hs Hv Hd Hf Hto Ham Hfee Ha Hal Hfit] Hle Hm. pose proof Hs as [Hb _]. moves_inv.
  assert (Hens : negb ((match vs_accounts s !! who with Some a => acc_owner a | None => 0 end =? 0)
                       && negb (who =? from)) = true).
  { apply negb_true_iff, andb_false_iff. rewrite negb_false_iff, N.eqb_neq, N.eqb_eq.
    unfold acct in Hal. destruct (vs_accounts s !! who); cbn in *; tauto. }
  destruct (who =? from) eqn:Hw;
    (eapply execute_map_of_run; [| |reflexivity];
     [cbn [execute_inner]; unfold exec_withdraw; repeat fwd; simp_state; try rewrite Hw;
      apply fwd_ensure; [exact Hens|]; repeat fwd|]).
  - apply N.eqb_eq in Hw. specialize (Hfit Hw). rewrite <- Hw in H5, H6. repeat fwd. decide_if.
    repeat fwd. reflexivity.
  - rewrite <- after_signed_eq. apply N.eqb_eq in Hw. rewrite <- Hw. reflexivity.
  - destruct Hle. repeat fwd. decide_if. repeat fwd. decide_if. repeat fwd. reflexivity.
  - rewrite <- after_signed_eq. reflexivity.
Qed.

(** ** Clear *)

Lemma verify_ok_of_signed {B} E (bin : B -> bytes) json (m : signed B) body who :
  signed_by E bin json m body who ->
  exists fmt, format_of_tag (s_format m) = Some fmt /\
    verify_signed_message E (bin body) (json body) (s_signature m) fmt = Ok who.
Proof.
  intros (_ & [[Hf Hr]|[Hf (js & Hj & Hr)]]); rewrite Hf; eexists; (split; [reflexivity|]);
    cbn; rewrite ?Hj; unfold eth_sign_verify; rewrite Hr; reflexivity.
Qed.

Lemma clear_ctx_eta x :
  ClearCtx (cc_request x) (cc_bid x) (cc_execute x) (cc_requester x) (cc_request_id x)
    (cc_prover x) (cc_prover_owner x) (cc_base_fee x) (cc_max_price x) (cc_price x) = x.
Proof. destruct x; reflexivity. Qed.

Lemma clear_checks_complete E c s x settle bidder auctioneer executor pa :
  clear_authorised E (vs_domain s) (vs_accounts s) (vs_transactions s) c x settle bidder auctioneer
    executor pa ->
  run_map (clear_checks E c) s =
  (with_transactions (<[request_index (cc_request_id x) := false]> (vs_transactions s)) s, Ok x).
Proof.
  intros [].
  pose proof ca_request as [Hb1 _]. pose proof ca_bid as [Hb2 _].
  pose proof ca_settle as [Hb3 _]. pose proof ca_execute as [Hb4 _].
  apply verify_ok_of_signed in ca_request as (f1 & Hf1 & Hv1).
  apply verify_ok_of_signed in ca_bid as (f2 & Hf2 & Hv2).
  apply verify_ok_of_signed in ca_settle as (f3 & Hf3 & Hv3).
  apply verify_ok_of_signed in ca_execute as (f4 & Hf4 & Hv4).
  unfold clear_checks.
  do 4 fwd.
  do 4 (eapply fwd_parse_format; [eassumption|]; cbv beta).
  do 4 fwd.
  rewrite ca_request_variant, ca_bid_variant, ca_settle_variant, ca_execute_variant.
  do 4 (eapply fwd_ok_or; [reflexivity|]; cbv beta).
  do 4 (apply fwd_ensure; [reflexivity|]; cbv beta).
  do 4 fwd.
  unfold hash_with_signer. fold (message_id E (cc_requester x) (encode_request (cc_request x))).
  rewrite <- ca_id. do 6 fwd.
  eapply fwd_ok_or; [eassumption|]. cbv beta.
  apply fwd_ensure; [now apply N.eqb_eq|]. cbv beta.
  apply fwd_ensure; [apply orb_true_iff; rewrite !bool_decide_eq_true; exact ca_whitelist|]. cbv beta.
  fwd. apply fwd_ensure; [apply N.eqb_refl|]. cbv beta.
  fwd. apply fwd_ensure; [apply N.eqb_refl|]. cbv beta.
  do 3 fwd. apply fwd_ensure; [apply negb_true_iff, N.ltb_ge; exact ca_price_le|].
  rewrite <- ca_prover_owner, clear_ctx_eta. reflexivity.
Qed.

Lemma punish_revert_complete E s c x settle bidder auctioneer executor pa punishment :
  clear_authorised E (vs_domain s) (vs_accounts s) (vs_transactions s) c x settle bidder
    auctioneer executor pa ->
  clear_punishable E x punishment ->
  bal (vs_accounts s) (cc_requester x) < punishment ->
  execute_map E (TxClear c) s =
    (after_signed s (cc_request_id x) (vs_accounts s),
     ResRevert (InsufficientPunishmentBalance (cc_requester x) punishment
                  (bal (vs_accounts s) (cc_requester x)))).
Proof.
  intros Hca [Hst (str & Hp1 & Hp2) Hcap Hfit] Hlt.
  assert (cc_max_price x * rb_gas_limit (cc_request x) < two256) by lia.
  eapply execute_map_of_run; [| |reflexivity].
  - cbn [execute_inner]. unfold exec_clear.
    eapply fwd_bind; [eapply clear_checks_complete; eassumption|].
    rewrite Hst. change (3 =? status_unexecutable)%Z with true. cbn match.
    unfold clear_punish. repeat fwd.
    apply fwd_ensure; [now apply negb_true_iff, N.ltb_ge|]. repeat fwd. simp_state.
    decide_if. fwd. reflexivity.
  - rewrite <- after_signed_eq. reflexivity.
Qed.

Lemma punish_complete E s c x settle bidder auctioneer executor pa punishment treasury A' :
  clear_authorised E (vs_domain s) (vs_accounts s) (vs_transactions s) c x settle bidder
    auctioneer executor pa ->
  clear_punishable E x punishment ->
  punishment <= bal (vs_accounts s) (cc_requester x) ->
  as_address (rb_treasury (cc_request x)) = Some treasury ->
  moves (payments (APunish (cc_requester x) treasury punishment)) (vs_accounts s) A' ->
  execute_map E (TxClear c) s = (after_signed s (cc_request_id x) A', ResOk None).
Proof.
  intros Hca [Hst (str & Hp1 & Hp2) Hcap Hfit] Hle Ht Hm. moves_inv.
  assert (cc_max_price x * rb_gas_limit (cc_request x) < two256) by lia.
  eapply execute_map_of_run; [| |reflexivity].
  - cbn [execute_inner]. unfold exec_clear.
    eapply fwd_bind; [eapply clear_checks_complete; eassumption|].
    rewrite Hst. change (3 =? status_unexecutable)%Z with true. cbn match.
    unfold clear_punish. repeat fwd.
    apply fwd_ensure; [now apply negb_true_iff, N.ltb_ge|]. repeat fwd. simp_state.
    decide_if. repeat fwd. reflexivity.
  - rewrite <- after_signed_eq. reflexivity.
Qed.

Lemma clear_fulfillment_complete E c x s f body signer pvh :
  clear_fulfilled E (vs_domain s) c x f body signer pvh ->
  run_map (clear_fulfillment E c x) s = (s, Ok tt).
Proof.
  intros []. pose proof cf_signed as [Hb _].
  assert (Ha1 : array32 pvh = Some pvh) by (unfold array32; rewrite cf_pvh_len; reflexivity).
  assert (Ha2 : array32 (rb_vk_hash (cc_request x)) = Some (rb_vk_hash (cc_request x)))
    by (unfold array32; rewrite cf_vk_len; reflexivity).
  unfold clear_fulfillment. repeat fwd.
  apply fwd_ensure; [now apply bool_decide_eq_true|]. repeat fwd.
  eapply (fwd_bind (match rb_public_values_hash (cc_request x) with _ => _ end) _ s s pvh).
  { destruct (rb_public_values_hash (cc_request x)) as [h|] eqn:Hh; [|reflexivity].
    rewrite (cf_pvh_request h eq_refl). fwd.
    apply fwd_ensure; [now apply bool_decide_eq_true|]. reflexivity. }
  repeat fwd.
  pose proof (sp1_v6_eq (rb_version (cc_request x))) as Hsp.
  destruct cf_proof as [(Hv & Hmode & Hok)|(Hm & sig & verifier & Hc & He & Ha)].
  - rewrite Hmode. apply Hsp in Hv. eapply fwd_ok_or; [reflexivity|]. cbv beta iota.
    rewrite Hv. unfold ensure. rewrite vk_words_eq, Hok. reflexivity.
  - assert (Hby : run_map
      (let! verify := ok_or (cl_verify c) MissingVerifierSignature in
       let! verifier := lift (eth_sign_verify E
          (be_bytes 32 (hash_with_signer E signer (encode_fulfill body))) verify) in
       let! expected := parse_address (rb_verifier (cc_request x)) in
       ensure (verifier =? expected) InvalidVerifierSignature) s = (s, Ok tt)).
    { fwd. eapply (fwd_lift _ verifier).
      { unfold eth_sign_verify. unfold message_id in He. unfold hash_with_signer.
        rewrite He. reflexivity. }
      fwd. rewrite N.eqb_refl. reflexivity. }
    destruct Hm as [(Hv & Hmode)|[Hmode|Hmode]]; rewrite Hmode;
      (eapply fwd_ok_or; [reflexivity|]); cbv beta iota;
      destruct (starts_with (rb_version (cc_request x)) primary_version);
      [now destruct Hv; apply Hsp| |..]; exact Hby.
Qed.

Lemma fee_zero_complete cost bips :
  cost < two256 -> bips <= 10000 -> cost * bips < two256 ->
  fee cost protocol_fee_bips bips = Ok (0, cost * bips / 10000, cost - cost * bips / 10000).
Proof.
  intros Hc Hb Hm. unfold fee, protocol_fee_bips. cbn zeta.
  change (10000 <? 0) with false. cbn match.
  assert (Hb' : (10000 <? bips) = false) by now apply N.ltb_ge.
  assert (H256 : 10000 < two256) by (unfold two256; lia).
  assert (Hq : cost * bips / 10000 <= cost).
  { transitivity (cost * 10000 / 10000).
    - apply N.div_le_mono; [lia|]. apply N.mul_le_mono_l. exact Hb.
    - rewrite N.div_mul; lia. }
  rewrite Hb'. rewrite u256_add_fits by lia. cbn [rbind]. rewrite N.add_0_l, Hb'. cbn [rbind].
  rewrite u256_add_fits by lia. cbn [rbind]. rewrite N.add_0_l, Hb'.
  rewrite u256_mul_fits by (rewrite N.mul_0_r; lia). cbn [rbind].
  rewrite N.mul_0_r. change (u256_div 0 10000) with (@Ok N panic 0). cbn [rbind].
  rewrite u256_mul_fits by exact Hm. cbn [rbind].
  unfold u256_div. change (10000 =? 0) with false. cbn [rbind].
  unfold u256_sub at 1. rewrite (proj2 (N.leb_le 0 cost)) by lia. cbn [rbind].
  rewrite N.sub_0_r. unfold u256_sub. rewrite (proj2 (N.leb_le _ _) Hq). reflexivity.
Qed.

Lemma clear_revert_complete E s c x settle bidder auctioneer executor pa f body signer pvh pgus :
  clear_authorised E (vs_domain s) (vs_accounts s) (vs_transactions s) c x settle bidder
    auctioneer executor pa ->
  clear_fulfilled E (vs_domain s) c x f body signer pvh ->
  clear_priced (vs_accounts s) x pgus ->
  bal (vs_accounts s) (cc_requester x) < clear_cost x pgus ->
  execute_map E (TxClear c) s =
    (after_signed s (cc_request_id x) (vs_accounts s),
     ResRevert (InsufficientClearBalance (cc_requester x) (clear_cost x pgus)
                  (bal (vs_accounts s) (cc_requester x)))).
Proof.
  intros Hca Hf [Hp Hl Hfit [ra Hra]] Hlt. pose proof (cf_status _ _ _ _ _ _ _ _ Hf) as Hst.
  unfold clear_cost in *.
  assert (cc_price x * pgus < two256) by lia.
  assert (Hbal : bal (vs_accounts s) (cc_requester x) = acc_balance ra)
    by (unfold bal, acct; rewrite Hra; reflexivity).
  eapply execute_map_of_run; [| |reflexivity].
  - cbn [execute_inner]. unfold exec_clear.
    eapply fwd_bind; [eapply clear_checks_complete; eassumption|].
    rewrite Hst. change (2 =? status_unexecutable)%Z with false. cbn match.
    apply fwd_ensure; [reflexivity|].
    eapply fwd_bind; [eapply clear_fulfillment_complete; eassumption|].
    unfold clear_pay. repeat fwd.
    apply fwd_ensure; [now apply negb_true_iff, N.ltb_ge|]. repeat fwd.
    rewrite Hbal in *. decide_if. fwd. reflexivity.
  - rewrite <- after_signed_eq. reflexivity.
Qed.

Lemma clear_complete E s c x settle bidder auctioneer executor pa f body signer pvh pgus
    treasury A' :
  clear_authorised E (vs_domain s) (vs_accounts s) (vs_transactions s) c x settle bidder
    auctioneer executor pa ->
  clear_fulfilled E (vs_domain s) c x f body signer pvh ->
  clear_priced (vs_accounts s) x pgus ->
  clear_cost x pgus <= bal (vs_accounts s) (cc_requester x) ->
  as_address (rb_treasury (cc_request x)) = Some treasury ->
  acc_bips pa <= 10000 ->
  clear_cost x pgus * acc_bips pa < two256 ->
  moves (payments (AClear (cc_requester x) treasury (cc_prover x) (cc_prover_owner x)
                     (clear_cost x pgus) (acc_bips pa))) (vs_accounts s) A' ->
  execute_map E (TxClear c) s = (after_signed s (cc_request_id x) A', ResOk None).
Proof.
  intros Hca Hf [Hp Hl Hfit [ra Hra]] Hle Ht Hb Hcb Hm.
  pose proof (cf_status _ _ _ _ _ _ _ _ Hf) as Hst.
  pose proof (fee_zero_complete _ _ Hfit Hb Hcb) as Hfee.
  pose proof (ca_prover_acct _ _ _ _ _ _ _ _ _ _ _ Hca) as Hpa.
  unfold clear_cost in *. moves_inv.
  assert (cc_price x * pgus < two256) by lia.
  assert (Hbal : bal (vs_accounts s) (cc_requester x) = acc_balance ra)
    by (unfold bal, acct; rewrite Hra; reflexivity).
  assert (Hpa' : exists pa', m_debit (cc_requester x) (cc_price x * pgus + cc_base_fee x)
                   (vs_accounts s) !! cc_prover x = Some pa' /\ acc_bips pa' = acc_bips pa).
  { unfold m_debit. destruct (decide (cc_requester x = cc_prover x)) as [e|ne].
    - rewrite e, lookup_insert. eexists. split; [reflexivity|]. cbn. unfold acct.
      rewrite Hpa. reflexivity.
    - rewrite lookup_insert_ne by exact ne. eauto. }
  destruct Hpa' as (pa' & Hpa' & Hbips). rewrite <- Hbips in *.
  eapply execute_map_of_run; [| |reflexivity].
  - cbn [execute_inner]. unfold exec_clear.
    eapply fwd_bind; [eapply clear_checks_complete; eassumption|].
    rewrite Hst. change (2 =? status_unexecutable)%Z with false. cbn match.
    apply fwd_ensure; [reflexivity|].
    eapply fwd_bind; [eapply clear_fulfillment_complete; eassumption|].
    unfold clear_pay. repeat fwd.
    apply fwd_ensure; [now apply negb_true_iff, N.ltb_ge|]. repeat fwd.
    rewrite <- Hbal. decide_if. repeat fwd.
    eapply fwd_lift; [exact Hfee|]. cbv beta iota. repeat fwd. reflexivity.
  - rewrite <- after_signed_eq. reflexivity.
Qed.

(** The transition relation is exactly the non-panicking part of [execute]. *)
Lemma execute_map_complete E t s s' r :
  lstep E s t s' r -> execute_map E t s = (s', r).
Proof.
  intros H; destruct H.
  - now apply deposit_complete.
  - now apply create_prover_complete.
  - eapply delegate_revert_complete; eassumption.
  - eapply delegate_complete; eassumption.
  - eapply transfer_revert_complete; eassumption.
  - eapply transfer_complete; eassumption.
  - eapply withdraw_revert_complete; eassumption.
  - eapply withdraw_complete; eassumption.
  - eapply punish_revert_complete; eassumption.
  - eapply punish_complete; eassumption.
  - eapply clear_revert_complete; eassumption.
  - eapply clear_complete; eassumption.
Qed.

Lemma lstep_not_panic E s t s' r : lstep E s t s' r -> ~ is_panic r.
Proof. intros H; destruct H; cbn; tauto. Qed.
