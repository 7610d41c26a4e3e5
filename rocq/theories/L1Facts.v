(** Facts about the settlement contract. *)
From Verif Require Import AggFacts LedgerFacts StfFacts Typed AbiFacts.
From Verif Require Export L1Spec.
From Coq Require Import Lia ZifyBool ZifyN ZifyNat.
Open Scope N_scope.
Local Opaque request_index.

(** ** Results *)

Lemma bind_ok {X Y} (m : result X l1_error) (k : X -> result Y l1_error) y :
  l1_bind m k = Ok y -> exists x, m = Ok x /\ k x = Ok y.
Proof. destruct m; cbn; [eauto|discriminate]. Qed.

Lemma require_ok b e u : l1_require b e = Ok u -> b = true.
Proof. destruct b; [reflexivity|discriminate]. Qed.

Lemma succ_ok n m : l1_succ n = Ok m -> m = n + 1 /\ n + 1 < two64.
Proof. unfold l1_succ. destruct (N.ltb_spec (n + 1) two64); [|discriminate]. intros [= <-]. lia. Qed.

Lemma token_ok {X} (r : result X token_error) x : l1_token r = Ok x -> r = Ok x.
Proof. destruct r; cbn; congruence. Qed.

Ltac l1_inv :=
  repeat match goal with
  | H : l1_bind _ _ = Ok _ |- _ =>
      let x := fresh "x" in let H1 := fresh "H" in
      apply bind_ok in H as (x & H1 & H)
  | H : l1_require _ _ = Ok _ |- _ => apply require_ok in H
  | H : l1_succ _ = Ok _ |- _ => apply succ_ok in H as [-> ?]
  | H : l1_token _ = Ok _ |- _ => apply token_ok in H
  | H : Ok ?a = Ok ?b |- _ => assert (a = b) by congruence; clear H
  | H : Err _ = Ok _ |- _ => discriminate
  end.

Ltac words := repeat match goal with |- context [be_bytes 32 ?x] => change (be_bytes 32 x) with (word x) end.

(** ** Decoded words are prefixes *)

Lemma read_word_at bs p x rest :
  bytes_ok bs -> bs = p ++ rest -> read_word bs (N.of_nat (length p)) = Some x ->
  exists rest', rest = word x ++ rest'.
Proof.
  intros Hok Heq. unfold read_word. destruct (N.leb_spec (N.of_nat (length p) + 32) (N.of_nat (length bs))) as [Hl|];
    [|discriminate].
  rewrite Nat2N.id. subst bs. rewrite app_length in Hl. rewrite drop_app.
  intros [= <-]. exists (drop 32 rest).
  rewrite <- (take_drop 32 rest) at 1. f_equal. symmetry.
  unfold word. assert (Hlen : length (take 32 rest) = 32%nat) by (rewrite take_length; lia).
  rewrite <- Hlen at 1. apply be_bytes_from_be.
  apply Forall_app in Hok as [_ Hok]. now apply Forall_take.
Qed.

Lemma decode_deposit_prefix bs d :
  bytes_ok bs -> l1_decode_deposit bs = Ok d -> exists rest, bs = queued_data (QDeposit d) ++ rest.
Proof.
  intros Hok. unfold l1_decode_deposit.
  destruct (read_word bs 0) as [a|] eqn:Ha; [|discriminate].
  destruct (read_word bs 32) as [y|] eqn:Hy; [|discriminate].
  destruct (a <? two160); [|discriminate]. intros [= <-].
  destruct (read_word_at bs [] a bs Hok eq_refl Ha) as [r1 H1].
  destruct (read_word_at bs (word a) y r1 Hok H1) as [r2 H2]; [now rewrite word_length|].
  exists r2. cbn [queued_data da_account da_amount]. words. rewrite <- app_assoc. congruence.
Qed.

Lemma decode_create_prefix bs c :
  bytes_ok bs -> l1_decode_create bs = Ok c -> exists rest, bs = queued_data (QCreateProver c) ++ rest.
Proof.
  intros Hok. unfold l1_decode_create.
  destruct (read_word bs 0) as [a|] eqn:Ha; [|discriminate].
  destruct (read_word bs 32) as [y|] eqn:Hy; [|discriminate].
  destruct (read_word bs 64) as [z|] eqn:Hz; [|discriminate].
  destruct ((a <? two160) && (y <? two160)); [|discriminate]. intros [= <-].
  destruct (read_word_at bs [] a bs Hok eq_refl Ha) as [r1 H1].
  destruct (read_word_at bs (word a) y r1 Hok H1) as [r2 H2]; [now rewrite word_length|].
  destruct (read_word_at bs (word a ++ word y) z r2 Hok) as [r3 H3].
  { rewrite <- app_assoc. congruence. }
  { rewrite app_length, !word_length. exact Hz. }
  exists r3. cbn [queued_data cp_prover cp_owner cp_bips]. words. rewrite <- !app_assoc. congruence.
Qed.

Definition typed_queued (q : queued) : Prop :=
  match q with QDeposit d => typed_deposit d | QCreateProver c => typed_create_prover c end.

Lemma decode_deposit_own d rest :
  typed_deposit d -> l1_decode_deposit (queued_data (QDeposit d) ++ rest) = Ok d.
Proof.
  intros [Ha Hx]. unfold l1_decode_deposit. cbn [queued_data]. words. rewrite <- app_assoc.
  rewrite read_word_0 by (apply is_address_word; exact Ha). rewrite read_1 by exact Hx.
  unfold is_address in Ha. destruct (N.ltb_spec (da_account d) two160) as [|Hn];
    [|unfold two160 in Hn; lia]. destruct d. reflexivity.
Qed.

Lemma decode_create_own c rest :
  typed_create_prover c -> l1_decode_create (queued_data (QCreateProver c) ++ rest) = Ok c.
Proof.
  intros (Ha & Ho & Hx). unfold l1_decode_create. cbn [queued_data]. words. rewrite <- !app_assoc.
  rewrite read_word_0 by (apply is_address_word; exact Ha). rewrite read_1 by (apply is_address_word; exact Ho).
  rewrite read_2 by exact Hx.
  unfold is_address in Ha, Ho. destruct (N.ltb_spec (cp_prover c) two160) as [|Hn];
    [|unfold two160 in Hn; lia]. destruct (N.ltb_spec (cp_owner c) two160) as [|Hn];
    [|unfold two160 in Hn; lia]. destruct c. reflexivity.
Qed.

(** ** The queue *)

Lemma data_own q : typed_queued q ->
  queued_data q = match q with QDeposit d => abi_deposit d | QCreateProver c => abi_create_prover c end.
Proof. destruct q; reflexivity. Qed.

(** Receipt and recorded transaction agree. *)
Lemma assert_eq_ok q status id r :
  typed_queued q -> bytes_ok (sr_action r) ->
  assert_eq (L1Tx (queued_variant q) status id (queued_data q)) r = Ok tt ->
  sr_variant r = queued_variant q /\ exists rest, sr_action r = queued_data q ++ rest.
Proof.
  intros Hq Hok. unfold assert_eq, assert_deposit_eq, assert_prover_eq. cbn [lt_variant lt_action].
  destruct (sr_variant r) eqn:Hv; destruct q as [d|c]; cbn [queued_variant]; cbn [negb bool_decide];
    repeat match goal with |- context [bool_decide ?P] => destruct (bool_decide_reflect P); try discriminate end;
    cbn [negb]; try discriminate.
  - pose proof (decode_deposit_own d [] Hq) as Hd. rewrite app_nil_r in Hd. rewrite Hd.
    intros H. cbn [l1_bind] in H. l1_inv. split; [reflexivity|].
    destruct (decode_deposit_prefix _ _ Hok H0) as [rest ->]. exists rest. f_equal.
    apply N.eqb_eq in H1, H. cbn [queued_data]. now rewrite H1, H.
  - pose proof (decode_create_own c [] Hq) as Hd. rewrite app_nil_r in Hd. rewrite Hd.
    intros H. cbn [l1_bind] in H. l1_inv. split; [reflexivity|].
    destruct (decode_create_prefix _ _ Hok H0) as [rest ->]. exists rest. f_equal.
    apply N.eqb_eq in H1, H2, H. cbn [queued_data]. now rewrite H1, H2, H.
Qed.

Lemma default_assert_fails r u : assert_eq l1_tx_default r <> Ok u.
Proof.
  unfold assert_eq, assert_deposit_eq, assert_prover_eq, l1_tx_default. cbn [lt_variant lt_action].
  destruct (sr_variant r); repeat match goal with |- context [bool_decide ?P] => destruct (bool_decide_reflect P) end;
    cbn; discriminate.
Qed.

(** A call that leaves the queue alone. *)
Lemma queue_same C F v v' :
  queue_faithful C F v -> va_current v' = va_current v -> va_finalized v' = va_finalized v ->
  va_txs v' = va_txs v -> queue_faithful C F v'.
Proof.
  intros [H1 H2 H3 H4 H5 H6] E1 E2 E3. constructor; rewrite ?E1, ?E2, ?E3; assumption.
Qed.

Lemma status_new F r n : status_at (F ++ [r]) n =
  (if (n =? length F)%nat then sr_status r else status_at F n).
Proof.
  unfold status_at. destruct (Nat.eqb_spec n (length F)) as [->|Hn].
  - rewrite list_lookup_middle by reflexivity. reflexivity.
  - destruct (decide (n < length F)%nat).
    + rewrite lookup_app_l by assumption. reflexivity.
    + rewrite lookup_ge_None_2 by (rewrite app_length; cbn; lia).
      rewrite lookup_ge_None_2 by lia. reflexivity.
Qed.

Lemma queue_create C F v v' q :
  queue_faithful C F v -> create_transaction (queued_variant q) (queued_data q) v = Ok v' ->
  queue_faithful (C ++ [q]) F v' /\ va_prove v' = va_prove v /\ va_min_deposit v' = va_min_deposit v /\
  va_block v' = va_block v /\ va_roots v' = va_roots v /\ va_timestamps v' = va_timestamps v.
Proof.
  intros [H1 H2 H3 H4 H5 H6]. unfold create_transaction. intros H. l1_inv. subst v'.
  split; [|repeat split].
  constructor; unfold va_set_queue; cbn [va_current va_finalized va_txs].
  - rewrite app_length. cbn. lia.
  - exact H2.
  - rewrite app_length. lia.
  - intros n q' Hq. destruct (decide (n = length C)) as [->|Hn].
    + rewrite list_lookup_middle in Hq by reflexivity. assert (q = q') as <- by congruence.
      rewrite H1, lookup_insert. do 2 f_equal. unfold status_at. now rewrite lookup_ge_None_2 by lia.
    + assert (n < length C)%nat.
      { apply lookup_lt_Some in Hq. rewrite app_length in Hq. cbn in Hq. lia. }
      rewrite lookup_app_l in Hq by assumption. rewrite lookup_insert_ne by lia. now apply H4.
  - intros k Hk. rewrite lookup_insert_ne by lia. apply H5. lia.
  - intros n r Hr. destruct (H6 n r Hr) as (A & B & q' & rest & D & G). split; [exact A|]. split; [exact B|].
    exists q', rest. split; [|exact G]. apply lookup_app_l_Some. exact D.
Qed.

Lemma queue_receipt C F v v' r :
  Forall typed_queued C -> bytes_ok (sr_action r) ->
  queue_faithful C F v -> handle_onchain_receipt r v = Ok v' ->
  queue_faithful C (F ++ [r]) v' /\ va_prove v' = va_prove v /\
  va_block v' = va_block v /\ va_roots v' = va_roots v /\ va_timestamps v' = va_timestamps v.
Proof.
  intros Hty Hok [H1 H2 H3 H4 H5 H6] H. unfold handle_onchain_receipt in H. l1_inv.
  destruct (N.eqb_spec (va_finalized v + 1) (sr_tx_id r)) as [Hid|]; [cbn [negb] in H|discriminate].
  destruct (C !! length F) as [q|] eqn:Hq.
  - pose proof (H4 _ _ Hq) as Htx. rewrite <- H2 in Htx. rewrite Htx in H. cbn [from_option default id lt_variant lt_id lt_action] in H.
    assert (Hst : sr_status r = StCompleted \/ sr_status r = StReverted)
      by (destruct (sr_status r); try discriminate; tauto).
    assert (Hall : assert_eq (L1Tx (queued_variant q) (status_at F (length F)) (va_finalized v + 1) (queued_data q)) r = Ok tt /\
      v' = va_set_finalized (va_finalized v + 1)
          (<[va_finalized v + 1 := L1Tx (queued_variant q) (sr_status r) (va_finalized v + 1) (queued_data q)]> (va_txs v)) v).
    { destruct (sr_status r); try discriminate; l1_inv; destruct x; (split; [assumption|]).
      - destruct (sr_variant r); cbv beta iota in *; congruence.
      - cbv beta iota in *; congruence. }
    clear H. destruct Hall as [Has ->].
    destruct (assert_eq_ok q _ _ r (proj1 (Forall_lookup _ _) Hty _ _ Hq) Hok Has) as (Hv & rest & Hrest).
    pose proof (lookup_lt_Some _ _ _ Hq) as Hlt.
    split; [|repeat split].
    constructor; unfold va_set_finalized; cbn [va_current va_finalized va_txs].
    + exact H1.
    + rewrite app_length. cbn. lia.
    + rewrite app_length. cbn. lia.
    + intros n q' Hq'. rewrite status_new. destruct (Nat.eqb_spec n (length F)) as [->|Hn].
      * assert (q = q') as <- by congruence. rewrite H2, lookup_insert. reflexivity.
      * rewrite lookup_insert_ne by lia. now apply H4.
    + intros k Hk. rewrite lookup_insert_ne by lia. now apply H5.
    + intros n r' Hr. destruct (decide (n = length F)) as [->|Hn].
      * rewrite list_lookup_middle in Hr by reflexivity. assert (r = r') as <- by congruence.
        split; [lia|]. split; [exact Hst|]. exists q, rest. auto.
      * assert (n < length F)%nat.
        { apply lookup_lt_Some in Hr. rewrite app_length in Hr. cbn in Hr. lia. }
        rewrite lookup_app_l in Hr by assumption. now apply H6.
  - exfalso. apply lookup_ge_None in Hq. rewrite (H5 (va_finalized v + 1)) in H by lia.
    cbn [from_option default id] in H.
    destruct (sr_status r); try discriminate; l1_inv; eapply default_assert_fails; eassumption.
Qed.

(** The parts of the state that payments leave alone. *)
Definition same_but_token (v v' : l1_state) : Prop := v' = va_set_prove (va_prove v') v.

Lemma process_withdraw_frame L x to amount v v' :
  process_withdraw L x to amount v = Ok v' -> same_but_token v v'.
Proof.
  unfold process_withdraw, same_but_token. intros H. destruct (cx_is_prover x to); l1_inv; subst; reflexivity.
Qed.

Lemma offchain_frame L x r v v' : handle_offchain_receipt L x r v = Ok v' -> same_but_token v v'.
Proof.
  unfold handle_offchain_receipt. intros H. destruct (sr_status r); try discriminate.
  - destruct (sr_variant r); try discriminate. l1_inv. eapply process_withdraw_frame; eassumption.
  - unfold same_but_token. assert (v = v') as <- by congruence. destruct v; reflexivity.
Qed.

Lemma token_frame C F v v' : same_but_token v v' -> queue_faithful C F v -> queue_faithful C F v'.
Proof. intros Hs H. rewrite Hs. eapply queue_same; [exact H|reflexivity..]. Qed.

Lemma onchain_cons r rs : onchain (r :: rs) = (if sr_tx_id r =? u64_max then onchain rs else r :: onchain rs).
Proof.
  unfold onchain. destruct (N.eqb_spec (sr_tx_id r) u64_max).
  - apply filter_cons_False. tauto.
  - apply filter_cons_True. assumption.
Qed.

Lemma queue_receipts L x C rs : forall F v v',
  Forall typed_queued C -> Forall (fun r => bytes_ok (sr_action r)) rs ->
  queue_faithful C F v -> handle_receipts L x rs v = Ok v' ->
  queue_faithful C (F ++ onchain rs) v' /\
  va_block v' = va_block v /\ va_roots v' = va_roots v /\ va_timestamps v' = va_timestamps v.
Proof.
  induction rs as [|r rs IH]; intros F v v' Hty Hok Hq H; cbn [handle_receipts] in H.
  - l1_inv. subst v'. unfold onchain. rewrite app_nil_r. auto.
  - l1_inv. apply Forall_cons in Hok as [Hr Hok]. rewrite onchain_cons.
    destruct (sr_tx_id r =? u64_max); cbn [negb] in *.
    + pose proof (offchain_frame _ _ _ _ _ H0) as Hs.
      destruct (IH F _ _ Hty Hok (token_frame _ _ _ _ Hs Hq) H) as (A & B & D & G).
      split; [exact A|]. rewrite B, D, G. rewrite Hs. auto.
    + destruct (queue_receipt _ _ _ _ _ Hty Hr Hq H0) as (A & _ & B & D & G).
      destruct (IH (F ++ [r]) _ _ Hty Hok A H) as (A' & B' & D' & G').
      rewrite <- app_assoc in A'. split; [exact A'|]. rewrite B', D', G'. auto.
Qed.

Lemma onchain_block r v v' : handle_onchain_receipt r v = Ok v' ->
  va_block v' = va_block v /\ va_roots v' = va_roots v /\ va_timestamps v' = va_timestamps v.
Proof.
  unfold handle_onchain_receipt. intros H. l1_inv. destruct (negb _); [discriminate|].
  destruct (sr_status r); try discriminate; l1_inv; destruct (sr_variant r); l1_inv; subst; auto.
Qed.

Lemma handle_block L x rs : forall v v', handle_receipts L x rs v = Ok v' ->
  va_block v' = va_block v /\ va_roots v' = va_roots v /\ va_timestamps v' = va_timestamps v.
Proof.
  induction rs as [|r rs IH]; intros v v' H; cbn [handle_receipts] in H; l1_inv; [subst; auto|].
  destruct (IH _ _ H) as (A & B & D). rewrite A, B, D.
  destruct (negb _); [now apply onchain_block in H0|]. apply offchain_frame in H0. rewrite H0. auto.
Qed.

(** ** Steps *)

Lemma step_ok L x b proof v v' :
  l1_step L x b proof v = Ok v' ->
  exists p, step_allowed L x b proof p v /\
    handle_receipts L x (pv_receipts p) (va_set_block (va_block v + 1) (pv_new_root p) (pv_timestamp p) v)
    = Ok v'.
Proof.
  unfold l1_step. intros H. l1_inv. destruct (le_decode L b) as [p|] eqn:Hd; [|discriminate]. l1_inv.
  exists p. split; [|assumption].
  destruct (va_paused v) eqn:?; [discriminate|].
  repeat match goal with
  | H : (_ =? _) = true |- _ => apply N.eqb_eq in H
  | H : (_ <=? _) = true |- _ => apply N.leb_le in H
  | H : negb (_ =? _) = true |- _ => apply negb_true_iff, N.eqb_neq in H
  end.
  constructor; try assumption; try congruence; lia.
Qed.

Lemma deposit_from_ok L from amount v v' :
  deposit_from L from amount v = Ok v' ->
  va_min_deposit v <= amount /\
  exists v1 t, create_transaction VDeposit (queued_data (QDeposit (DepositAction from amount))) v = Ok v1 /\
    tk_transfer_from (va_prove v1) (le_self L) from (le_self L) amount = Ok t /\ v' = va_set_prove t v1.
Proof.
  unfold deposit_from. intros H. destruct (N.ltb_spec amount (va_min_deposit v)); [discriminate|].
  split; [assumption|]. l1_inv. do 2 eexists. split; [eassumption|]. split; [eassumption|congruence].
Qed.

Lemma permit_ok L x from amount v v' :
  l1_permit_and_deposit L x from amount v = Ok v' ->
  va_paused v = false /\
  ((tk_allowance (va_prove v) from (le_self L) = amount /\ deposit_from L from amount v = Ok v') \/
   (cx_permit_valid x = true /\
    deposit_from L from amount (va_set_prove (tk_approve (va_prove v) from (le_self L) amount) v) = Ok v')).
Proof.
  unfold l1_permit_and_deposit. intros H. l1_inv. split; [now apply negb_true_iff|].
  destruct (N.eqb_spec (tk_allowance (va_prove v) from (le_self L)) amount).
  - l1_inv. left. split; [assumption|congruence].
  - destruct (cx_permit_valid x); [|discriminate]. l1_inv. right. split; [reflexivity|congruence].
Qed.

Lemma queued_typed x c : typed_call x c -> Forall typed_queued (queued_by x c).
Proof.
  intros [Hs Hc]. destruct c; cbn [queued_by] in *; constructor; try constructor; cbn; try tauto.
Qed.

Lemma created_typed log : Forall typed_entry log -> Forall typed_queued (created log).
Proof.
  intros H. unfold created. apply Forall_flat_map. eapply Forall_impl; [exact H|].
  intros [x c i|x c e|o] Ht; [apply queued_typed; exact Ht|constructor|constructor].
Qed.

(** What a call does besides the queue. *)
Definition block_effect (c : l1_call) (v v' : l1_state) : Prop :=
  match c with
  | CStep _ _ | CFork _ _ =>
      va_block v' = va_block v + 1 /\
      (forall n, n <> va_block v + 1 -> va_roots v' !! n = va_roots v !! n /\
                                         va_timestamps v' !! n = va_timestamps v !! n)
  | _ => va_block v' = va_block v /\ va_roots v' = va_roots v /\ va_timestamps v' = va_timestamps v
  end.

Lemma run_queue L x c i v v' C F :
  l1_env_ok L -> typed_call x c -> Forall typed_queued C -> queue_faithful C F v ->
  l1_run L x c v = Ok v' ->
  queue_faithful (C ++ created [LAccepted x c i]) (F ++ finalised L [LAccepted x c i]) v' /\
  block_effect c v v'.
Proof.
  intros HL Hc Hty Hq H. unfold created, finalised. cbn [flat_map]. rewrite !app_nil_r.
  destruct c as [amount|from amount|prover owner bips|b proof|vkey root|c]; cbn [l1_run queued_by block_effect] in *;
    rewrite ?app_nil_r.
  - unfold l1_deposit in H. l1_inv. apply deposit_from_ok in H as (_ & v1 & t & Hcr & _ & ->).
    destruct (queue_create _ _ _ _ (QDeposit (DepositAction (cx_sender x) amount)) Hq Hcr) as (A & _ & _ & B).
    split; [|exact B]. eapply queue_same; [exact A|reflexivity..].
  - apply permit_ok in H as (_ & [(_ & H)|(_ & H)]); apply deposit_from_ok in H as (_ & v1 & t & Hcr & _ & ->).
    + destruct (queue_create _ _ _ _ (QDeposit (DepositAction from amount)) Hq Hcr) as (A & _ & _ & B).
      split; [|exact B]. eapply queue_same; [exact A|reflexivity..].
    + match type of Hcr with create_transaction _ _ ?w = _ =>
        assert (Hq1 : queue_faithful C F w) by (eapply queue_same; [exact Hq|reflexivity..]) end.
      destruct (queue_create _ _ _ _ (QDeposit (DepositAction from amount)) Hq1 Hcr) as (A & _ & _ & B).
      split; [|exact B]. eapply queue_same; [exact A|reflexivity..].
  - unfold l1_create_prover in H. l1_inv.
    destruct (queue_create _ _ _ _ (QCreateProver (CreateProverAction prover owner bips)) Hq H) as (A & _ & _ & B).
    split; [exact A|exact B].
  - apply step_ok in H as (p & Hp & H). rewrite (sa_decoded _ _ _ _ _ _ Hp).
    assert (Hok : Forall (fun r => bytes_ok (sr_action r)) (pv_receipts p)).
    { apply Forall_forall. intros r Hr. exact (leo_bytes L HL b p r (sa_decoded _ _ _ _ _ _ Hp) Hr). }
    match type of H with handle_receipts _ _ _ ?w = _ =>
        assert (Hq1 : queue_faithful C F w) by (eapply queue_same; [exact Hq|reflexivity..]) end.
    destruct (queue_receipts L x C _ _ _ _ Hty Hok Hq1 H) as (A & B & D & G).
    split; [exact A|]. rewrite B, D, G. unfold va_set_block. cbn [va_block va_roots va_timestamps].
    split; [reflexivity|]. intros n Hn. rewrite !lookup_insert_ne by lia. auto.
  - unfold l1_fork in H. l1_inv. subst v'. split; [eapply queue_same; [exact Hq|reflexivity..]|].
    unfold va_set_block. cbn [va_block va_roots va_timestamps].
    split; [reflexivity|]. intros n Hn. rewrite !lookup_insert_ne by lia. auto.
  - unfold l1_admin in H. l1_inv.
    assert (He : va_current v' = va_current v /\ va_finalized v' = va_finalized v /\ va_txs v' = va_txs v /\
      va_block v' = va_block v /\ va_roots v' = va_roots v /\ va_timestamps v' = va_timestamps v).
    { destruct c; repeat match type of H with context [if ?b then _ else _] => destruct b end;
        l1_inv; subst; repeat split. }
    destruct He as (A & B & D & G). split; [eapply queue_same; [exact Hq|assumption..]|exact G].
Qed.

Lemma transact_ok L x c v v1 : l1_transact L x c v = (v1, None) -> l1_run L x c v = Ok v1.
Proof. unfold l1_transact. destruct (l1_run L x c v); intros H; apply pair_equal_spec in H as [-> H]; [reflexivity|discriminate]. Qed.

Lemma transact_err L x c v v1 e : l1_transact L x c v = (v1, Some e) -> l1_run L x c v = Err e /\ v1 = v.
Proof. unfold l1_transact. destruct (l1_run L x c v); intros H; apply pair_equal_spec in H as [-> H]; [discriminate|]. split; congruence. Qed.

Lemma created_app a b : created (a ++ b) = created a ++ created b.
Proof. apply flat_map_app. Qed.
Lemma finalised_app L a b : finalised L (a ++ b) = finalised L a ++ finalised L b.
Proof. apply flat_map_app. Qed.

Lemma history_queue L v log v' : l1_env_ok L -> l1_history L v log v' -> Forall typed_entry log ->
  forall pre, Forall typed_entry pre -> queue_faithful (created pre) (finalised L pre) v ->
  queue_faithful (created (pre ++ log)) (finalised L (pre ++ log)) v'.
Proof.
  intros HL H. induction H as [v|v x c i v1 log v' Ht H IH|v x c e v1 log v' Ht H IH|v o t log v' Ht H IH];
    intros Hty pre Hpre Hq.
  - rewrite app_nil_r. exact Hq.
  - apply Forall_cons in Hty as [Hc Hty].
    replace (pre ++ LAccepted x c i :: log) with ((pre ++ [LAccepted x c i]) ++ log) by (now rewrite <- app_assoc).
    apply IH; [exact Hty|apply Forall_app; split; [exact Hpre|now constructor]|].
    rewrite created_app, finalised_app. apply transact_ok in Ht.
    exact (proj1 (run_queue L x c i v v1 _ _ HL Hc (created_typed _ Hpre) Hq Ht)).
  - apply Forall_cons in Hty as [Hc Hty]. apply transact_err in Ht as [_ ->].
    replace (pre ++ LReverted x c e :: log) with ((pre ++ [LReverted x c e]) ++ log) by (now rewrite <- app_assoc).
    apply IH; [exact Hty|apply Forall_app; split; [exact Hpre|now constructor]|].
    rewrite created_app, finalised_app. cbn. rewrite !app_nil_r. exact Hq.
  - apply Forall_cons in Hty as [Hc Hty].
    replace (pre ++ LToken o :: log) with ((pre ++ [LToken o]) ++ log) by (now rewrite <- app_assoc).
    apply IH; [exact Hty|apply Forall_app; split; [exact Hpre|now constructor]|].
    rewrite created_app, finalised_app. cbn. rewrite !app_nil_r.
    eapply queue_same; [exact Hq|reflexivity..].
Qed.

Lemma initial_queue L prove owner pa auctioneer staking verifier md vkey genesis v :
  l1_initialize L prove owner pa auctioneer staking verifier md vkey genesis = Some v ->
  queue_faithful [] [] v.
Proof.
  unfold l1_initialize. destruct (_ || _); [discriminate|]. intros [= <-].
  constructor; try reflexivity.
  - intros n q Hq. rewrite lookup_nil in Hq. discriminate.
  - intros n r Hr. rewrite lookup_nil in Hr. discriminate.
Qed.

(** ** Blocks *)

Lemma run_block L x c v v' :
  l1_run L x c v = Ok v' ->
  va_block v <= va_block v' /\
  (forall n, n <= va_block v -> va_roots v' !! n = va_roots v !! n /\ va_timestamps v' !! n = va_timestamps v !! n).
Proof.
  intros H.
  assert (Hsame : va_block v' = va_block v -> va_roots v' = va_roots v -> va_timestamps v' = va_timestamps v ->
    va_block v <= va_block v' /\
    (forall n, n <= va_block v -> va_roots v' !! n = va_roots v !! n /\ va_timestamps v' !! n = va_timestamps v !! n)).
  { intros -> -> ->. split; [reflexivity|]. auto. }
  assert (Hcr : forall variant data w w', create_transaction variant data w = Ok w' ->
    va_block w' = va_block w /\ va_roots w' = va_roots w /\ va_timestamps w' = va_timestamps w).
  { intros variant data w w' Hw. unfold create_transaction in Hw. l1_inv. subst w'. auto. }
  destruct c as [amount|from amount|prover owner bips|b proof|vkey root|c]; cbn [l1_run] in H.
  - unfold l1_deposit in H. l1_inv. apply deposit_from_ok in H as (_ & v1 & t & H & _ & ->).
    apply Hcr in H as (A & B & D). now apply Hsame.
  - apply permit_ok in H as (_ & [(_ & H)|(_ & H)]); apply deposit_from_ok in H as (_ & v1 & t & H & _ & ->);
      apply Hcr in H as (A & B & D); now apply Hsame.
  - unfold l1_create_prover in H. l1_inv. apply Hcr in H as (A & B & D). now apply Hsame.
  - apply step_ok in H as (p & _ & H). apply handle_block in H as (A & B & D). rewrite A, B, D.
    unfold va_set_block. cbn [va_block va_roots va_timestamps]. split; [lia|]. intros n Hn.
    rewrite !lookup_insert_ne by lia. auto.
  - unfold l1_fork in H. l1_inv. subst v'.
    unfold va_set_block. cbn [va_block va_roots va_timestamps]. split; [lia|]. intros n Hn.
    unfold va_set_admin. cbn [va_block va_roots va_timestamps]. rewrite !lookup_insert_ne by lia. auto.
  - unfold l1_admin in H. l1_inv.
    destruct c; repeat match type of H with context [if ?b then _ else _] => destruct b end;
      l1_inv; subst; now apply Hsame.
Qed.

Lemma history_block L v log v' :
  l1_history L v log v' ->
  va_block v <= va_block v' /\
  (forall n, n <= va_block v -> va_roots v' !! n = va_roots v !! n /\ va_timestamps v' !! n = va_timestamps v !! n).
Proof.
  induction 1 as [v|v x c i v1 log v' Ht H [IH1 IH2]|v x c e v1 log v' Ht H IH|v o t log v' Ht H IH].
  - split; [reflexivity|auto].
  - apply transact_ok in Ht. apply run_block in Ht as [A B]. split; [lia|]. intros n Hn.
    destruct (B n Hn) as [B1 B2], (IH2 n ltac:(lia)) as [C1 C2]. split; congruence.
  - apply transact_err in Ht as [_ ->]. exact IH.
  - exact IH.
Qed.

Lemma run_timestamp L x c v v' :
  l1_run L x c v = Ok v' -> (forall vkey root, c <> CFork vkey root) -> va_timestamp v <= va_timestamp v'.
Proof.
  intros H Hnf. destruct c as [amount|from amount|prover owner bips|b proof|vkey root|c].
  4:{ cbn [l1_run] in H. apply step_ok in H as (p & Hp & H). apply handle_block in H as (A & B & D).
      unfold va_timestamp at 2. rewrite A, D. unfold va_set_block. cbn [va_block va_timestamps].
      rewrite lookup_insert. cbn [default from_option id]. destruct Hp. lia. }
  4:{ now destruct (Hnf vkey root). }
  all: assert (Hb : va_block v' = va_block v /\ va_timestamps v' = va_timestamps v);
    [|destruct Hb as [Hb1 Hb2]; unfold va_timestamp; rewrite Hb1, Hb2; reflexivity].
  all: cbn [l1_run] in H.
  - unfold l1_deposit in H. l1_inv. apply deposit_from_ok in H as (_ & v1 & t & H & _ & ->).
    unfold create_transaction in H. l1_inv. subst v1. auto.
  - apply permit_ok in H as (_ & [(_ & H)|(_ & H)]); apply deposit_from_ok in H as (_ & v1 & t & H & _ & ->);
      unfold create_transaction in H; l1_inv; subst v1; auto.
  - unfold l1_create_prover in H. l1_inv. unfold create_transaction in H. l1_inv. subst v'. auto.
  - unfold l1_admin in H. l1_inv.
    destruct c; repeat match type of H with context [if ?b then _ else _] => destruct b end;
      l1_inv; subst; auto.
Qed.

Lemma history_timestamp L v log v' :
  l1_history L v log v' -> Forall no_fork log -> va_timestamp v <= va_timestamp v'.
Proof.
  induction 1 as [v|v x c i v1 log v' Ht H IH|v x c e v1 log v' Ht H IH|v o t log v' Ht H IH]; intros Hnf.
  - reflexivity.
  - apply Forall_cons in Hnf as [Hf Hnf]. apply transact_ok in Ht. apply run_timestamp in Ht.
    + specialize (IH Hnf). lia.
    + intros vkey root ->. exact Hf.
  - apply Forall_cons in Hnf as [Hf Hnf]. apply transact_err in Ht as [_ ->]. now apply IH.
  - apply Forall_cons in Hnf as [Hf Hnf]. now apply IH.
Qed.

(** ** Settings *)

Lemma onchain_settings r v v' : handle_onchain_receipt r v = Ok v' -> settings v' = settings v.
Proof.
  unfold handle_onchain_receipt. intros H. l1_inv. destruct (negb _); [discriminate|].
  destruct (sr_status r); try discriminate; l1_inv; destruct (sr_variant r); l1_inv; subst; reflexivity.
Qed.

Lemma handle_settings L x rs : forall v v', handle_receipts L x rs v = Ok v' -> settings v' = settings v.
Proof.
  induction rs as [|r rs IH]; intros v v' H; cbn [handle_receipts] in H; l1_inv; [subst; auto|].
  rewrite (IH _ _ H).
  destruct (negb _); [now apply onchain_settings in H0|]. apply offchain_frame in H0. rewrite H0. reflexivity.
Qed.

Lemma deposit_settings L from amount v v' : deposit_from L from amount v = Ok v' -> settings v' = settings v.
Proof.
  intros H. apply deposit_from_ok in H as (_ & v1 & t & H & _ & ->).
  unfold create_transaction in H. l1_inv. subst v1. reflexivity.
Qed.

Lemma run_settings L x c v v' :
  l1_run L x c v = Ok v' -> settings v' <> settings v ->
  cx_sender x = va_owner v /\ ((exists a, c = CAdmin a) \/ (exists vkey root, c = CFork vkey root)).
Proof.
  intros H Hne. destruct c as [amount|from amount|prover owner bips|b proof|vkey root|c]; cbn [l1_run] in H.
  - unfold l1_deposit in H. l1_inv. apply deposit_settings in H. congruence.
  - apply permit_ok in H as (_ & [(_ & H)|(_ & H)]); apply deposit_settings in H; destruct Hne; exact H.
  - unfold l1_create_prover in H. l1_inv. unfold create_transaction in H. l1_inv. subst v'. now destruct Hne.
  - apply step_ok in H as (p & _ & H). apply handle_settings in H. now destruct Hne.
  - unfold l1_fork in H. l1_inv. split; [now apply N.eqb_eq|eauto].
  - unfold l1_admin in H. l1_inv. split; [now apply N.eqb_eq|eauto].
Qed.

Lemma run_paused L x c v v' :
  l1_run L x c v = Ok v' -> va_paused v = true ->
  (exists a, c = CAdmin a) \/ (exists vkey root, c = CFork vkey root).
Proof.
  intros H Hp. destruct c as [amount|from amount|prover owner bips|b proof|vkey root|c]; cbn [l1_run] in H; eauto; exfalso.
  - unfold l1_deposit in H. l1_inv. rewrite Hp in *. discriminate.
  - apply permit_ok in H as [H _]. congruence.
  - unfold l1_create_prover in H. l1_inv. rewrite Hp in *. discriminate.
  - apply step_ok in H as (p & Hs & _). destruct Hs. congruence.
Qed.

Lemma run_paused_owner L x c v v' :
  l1_run L x c v = Ok v' -> va_paused v = true ->
  cx_sender x = va_owner v /\ ((exists a, c = CAdmin a) \/ (exists vkey root, c = CFork vkey root)).
Proof.
  intros H Hp. pose proof (run_paused L x c v v' H Hp) as Hc. split; [|exact Hc].
  destruct Hc as [[a ->]|(vkey & root & ->)]; cbn [l1_run] in H.
  - unfold l1_admin in H. l1_inv. now apply N.eqb_eq.
  - unfold l1_fork in H. l1_inv. now apply N.eqb_eq.
Qed.

Lemma handle_current L x rs : forall v v', handle_receipts L x rs v = Ok v' -> va_current v' = va_current v.
Proof.
  induction rs as [|r rs IH]; intros v v' H; cbn [handle_receipts] in H; l1_inv; [subst; auto|].
  rewrite (IH _ _ H). destruct (negb _).
  - clear H. rename H0 into H. unfold handle_onchain_receipt in H. l1_inv. destruct (negb _); [discriminate|].
    destruct (sr_status r); try discriminate; l1_inv; destruct (sr_variant r); l1_inv; subst; reflexivity.
  - apply offchain_frame in H0. rewrite H0. reflexivity.
Qed.
