(** Encodings and execution. *)
From Verif Require Export Typed AbiFacts ProstFacts StfFacts.
From Verif Require Import Bytes.
From Coq Require Import ZifyBool ZifyN ZifyNat.
Open Scope N_scope.
Local Opaque request_index.

Lemma b256_length bs d : as_word bs = Some d -> length bs = 32%nat.
Proof. unfold as_word. destruct (Nat.eqb_spec (length bs) 32); [auto|discriminate]. Qed.

Lemma lstep_roles E l t l' r : lstep E l t l' r -> Forall fits_role (messages_of t).
Proof.
  assert (Hclear : forall c x settle bidder auctioneer executor pa,
    clear_authorised E (vs_domain l) (vs_accounts l) (vs_transactions l) c x settle bidder auctioneer
      executor pa ->
    eb_execution_status (cc_execute x) = 3%Z \/
    (exists f body signer pvh, clear_fulfilled E (vs_domain l) c x f body signer pvh) ->
    Forall fits_role (messages_of (TxClear c))).
  { intros c x settle bidder auctioneer executor pa H Hf.
    destruct H as [[H1 _] [H2 _] [H3 _] [H4 _] V1 V2 V3 V4 D1 D2 D3 D4].
    unfold messages_of, body_of. rewrite H1, H2, H3, H4.
    apply b256_length in D1, D2, D3, D4.
    repeat (apply Forall_app; split); try (apply Forall_singleton; split; assumption).
    destruct Hf as [Hs|(f & body & signer & pvh & Hf)].
    - destruct (cl_fulfill c); [|constructor]. rewrite Hs. constructor.
    - destruct Hf as [Hs Hf [Hb _] D V]. rewrite Hf, Hs, Hb. cbn [Z.eqb Pos.eqb].
      apply b256_length in D. apply Forall_singleton. split; assumption. }
  intros H; destruct H as [| |d body ? ? ? ? Hk|d body ? ? ? ? ? ? Hk|t body ? ? ? ? ? Hk|t body ? ? ? ? ? ? Hk
    |w body ? ? ? ? ? ? ? Hk|w body ? ? ? ? ? ? Hk
    |c x settle ? ? ? ? ? Ha Hp|c x settle ? ? ? ? ? ? ? Ha Hp
    |c x settle ? ? ? ? ? ? ? ? ? Ha Hf|c x settle ? ? ? ? ? ? ? ? ? ? ? Ha Hf];
    try constructor;
    try (destruct Hk as [[Hb _] V D]; cbn [messages_of]; unfold body_of; rewrite Hb;
         apply b256_length in D; apply Forall_singleton; split; assumption).
  - eapply Hclear; [exact Ha|]. left. exact (cp_status _ _ _ Hp).
  - eapply Hclear; [exact Ha|]. left. exact (cp_status _ _ _ Hp).
  - eapply Hclear; [exact Ha|]. right. do 4 eexists. exact Hf.
  - eapply Hclear; [exact Ha|]. right. do 4 eexists. exact Hf.
Qed.

Lemma execute_roles E t s s' r :
  execute_full E t s = (s', r) -> ~ is_panic r -> Forall fits_role (messages_of t).
Proof. intros H Hr. exact (lstep_roles E _ _ _ _ (execute_full_sound E t s s' r H Hr)). Qed.

(** ** Receipts *)

Lemma word_nil_inj x y : is_word x -> is_word y -> word x = word y -> x = y.
Proof. apply word_inj. Qed.

Lemma sol_of_receipt_inj r1 r2 : typed_receipt r1 -> typed_receipt r2 ->
  sol_of_receipt r1 = sol_of_receipt r2 -> r1 = r2.
Proof.
  intros H1 H2 H.
  destruct r1 as [[i1 st1 [a1 x1]]|[i1 st1 [p1 o1 b1]]|[st1 [a1 x1]]],
    r2 as [[i2 st2 [a2 x2]]|[i2 st2 [p2 o2 b2]]|[st2 [a2 x2]]]; try discriminate H;
    cbn in H1, H2; unfold typed_deposit, typed_create_prover, typed_withdraw_action in *; cbn in H1, H2;
    unfold sol_of_receipt in H; cbn [or_status or_tx_id or_action fr_status fr_action] in H.
  - assert (Ha : abi_deposit (DepositAction a1 x1) = abi_deposit (DepositAction a2 x2)) by congruence.
    unfold abi_deposit in Ha. cbn [da_account da_amount] in Ha.
    apply word_app_inj in Ha as [-> Ha]; [|apply is_address_word; tauto..].
    apply word_inj in Ha as ->; [|tauto..]. congruence.
  - assert (Ha : abi_create_prover (CreateProverAction p1 o1 b1) = abi_create_prover (CreateProverAction p2 o2 b2))
      by congruence.
    unfold abi_create_prover in Ha. cbn [cp_prover cp_owner cp_bips] in Ha.
    apply word_app_inj in Ha as [-> Ha]; [|apply is_address_word; tauto..].
    apply word_app_inj in Ha as [-> Ha]; [|apply is_address_word; tauto..].
    apply word_inj in Ha as ->; [|tauto..]. congruence.
  - assert (Ha : abi_withdraw (WithdrawAction a1 x1) = abi_withdraw (WithdrawAction a2 x2)) by congruence.
    unfold abi_withdraw in Ha. cbn [wa_account wa_amount] in Ha.
    apply word_app_inj in Ha as [-> Ha]; [|apply is_address_word; tauto..].
    apply word_inj in Ha as ->; [|tauto..]. congruence.
Qed.

Lemma sol_receipts_inj rs1 : forall rs2, Forall typed_receipt rs1 -> Forall typed_receipt rs2 ->
  map sol_of_receipt rs1 = map sol_of_receipt rs2 -> rs1 = rs2.
Proof.
  induction rs1 as [|r1 rs1 IH]; intros [|r2 rs2] H1 H2 H; try discriminate H; [reflexivity|].
  apply Forall_cons in H1 as [H1 H1'], H2 as [H2 H2']. cbn [map] in H.
  assert (Hh : sol_of_receipt r1 = sol_of_receipt r2) by congruence.
  assert (Ht : map sol_of_receipt rs1 = map sol_of_receipt rs2) by congruence.
  f_equal; [now apply sol_of_receipt_inj|now apply IH].
Qed.

Lemma words_bytes l : N.of_nat (length (concat (map word l))) = 32 * N.of_nat (length l) /\
  bytes_ok (concat (map word l)).
Proof.
  induction l as [|x l [IH1 IH2]]; [split; [reflexivity|constructor]|].
  cbn [map concat]. rewrite app_length, word_length. split; [cbn [length]; lia|].
  apply Forall_app. split; [apply be_bytes_ok|exact IH2].
Qed.

Lemma sol_of_receipt_typed r : typed_receipt r -> typed_sol_receipt (sol_of_receipt r).
Proof.
  assert (Hw : forall l, (length l <= 3)%nat -> is_bytes (concat (map word l))).
  { intros l Hl. destruct (words_bytes l) as [H1 H2]. split; [exact H2|]. rewrite H1.
    eapply (N.le_lt_trans _ 96); [lia|now vm_compute]. }
  intros H. destruct r as [[i st [a x]]|[i st [p o b]]|[st [a x]]]; cbn in H.
  - split; [exact (proj1 H)|]. specialize (Hw [a; x] ltac:(cbn; lia)). cbn [map concat] in Hw.
    rewrite app_nil_r in Hw. exact Hw.
  - split; [exact (proj1 H)|]. specialize (Hw [p; o; b] ltac:(cbn; lia)). cbn [map concat] in Hw.
    rewrite app_nil_r in Hw. exact Hw.
  - split; [now vm_compute|]. specialize (Hw [a; x] ltac:(cbn; lia)). cbn [map concat] in Hw.
    rewrite app_nil_r in Hw. exact Hw.
Qed.

(** ** Ids *)

Lemma id_preimage_inj who1 who2 b1 b2 : is_address who1 -> is_address who2 ->
  be_bytes 20 who1 ++ b1 = be_bytes 20 who2 ++ b2 -> who1 = who2 /\ b1 = b2.
Proof.
  intros H1 H2 H. apply app_inj_1 in H as [Hw Hm]; [|rewrite !be_bytes_length; reflexivity].
  split; [|exact Hm]. unfold is_address in H1, H2.
  change (2 ^ 160) with (256 ^ N.of_nat 20) in H1, H2. exact (be_bytes_inj 20 who1 who2 H1 H2 Hw).
Qed.
