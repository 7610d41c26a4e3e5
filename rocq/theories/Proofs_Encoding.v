(** The proofs of the theorems and examples of [Props_Encoding.v]. *)
From Verif Require Export EncodingFacts AggFacts ToyTyped Bytes.
Open Scope N_scope.

Lemma C28_public_values_injective_proof p q :
  forall (Htyped_p : typed_pv p) (Htyped_q : typed_pv q) (Hsame : abi_step p = abi_step q), p = q.
Proof.
  intros Hp Hq H. apply decode_step_spec in Hp, Hq. rewrite H, Hq in Hp. now injection Hp.
Qed.

Lemma C28_committed_bytes_decode_proof E i b :
  forall (Henv : env_ok E) (Hinput : usable_input E i) (Hcommit : stf_commit E i = Some b),
  exists pv, stf_main E i = Some pv /\ decode_step b = Some pv.
Proof.
  intros HE Hi H. unfold stf_commit in H. destruct (stf_main E i) as [pv|] eqn:Hm; [|discriminate].
  cbn in H. injection H as <-. exists pv. split; [reflexivity|].
  apply decode_step_spec. exact (stf_pv_typed E i pv HE Hi Hm).
Qed.

Lemma C28_example_proof :
  let p := StepPv 17 (2 ^ 256 - 1) 1000
    [ sol_of_receipt (RWithdraw (OffchainReceipt StCompleted (WithdrawAction alice 200)));
      SolReceipt VCreateProver StPending (2 ^ 64 - 1) []; SolReceipt VDeposit StReverted 4 (replicate 33 255) ] in
  typed_pv p /\ length (abi_step p) = 896%nat /\ decode_step (abi_step p) = Some p.
Proof.
  cbv zeta. split; [apply typed_pvb_ok; vm_compute; reflexivity|]. split; vm_compute; reflexivity.
Qed.

Lemma C29_signed_bytes_have_one_use_proof E t1 s1 s1' r1 t2 s2 s2' r2 m1 m2 :
  forall (Hrun1 : execute_full E t1 s1 = (s1', r1)) (Hok1 : ~ is_panic r1)
    (Hrun2 : execute_full E t2 s2 = (s2', r2)) (Hok2 : ~ is_panic r2)
    (Hin1 : m1 ∈ messages_of t1) (Hin2 : m2 ∈ messages_of t2)
    (Htyped1 : typed_message m1) (Htyped2 : typed_message m2)
    (Hsame : encode_message m1 = encode_message m2), m1 = m2.
Proof.
  intros H1 Ho1 H2 Ho2 Hi1 Hi2 Ht1 Ht2 H. apply execute_roles in H1, H2; [|assumption..].
  rewrite Forall_forall in H1, H2. apply encode_message_inj; auto.
Qed.

Lemma C29_ids_bind_proof E who1 who2 m1 m2 :
  forall (Haddr1 : is_address who1) (Haddr2 : is_address who2)
    (Htyped1 : typed_message m1) (Htyped2 : typed_message m2)
    (Hrole1 : fits_role m1) (Hrole2 : fits_role m2)
    (Hhash : collision_free (keccak E)
       [be_bytes 20 who1 ++ encode_message m1; be_bytes 20 who2 ++ encode_message m2])
    (Hsame : message_id E who1 (encode_message m1) = message_id E who2 (encode_message m2)),
  who1 = who2 /\ m1 = m2.
Proof.
  intros H1 H2 Ht1 Ht2 Hr1 Hr2 [Hc _] H. unfold message_id in H.
  apply Hc in H; [|apply elem_of_list_here|apply elem_of_list_further, elem_of_list_here].
  apply id_preimage_inj in H as [Hw Hm]; [|assumption..].
  split; [exact Hw|]. exact (encode_message_inj m1 m2 Ht1 Ht2 Hr1 Hr2 Hm).
Qed.

Lemma C29_approval_is_no_message_proof m id :
  forall (Hrole : fits_role m), encode_message m <> be_bytes 32 id.
Proof.
  intros H He. apply encode_message_long in H. rewrite He, be_bytes_length in H.
  exact (Nat.nle_succ_diag_l 33 (Nat.le_trans _ _ _ H (Nat.le_succ_diag_r 32))).
Qed.

Lemma C29_example_proof :
  let t v := TransferBody 1 (addr bob) (toy_num 100) Toy.dom v (addr auctioneer1) (toy_num 2) in
  let w v := WithdrawBody 1 (addr bob) (toy_num 100) Toy.dom v (addr auctioneer1) (toy_num 2) in
  typed_message (MTransfer (t 6%Z)) /\ typed_message (MWithdraw (w 7%Z)) /\
  fits_role (MTransfer (t 6%Z)) /\ fits_role (MWithdraw (w 7%Z)) /\
  encode_message (MTransfer (t 6%Z)) = encode_message (MWithdraw (w 6%Z)) /\
  encode_message (MTransfer (t 6%Z)) <> encode_message (MWithdraw (w 7%Z)).
Proof.
  cbv zeta. split; [apply typed_messageb_ok; vm_compute; reflexivity|].
  split; [apply typed_messageb_ok; vm_compute; reflexivity|].
  split; [split; reflexivity|]. split; [split; reflexivity|].
  split; [vm_compute; reflexivity|]. intros H. vm_compute in H. discriminate H.
Qed.

Lemma C29_use_example_proof :
  (exists s', execute_full toy_env clear2 world1 = (s', ResOk None)) /\
  length (messages_of clear2) = 5%nat /\ forallb typed_messageb (messages_of clear2) = true /\
  (exists s', execute_full toy_env transfer1 world1 = (s', ResOk None)) /\
  length (messages_of transfer1) = 1%nat.
Proof.
  split; [apply exec_by; vm_compute; reflexivity|]. split; [vm_compute; reflexivity|].
  split; [vm_compute; reflexivity|]. split; [apply exec_by; vm_compute; reflexivity|reflexivity].
Qed.
