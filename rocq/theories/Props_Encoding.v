(** Properties of the encodings that are hashed, signed and published.  The vocabulary is in
    [TypedSpec.v]. *)
From Verif Require Import Proofs_Encoding.
Open Scope N_scope.

(** ** C28: public values and receipts can be read back *)

Theorem C28_public_values_decode p :
  forall (Htyped : typed_pv p), decode_step (abi_step p) = Some p.
Proof. exact (decode_step_spec p). Qed.
Print Assumptions C28_public_values_decode.

Theorem C28_public_values_injective p q :
  forall (Htyped_p : typed_pv p) (Htyped_q : typed_pv q) (Hsame : abi_step p = abi_step q), p = q.
Proof. exact (C28_public_values_injective_proof p q). Qed.
Print Assumptions C28_public_values_injective.

(** The receipts of the ledger are determined by the published ones. *)
Theorem C28_receipts_injective rs1 rs2 :
  forall (Htyped1 : Forall typed_receipt rs1) (Htyped2 : Forall typed_receipt rs2)
    (Hsame : map sol_of_receipt rs1 = map sol_of_receipt rs2), rs1 = rs2.
Proof. exact (sol_receipts_inj rs1 rs2). Qed.
Print Assumptions C28_receipts_injective.

(** Whoever decodes the bytes committed by the state-transition program gets what it committed. *)
Theorem C28_committed_bytes_decode E i b :
  forall (Henv : env_ok E) (Hinput : usable_input E i) (Hcommit : stf_commit E i = Some b),
  exists pv, stf_main E i = Some pv /\ decode_step b = Some pv.
Proof. exact (C28_committed_bytes_decode_proof E i b). Qed.
Print Assumptions C28_committed_bytes_decode.

(** Three receipts, with payloads of 64, 0 and 33 bytes. *)
Example C28_example :
  let p := StepPv 17 (2 ^ 256 - 1) 1000
    [ sol_of_receipt (RWithdraw (OffchainReceipt StCompleted (WithdrawAction alice 200)));
      SolReceipt VCreateProver StPending (2 ^ 64 - 1) []; SolReceipt VDeposit StReverted 4 (replicate 33 255) ] in
  typed_pv p /\ length (abi_step p) = 896%nat /\ decode_step (abi_step p) = Some p.
Proof. exact C28_example_proof. Qed.
Example C28_committed_example : usable_input toy_env input1 /\ is_Some (stf_commit toy_env input1).
Proof. split; [apply usable_inputb_ok; vm_compute; reflexivity|vm_compute; eauto]. Qed.

(** ** C29: signed messages are unambiguous *)

(** Two bodies of the same type. *)
Theorem C29_same_type_injective m1 m2 :
  forall (Htyped1 : typed_message m1) (Htyped2 : typed_message m2)
    (Htype : own_variant m1 = own_variant m2) (Hsame : encode_message m1 = encode_message m2), m1 = m2.
Proof. exact (encode_message_same m1 m2). Qed.
Print Assumptions C29_same_type_injective.

(** Two bodies of any types. *)
Theorem C29_no_cross_type m1 m2 :
  forall (Htyped1 : typed_message m1) (Htyped2 : typed_message m2)
    (Hrole1 : fits_role m1) (Hrole2 : fits_role m2) (Hsame : encode_message m1 = encode_message m2), m1 = m2.
Proof. exact (encode_message_inj m1 m2). Qed.
Print Assumptions C29_no_cross_type.

(** Every message on which an executed transaction relies is acceptable in its role only. *)
Theorem C29_accepted_fit_roles E t s s' r :
  forall (Hrun : execute_full E t s = (s', r)) (Hok : ~ is_panic r), Forall fits_role (messages_of t).
Proof. exact (execute_roles E t s s' r). Qed.
Print Assumptions C29_accepted_fit_roles.

(** Hence the bytes signed for one use are the bytes of that message only: in two accepted transactions
    of any types on any ledgers, equal signed bytes mean the same message in the same role. *)
Theorem C29_signed_bytes_have_one_use E t1 s1 s1' r1 t2 s2 s2' r2 m1 m2 :
  forall (Hrun1 : execute_full E t1 s1 = (s1', r1)) (Hok1 : ~ is_panic r1)
    (Hrun2 : execute_full E t2 s2 = (s2', r2)) (Hok2 : ~ is_panic r2)
    (Hin1 : m1 ∈ messages_of t1) (Hin2 : m2 ∈ messages_of t2)
    (Htyped1 : typed_message m1) (Htyped2 : typed_message m2)
    (Hsame : encode_message m1 = encode_message m2), m1 = m2.
Proof. exact (C29_signed_bytes_have_one_use_proof E t1 s1 s1' r1 t2 s2 s2' r2 m1 m2). Qed.
Print Assumptions C29_signed_bytes_have_one_use.

(** The id under which a message is remembered determines its signer and the message. *)
Theorem C29_ids_bind E who1 who2 m1 m2 :
  forall (Haddr1 : is_address who1) (Haddr2 : is_address who2)
    (Htyped1 : typed_message m1) (Htyped2 : typed_message m2)
    (Hrole1 : fits_role m1) (Hrole2 : fits_role m2)
    (Hhash : collision_free (keccak E)
       [be_bytes 20 who1 ++ encode_message m1; be_bytes 20 who2 ++ encode_message m2])
    (Hsame : message_id E who1 (encode_message m1) = message_id E who2 (encode_message m2)),
  who1 = who2 /\ m1 = m2.
Proof. exact (C29_ids_bind_proof E who1 who2 m1 m2). Qed.
Print Assumptions C29_ids_bind.

(** The verifier approves a fulfilment by signing its 32-byte id; such a signature is never one of a
    message. *)
Theorem C29_approval_is_no_message m id :
  forall (Hrole : fits_role m), encode_message m <> be_bytes 32 id.
Proof. exact (C29_approval_is_no_message_proof m id). Qed.
Print Assumptions C29_approval_is_no_message.

(** A transfer and a withdrawal with the same fields have the same bytes if their variant is; in their
    own roles the bytes differ. *)
Example C29_example :
  let t v := TransferBody 1 (addr bob) (toy_num 100) Toy.dom v (addr auctioneer1) (toy_num 2) in
  let w v := WithdrawBody 1 (addr bob) (toy_num 100) Toy.dom v (addr auctioneer1) (toy_num 2) in
  typed_message (MTransfer (t 6%Z)) /\ typed_message (MWithdraw (w 7%Z)) /\
  fits_role (MTransfer (t 6%Z)) /\ fits_role (MWithdraw (w 7%Z)) /\
  encode_message (MTransfer (t 6%Z)) = encode_message (MWithdraw (w 6%Z)) /\
  encode_message (MTransfer (t 6%Z)) <> encode_message (MWithdraw (w 7%Z)).
Proof. exact C29_example_proof. Qed.

(** A clear relies on five messages, all well typed; a transfer on one. *)
Example C29_use_example :
  (exists s', execute_full toy_env clear2 world1 = (s', ResOk None)) /\
  length (messages_of clear2) = 5%nat /\ forallb typed_messageb (messages_of clear2) = true /\
  (exists s', execute_full toy_env transfer1 world1 = (s', ResOk None)) /\
  length (messages_of transfer1) = 1%nat.
Proof. exact C29_use_example_proof. Qed.

(** No collision between two messages of two signers. *)
Example C29_ids_example :
  collision_free (keccak toy_env)
    [be_bytes 20 alice ++ encode_message (MTransfer (transfer_msg 1 bob 100 2));
     be_bytes 20 bob ++ encode_message (MBid (bid_msg 77 5 prover1))].
Proof. apply collision_freeb_ok. vm_compute. reflexivity. Qed.
