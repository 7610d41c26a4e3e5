(** Properties of the bytes that leave the programs: signed messages, committed public values, roots.
    The formats are written down in [WireSpec.v] without the programs' encoders. *)
From Verif Require Import Proofs_Wire.
Open Scope N_scope.

(** ** C64: signed messages are in the protobuf wire format *)

(** A reader of the wire format that knows the field numbers recovers every message from its bytes.  The
    fields come in ascending order, integers are in their shortest form, and empty or zero fields are left
    out, except optional and repeated ones. *)
Theorem C64_messages_are_protobuf m :
  forall (Htyped : typed_message m),
  exists xs, read_message (encode_message m) = Some xs /\
    Sorted.StronglySorted N.le (map fst xs) /\
    (forall n v, (n, v) ∈ xs -> v = Varint 0 \/ v = Delimited [] -> n ∈ explicit_fields m) /\
    m = match m with
        | MRequest _ => MRequest (read_request xs)
        | MBid _ => MBid (read_bid xs)
        | MSettle _ => MSettle (read_settle xs)
        | MExecute _ => MExecute (read_execute xs)
        | MFulfill _ => MFulfill (read_fulfill xs)
        | MDelegation _ => MDelegation (read_delegation xs)
        | MTransfer _ => MTransfer (read_transfer xs)
        | MWithdraw _ => MWithdraw (read_withdraw xs)
        end.
Proof. exact (read_message_bytes m). Qed.
Print Assumptions C64_messages_are_protobuf.

(** The five messages of a clear are well typed.  A settlement with an empty domain and a negative
    variant, byte by byte. *)
Example C64_example :
  forallb typed_messageb (messages_of clear2) = true /\
  length (messages_of clear2) = 5%nat /\
  (let m := MSettle (SettleBody 300 [1; 2] [3] [] (-1)%Z) in
   typed_message m /\
   encode_message m = [8; 172; 2; 18; 2; 1; 2; 26; 1; 3; 40; 255; 255; 255; 255; 255; 255; 255; 255; 255; 1] /\
   read_message (encode_message m) =
     Some [(1, Varint 300); (2, Delimited [1; 2]); (3, Delimited [3]); (5, Varint (2 ^ 64 - 1))]).
Proof. exact C64_example_proof. Qed.

(** ** C65: the programs commit Solidity-encoded public values *)

(** The committed bytes are [abi.encode] of the struct with the commitments of the ledger before and
    after the batch, the timestamp, and the receipts of the batch as the contract numbers them. *)
Theorem C65_step_bytes E domain evs s i b :
  forall (Henv : env_ok E) (Hreached : history E (full_new E domain) evs s)
    (Htyped_s : typed_full s) (Htyped_i : typed_input i) (Hroot : full_root E s = si_root i)
    (Hhash : collision_free (keccak E) (stf_strings E i s)) (Hcommit : stf_commit E i = Some b),
  exists s' rs, spec_run E (contents s) (si_txs i) rs (contents s') /\
    b = solidity (step_value (state_commitment E s) (state_commitment E s') (si_timestamp i)
                    (batch_receipts rs)).
Proof. exact (C65_step_bytes_proof E domain evs s i b). Qed.
Print Assumptions C65_step_bytes.

Theorem C65_aggregate_bytes E sha verify domain evs s pvs inputs b out :
  forall (Henv : env_ok E) (Hreached : history E (full_new E domain) evs s) (Htyped : typed_full s)
    (Hinputs : Forall (usable_input E) inputs)
    (Hsound : Forall2 (fun b i => verify (sha b) = true -> stf_commit E i = Some b) pvs inputs)
    (Hout : aggregate_main sha verify pvs = Some out)
    (Hroot : pv_old_root out = full_root E s)
    (Hhash : collision_free (keccak E) (chain_strings E inputs s))
    (Hcommit : aggregate_commit sha verify pvs = Some b),
  exists s' rs ts, run_batch E s (all_txs inputs) = (s', rs) /\ calm rs /\
    si_timestamp <$> list.last inputs = Some ts /\
    b = solidity (step_value (state_commitment E s) (state_commitment E s') ts (batch_receipts rs)).
Proof. exact (C65_aggregate_bytes_proof E sha verify domain evs s pvs inputs b out). Qed.
Print Assumptions C65_aggregate_bytes.

(** The hypotheses on a batch with two receipts; those of the second theorem are shown at C25. *)
Example C65_example :
  env_ok toy_env /\ history toy_env world0 (run_txs toy_env setup_txs world0).1 world1 /\
  typed_full world1 /\ typed_input input1 /\ full_root toy_env world1 = si_root input1 /\
  collision_free (keccak toy_env) (stf_strings toy_env input1 world1) /\
  length <$> stf_commit toy_env input1 = Some 704%nat.
Proof. exact C65_example_proof. Qed.

(** The example of the ABI specification: the arguments ("dave", true, [1,2,3]). *)
Example C65_abi_example :
  abi_encode (ATuple [ABytes [100; 97; 118; 101]; AWord 1; AArray [AWord 1; AWord 2; AWord 3]]) =
  be_bytes 32 96 ++ be_bytes 32 1 ++ be_bytes 32 160 ++
  be_bytes 32 4 ++ [100; 97; 118; 101] ++ repeat 0 28 ++
  be_bytes 32 3 ++ be_bytes 32 1 ++ be_bytes 32 2 ++ be_bytes 32 3.
Proof. exact C65_abi_example_proof. Qed.

(** ** C66: the root is the commitment to the state *)

Theorem C66_root_is_commitment E domain evs s :
  forall (Hreached : history E (full_new E domain) evs s), full_root E s = state_commitment E s.
Proof. exact (C66_root_is_commitment_proof E domain evs s). Qed.
Print Assumptions C66_root_is_commitment.

Example C66_example :
  history toy_env world0 (run_txs toy_env setup_txs world0).1 world1 /\
  size (accounts world1) = 4%nat /\ full_root toy_env world1 <> full_root toy_env world0.
Proof. exact C66_example_proof. Qed.
