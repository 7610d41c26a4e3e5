(** External functions the vApp calls, as one record of parameters. *)
From Verif Require Export Prost.
Open Scope N_scope.

(** The functions of external crates that the vApp relies on.  They are arbitrary in every theorem; a
    theorem that needs something of them says so in its hypotheses.  (The calls are in
    crates/vapp/src/merkle.rs 552-563, crates/vapp/src/signing.rs 36-57, crates/vapp/src/state.rs 305-308,
    crates/vapp/src/verifier.rs 16-23.) *)
Record env : Type := Env {
  (** [keccak256] (alloy_primitives; crates/vapp/src/merkle.rs 552-563,
      crates/types/network/src/lib.rs 35-45) *)
  keccak : bytes -> N;
  (** [Signature::from_raw(sig)?.recover_address_from_msg(msg)] (alloy_primitives;
      crates/vapp/src/signing.rs 49-57); [None] is any error *)
  ecrecover : bytes -> bytes -> option N;
  (** [str::parse::<U256>] (ruint; crates/vapp/src/state.rs 305-308 and similar) *)
  parse_u256 : bytes -> option N;
  (** [serde_json::to_vec] on each message body (crates/vapp/src/signing.rs 36-41) *)
  json_withdraw : withdraw_body -> option bytes;
  json_transfer : transfer_body -> option bytes;
  json_delegation : delegation_body -> option bytes;
  json_request : request_body -> option bytes;
  json_bid : bid_body -> option bytes;
  json_settle : settle_body -> option bytes;
  json_execute : execute_body -> option bytes;
  json_fulfill : fulfill_body -> option bytes;
  (** [V::verify(vk, pv)] ([VAppVerifier], crates/vapp/src/verifier.rs 16-23;
      programs/vapp/stf/src/main.rs 15-27) *)
  sp1_verify : list N -> bytes -> bool
}.

(** Ranges of the external functions, guaranteed by their Rust types: [B256], [Address], [U256]
    (crates/types/network/src/lib.rs 43; crates/vapp/src/signing.rs 50;
    crates/vapp/src/state.rs 307). *)
Record env_ok (E : env) : Prop := {
  keccak_lt : forall bs, keccak E bs < two256;
  ecrecover_lt : forall m s a, ecrecover E m s = Some a -> a < two160;
  parse_u256_lt : forall s n, parse_u256 E s = Some n -> n < two256
}.

(** [hash_with_signer]: Keccak of the signer's 20 bytes followed by the binary encoding of the body,
    crates/types/network/src/lib.rs 31-45.  [prost]'s [encode] into a growable buffer cannot fail, so
    the [EncodeError] path (HashingBodyFailed) does not exist in the model. *)
Definition hash_with_signer (E : env) (signer : N) (encoded_body : bytes) : N :=
  keccak E (be_bytes 20 signer ++ encoded_body).

(** [eth_sign_verify], crates/vapp/src/signing.rs 49-57. *)
Definition eth_sign_verify (E : env) (message sig : bytes) : result N panic :=
  match ecrecover E message sig with
  | Some a => Ok a
  | None => Err InvalidSignature
  end.

(** [verify_signed_message], crates/vapp/src/signing.rs 20-46.  [bin] and [json] are the two
    serialisations of the message. *)
Definition verify_signed_message (E : env) (bin : bytes) (json : option bytes) (sig : bytes)
    (format : msg_format) : result N panic :=
  match format with
  | BinaryFormat => eth_sign_verify E bin sig
  | JsonFormat =>
      match json with
      | Some js => eth_sign_verify E js sig
      | None => Err FailedToSerializeMessage
      end
  | UnspecifiedFormat => Err InvalidMessageFormat
  end.
