(** The protobuf binary encoding of the signed message bodies.

    [prost::Message::encode] for the derived structs of crates/types/network/src/types.rs.  prost itself
    is an external crate; what is modelled here is its documented proto3 encoding: fields in tag
    order, singular scalars equal to their default omitted, optional fields written when present,
    repeated bytes written element by element. *)
From Verif Require Export Types.
Open Scope N_scope.

(** LEB128 encoding of a [u64], at most [fuel] bytes (ten suffice for 64 bits).
    External: prost's [encode_varint], used by every derived field in
    crates/types/network/src/types.rs. *)
Fixpoint varint_aux (fuel : nat) (n : N) : bytes :=
  match fuel with
  | O => []
  | S f => if n <? 128 then [n] else (n mod 128 + 128) :: varint_aux f (n / 128)
  end.

(** [encode_varint] of a [u64] (external prost, see [varint_aux]).  (Bodies:
    crates/types/network/src/types.rs 53-2045, encoded by crates/types/network/src/lib.rs 31-45.) *)
Definition varint (n : N) : bytes := varint_aux 10 n.

(** The value of one field on the wire: wire types 0, 2 and 5 (external prost).  (Bodies:
    crates/types/network/src/types.rs 53-2045, encoded by crates/types/network/src/lib.rs 31-45.) *)
Inductive wire : Type :=
| WVarint (n : N)
| WLen (bs : bytes)
| WFixed32 (n : N).

(** Little-endian 4-byte encoding of a [f32] bit pattern (external prost, [float] fields;
    crates/types/network/src/types.rs 192-194). *)
Definition fixed32 (n : N) : bytes := reverse (be_bytes 4 n).

(** Encoding of one field: key (tag and wire type), then payload (external prost).  (Bodies:
    crates/types/network/src/types.rs 53-2045, encoded by crates/types/network/src/lib.rs 31-45.) *)
Definition encode_field (f : N * wire) : bytes :=
  match f with
  | (tag, WVarint n) => varint (tag * 8 + 0) ++ varint n
  | (tag, WLen bs) => varint (tag * 8 + 2) ++ varint (N.of_nat (length bs)) ++ bs
  | (tag, WFixed32 n) => varint (tag * 8 + 5) ++ fixed32 n
  end.

(** Encoding of a message: its fields in order (external prost).  (Bodies: crates/types/network/src/types.rs
    53-2045, encoded by crates/types/network/src/lib.rs 31-45.) *)
Definition encode_fields (fs : list (N * wire)) : bytes := concat (map encode_field fs).

(** A [uint64] field: omitted when 0 ([#[prost(uint64, tag)]]).  (Bodies: crates/types/network/src/types.rs
    53-2045, encoded by crates/types/network/src/lib.rs 31-45.) *)
Definition f_u64 (tag n : N) : list (N * wire) := if n =? 0 then [] else [(tag, WVarint n)].
(** An [enumeration] field: [i32] sign-extended to 64 bits, omitted when 0 ([#[prost(enumeration, tag)]]).
    (Bodies: crates/types/network/src/types.rs 53-2045, encoded by crates/types/network/src/lib.rs 31-45.)
    *)
Definition f_enum (tag : N) (z : Z) : list (N * wire) :=
  if (z =? 0)%Z then [] else [(tag, WVarint (Z.to_N (z mod 2 ^ 64)))].
(** A [bool] field: omitted when false ([#[prost(bool, tag)]]).  (Bodies: crates/types/network/src/types.rs
    53-2045, encoded by crates/types/network/src/lib.rs 31-45.) *)
Definition f_bool (tag : N) (b : bool) : list (N * wire) := if b then [(tag, WVarint 1)] else [].
(** A [bytes] or [string] field: omitted when empty ([#[prost(bytes = "vec", tag)]], [#[prost(string,
    tag)]]).  (Bodies: crates/types/network/src/types.rs 53-2045, encoded by crates/types/network/src/lib.rs
    31-45.) *)
Definition f_bytes (tag : N) (bs : bytes) : list (N * wire) :=
  match bs with [] => [] | _ => [(tag, WLen bs)] end.
(** An optional [bytes] or [string] field: written when present, even if empty.  (Bodies:
    crates/types/network/src/types.rs 53-2045, encoded by crates/types/network/src/lib.rs 31-45.) *)
Definition f_opt_bytes (tag : N) (o : option bytes) : list (N * wire) :=
  match o with Some bs => [(tag, WLen bs)] | None => [] end.
(** An optional [uint64] field: written when present, even if 0.  (Bodies: crates/types/network/src/types.rs
    53-2045, encoded by crates/types/network/src/lib.rs 31-45.) *)
Definition f_opt_u64 (tag : N) (o : option N) : list (N * wire) :=
  match o with Some n => [(tag, WVarint n)] | None => [] end.
(** An optional [enumeration] field.  (Bodies: crates/types/network/src/types.rs 53-2045, encoded by
    crates/types/network/src/lib.rs 31-45.) *)
Definition f_opt_enum (tag : N) (o : option Z) : list (N * wire) :=
  match o with Some z => [(tag, WVarint (Z.to_N (z mod 2 ^ 64)))] | None => [] end.
(** A repeated [bytes] field: one entry per element.  (Bodies: crates/types/network/src/types.rs 53-2045,
    encoded by crates/types/network/src/lib.rs 31-45.) *)
Definition f_rep_bytes (tag : N) (l : list bytes) : list (N * wire) :=
  map (fun bs => (tag, WLen bs)) l.
(** [ReservedMetadata], crates/types/network/src/types.rs 189-195, as an optional sub-message. *)
Definition f_metadata (tag : N) (o : option (option N)) : list (N * wire) :=
  match o with
  | Some m =>
      [(tag, WLen (encode_fields (match m with Some r => [(1, WFixed32 r)] | None => [] end)))]
  | None => []
  end.

(** Fields of [WithdrawRequestBody], crates/types/network/src/types.rs 53-75. *)
Definition withdraw_fields (b : withdraw_body) : list (N * wire) :=
  f_u64 1 (wb_nonce b) ++ f_bytes 2 (wb_account b) ++ f_bytes 3 (wb_amount b) ++
  f_bytes 4 (wb_domain b) ++ f_enum 5 (wb_variant b) ++ f_bytes 6 (wb_auctioneer b) ++
  f_bytes 7 (wb_fee b).

(** Fields of [TransferRequestBody], crates/types/network/src/types.rs 1230-1252. *)
Definition transfer_fields (b : transfer_body) : list (N * wire) :=
  f_u64 1 (tb_nonce b) ++ f_bytes 2 (tb_to b) ++ f_bytes 3 (tb_amount b) ++
  f_bytes 4 (tb_domain b) ++ f_enum 5 (tb_variant b) ++ f_bytes 6 (tb_auctioneer b) ++
  f_bytes 7 (tb_fee b).

(** Fields of [SetDelegationRequestBody], crates/types/network/src/types.rs 2022-2044. *)
Definition delegation_fields (b : delegation_body) : list (N * wire) :=
  f_u64 1 (db_nonce b) ++ f_bytes 2 (db_delegate b) ++ f_bytes 3 (db_prover b) ++
  f_bytes 4 (db_domain b) ++ f_enum 5 (db_variant b) ++ f_bytes 6 (db_auctioneer b) ++
  f_bytes 7 (db_fee b).

(** Fields of [RequestProofRequestBody], crates/types/network/src/types.rs 104-171. *)
Definition request_fields (b : request_body) : list (N * wire) :=
  f_u64 1 (rb_nonce b) ++ f_bytes 2 (rb_vk_hash b) ++ f_bytes 3 (rb_version b) ++
  f_enum 4 (rb_mode b) ++ f_enum 5 (rb_strategy b) ++ f_bytes 6 (rb_stdin_uri b) ++
  f_u64 7 (rb_deadline b) ++ f_u64 8 (rb_cycle_limit b) ++ f_u64 9 (rb_gas_limit b) ++
  f_u64 10 (rb_min_auction_period b) ++ f_rep_bytes 11 (rb_whitelist b) ++
  f_bytes 12 (rb_domain b) ++ f_bytes 13 (rb_auctioneer b) ++ f_bytes 14 (rb_executor b) ++
  f_bytes 15 (rb_verifier b) ++ f_opt_bytes 16 (rb_public_values_hash b) ++
  f_bytes 17 (rb_base_fee b) ++ f_bytes 18 (rb_max_price_per_pgu b) ++
  f_enum 19 (rb_variant b) ++ f_bytes 20 (rb_treasury b) ++ f_bool 21 (rb_stdin_private b).

(** Fields of [BidRequestBody], crates/types/network/src/types.rs 1338-1357. *)
Definition bid_fields (b : bid_body) : list (N * wire) :=
  f_u64 1 (bb_nonce b) ++ f_bytes 2 (bb_request_id b) ++ f_bytes 3 (bb_amount b) ++
  f_bytes 4 (bb_domain b) ++ f_bytes 5 (bb_prover b) ++ f_enum 6 (bb_variant b).

(** Fields of [SettleRequestBody], crates/types/network/src/types.rs 1386-1402. *)
Definition settle_fields (b : settle_body) : list (N * wire) :=
  f_u64 1 (sb_nonce b) ++ f_bytes 2 (sb_request_id b) ++ f_bytes 3 (sb_winner b) ++
  f_bytes 4 (sb_domain b) ++ f_enum 5 (sb_variant b).

(** Fields of [ExecuteProofRequestBody], crates/types/network/src/types.rs 259-293. *)
Definition execute_fields (b : execute_body) : list (N * wire) :=
  f_u64 1 (eb_nonce b) ++ f_bytes 2 (eb_request_id b) ++ f_enum 3 (eb_execution_status b) ++
  f_opt_bytes 4 (eb_public_values_hash b) ++ f_opt_u64 5 (eb_cycles b) ++
  f_opt_u64 6 (eb_pgus b) ++ f_bytes 7 (eb_domain b) ++ f_opt_bytes 8 (eb_punishment b) ++
  f_opt_enum 9 (eb_failure_cause b) ++ f_enum 10 (eb_variant b).

(** Fields of [FulfillProofRequestBody], crates/types/network/src/types.rs 211-230. *)
Definition fulfill_fields (b : fulfill_body) : list (N * wire) :=
  f_u64 1 (fb_nonce b) ++ f_bytes 2 (fb_request_id b) ++ f_bytes 3 (fb_proof b) ++
  f_metadata 4 (fb_reserved_metadata b) ++ f_bytes 5 (fb_domain b) ++ f_enum 6 (fb_variant b).

(** [encode] of each body: the derived [prost::Message] implementation of the struct named
    (crates/types/network/src/types.rs, ranges above).  ([WithdrawRequestBody],
    crates/types/network/src/types.rs 53.) *)
Definition encode_withdraw (b : withdraw_body) : bytes := encode_fields (withdraw_fields b).
(** [TransferRequestBody::encode], crates/types/network/src/types.rs 1230-1252. *)
Definition encode_transfer (b : transfer_body) : bytes := encode_fields (transfer_fields b).
(** [SetDelegationRequestBody::encode], crates/types/network/src/types.rs 2022-2044. *)
Definition encode_delegation (b : delegation_body) : bytes := encode_fields (delegation_fields b).
(** [RequestProofRequestBody::encode], crates/types/network/src/types.rs 104-171. *)
Definition encode_request (b : request_body) : bytes := encode_fields (request_fields b).
(** [BidRequestBody::encode], crates/types/network/src/types.rs 1338-1357. *)
Definition encode_bid (b : bid_body) : bytes := encode_fields (bid_fields b).
(** [SettleRequestBody::encode], crates/types/network/src/types.rs 1386-1402. *)
Definition encode_settle (b : settle_body) : bytes := encode_fields (settle_fields b).
(** [ExecuteProofRequestBody::encode], crates/types/network/src/types.rs 259-293. *)
Definition encode_execute (b : execute_body) : bytes := encode_fields (execute_fields b).
(** [FulfillProofRequestBody::encode], crates/types/network/src/types.rs 211-230. *)
Definition encode_fulfill (b : fulfill_body) : bytes := encode_fields (fulfill_fields b).
