(** What outsiders do with the bytes of this system: a reader of protobuf messages, the Solidity ABI
    encoding, and the commitment of a ledger state.  Written from the public definitions of these
    formats, for the theorems of [Props_Wire.v]; nothing here uses the encoders of the model. *)
From Verif Require Export TypedSpec.
Open Scope N_scope.

(** ** Reading a protobuf message *)

(** A base-128 integer, least significant group first; all bytes but the last have the top bit set.  This
    reader is strict: it takes the shortest form only. *)
Fixpoint read_varint (fuel : nat) (bs : bytes) : option (N * bytes) :=
  match fuel, bs with
  | S f, b :: rest =>
      if b <? 128 then Some (b, rest)
      else match read_varint f rest with
           | Some (n, rest') => if n =? 0 then None else Some (b - 128 + 128 * n, rest')
           | None => None
           end
  | _, _ => None
  end.

(** The value of one field on the wire. *)
Inductive payload : Type :=
| Varint (n : N)
| Delimited (bs : bytes)
| Fixed32 (n : N).

(** One field: a key, which is the field number times 8 plus the wire type, then the value.  Wire type
    0 is an integer, 2 a length and that many bytes, 5 four bytes with the least significant first. *)
Definition read_field (bs : bytes) : option ((N * payload) * bytes) :=
  match read_varint 10 bs with
  | None => None
  | Some (key, rest) =>
      let number := key / 8 in
      if key mod 8 =? 0 then
        match read_varint 10 rest with
        | Some (n, rest') => Some ((number, Varint n), rest')
        | None => None
        end
      else if key mod 8 =? 2 then
        match read_varint 10 rest with
        | Some (n, rest') =>
            if n <=? N.of_nat (length rest')
            then Some ((number, Delimited (take (N.to_nat n) rest')), drop (N.to_nat n) rest')
            else None
        | None => None
        end
      else if key mod 8 =? 5 then
        if (4 <=? length rest)%nat
        then Some ((number, Fixed32 (from_be (rev (take 4 rest)))), drop 4 rest)
        else None
      else None
  end.

(** All fields, to the end of the bytes. *)
Fixpoint read_fields (fuel : nat) (bs : bytes) : option (list (N * payload)) :=
  match bs, fuel with
  | [], _ => Some []
  | _, O => None
  | _, S f =>
      match read_field bs with
      | Some (x, rest) =>
          match read_fields f rest with Some xs => Some (x :: xs) | None => None end
      | None => None
      end
  end.
Definition read_message (bs : bytes) : option (list (N * payload)) := read_fields (length bs) bs.

(** The values given to a field number, in order; for a field that is not repeated the last one
    counts. *)
Definition given (number : N) (xs : list (N * payload)) : list payload :=
  flat_map (fun x => if x.1 =? number then [x.2] else []) xs.
Definition integers (number : N) (xs : list (N * payload)) : list N :=
  flat_map (fun p => match p with Varint n => [n] | _ => [] end) (given number xs).
Definition byte_strings (number : N) (xs : list (N * payload)) : list bytes :=
  flat_map (fun p => match p with Delimited bs => [bs] | _ => [] end) (given number xs).
Definition words32 (number : N) (xs : list (N * payload)) : list N :=
  flat_map (fun p => match p with Fixed32 n => [n] | _ => [] end) (given number xs).

(** The low 32 bits of an integer, as a signed number. *)
Definition int32 (n : N) : Z :=
  let m := Z.of_N (n mod 2 ^ 32) in if (m <? 2 ^ 31)%Z then m else (m - 2 ^ 32)%Z.

(** The proto3 rules for the types of fields: an absent field has the default value, an absent
    optional field has none. *)
Definition uint64 (number : N) (xs : list (N * payload)) : N := default 0 (last (integers number xs)).
Definition enum (number : N) (xs : list (N * payload)) : Z :=
  default 0%Z (int32 <$> last (integers number xs)).
Definition boolean (number : N) (xs : list (N * payload)) : bool :=
  negb (default 0 (last (integers number xs)) =? 0).
Definition blob (number : N) (xs : list (N * payload)) : bytes := default [] (last (byte_strings number xs)).
Definition optional_uint64 (number : N) (xs : list (N * payload)) : option N :=
  last (integers number xs).
Definition optional_enum (number : N) (xs : list (N * payload)) : option Z :=
  int32 <$> last (integers number xs).
Definition optional_blob (number : N) (xs : list (N * payload)) : option bytes :=
  last (byte_strings number xs).

(** ** The messages, with the field numbers of proto/types.proto *)

Definition read_withdraw (xs : list (N * payload)) : withdraw_body :=
  {| wb_nonce := uint64 1 xs; wb_account := blob 2 xs; wb_amount := blob 3 xs; wb_domain := blob 4 xs;
     wb_variant := enum 5 xs; wb_auctioneer := blob 6 xs; wb_fee := blob 7 xs |}.
Definition read_transfer (xs : list (N * payload)) : transfer_body :=
  {| tb_nonce := uint64 1 xs; tb_to := blob 2 xs; tb_amount := blob 3 xs; tb_domain := blob 4 xs;
     tb_variant := enum 5 xs; tb_auctioneer := blob 6 xs; tb_fee := blob 7 xs |}.
Definition read_delegation (xs : list (N * payload)) : delegation_body :=
  {| db_nonce := uint64 1 xs; db_delegate := blob 2 xs; db_prover := blob 3 xs; db_domain := blob 4 xs;
     db_variant := enum 5 xs; db_auctioneer := blob 6 xs; db_fee := blob 7 xs |}.
Definition read_request (xs : list (N * payload)) : request_body :=
  {| rb_nonce := uint64 1 xs; rb_vk_hash := blob 2 xs; rb_version := blob 3 xs; rb_mode := enum 4 xs;
     rb_strategy := enum 5 xs; rb_stdin_uri := blob 6 xs; rb_deadline := uint64 7 xs;
     rb_cycle_limit := uint64 8 xs; rb_gas_limit := uint64 9 xs; rb_min_auction_period := uint64 10 xs;
     rb_whitelist := byte_strings 11 xs; rb_domain := blob 12 xs; rb_auctioneer := blob 13 xs;
     rb_executor := blob 14 xs; rb_verifier := blob 15 xs;
     rb_public_values_hash := optional_blob 16 xs; rb_base_fee := blob 17 xs;
     rb_max_price_per_pgu := blob 18 xs; rb_variant := enum 19 xs; rb_treasury := blob 20 xs;
     rb_stdin_private := boolean 21 xs |}.
Definition read_bid (xs : list (N * payload)) : bid_body :=
  {| bb_nonce := uint64 1 xs; bb_request_id := blob 2 xs; bb_amount := blob 3 xs; bb_domain := blob 4 xs;
     bb_prover := blob 5 xs; bb_variant := enum 6 xs |}.
Definition read_settle (xs : list (N * payload)) : settle_body :=
  {| sb_nonce := uint64 1 xs; sb_request_id := blob 2 xs; sb_winner := blob 3 xs; sb_domain := blob 4 xs;
     sb_variant := enum 5 xs |}.
Definition read_execute (xs : list (N * payload)) : execute_body :=
  {| eb_nonce := uint64 1 xs; eb_request_id := blob 2 xs; eb_execution_status := enum 3 xs;
     eb_public_values_hash := optional_blob 4 xs; eb_cycles := optional_uint64 5 xs;
     eb_pgus := optional_uint64 6 xs; eb_domain := blob 7 xs; eb_punishment := optional_blob 8 xs;
     eb_failure_cause := optional_enum 9 xs; eb_variant := enum 10 xs |}.
(** The reserved metadata is a message of its own, with one optional [float] in field 1. *)
Definition read_fulfill (xs : list (N * payload)) : fulfill_body :=
  {| fb_nonce := uint64 1 xs; fb_request_id := blob 2 xs; fb_proof := blob 3 xs;
     fb_reserved_metadata :=
       (fun bs => last (words32 1 (default [] (read_message bs)))) <$> last (byte_strings 4 xs);
     fb_domain := blob 5 xs; fb_variant := enum 6 xs |}.

(** The fields that are written even when empty or zero: optional and repeated ones.  Any other field
    with such a value is left out. *)
Definition explicit_fields (m : message) : list N :=
  match m with
  | MRequest _ => [11; 16]
  | MExecute _ => [4; 5; 6; 8; 9]
  | MFulfill _ => [4]
  | _ => []
  end.

(** ** The Solidity ABI *)

(** Values: anything that takes one word, byte strings, arrays and structs. *)
Inductive abi_value : Type :=
| AWord (x : N)
| ABytes (bs : bytes)
| AArray (vs : list abi_value)
| ATuple (vs : list abi_value).

(** A value is dynamic if its size depends on the data. *)
Fixpoint dynamic (v : abi_value) : bool :=
  match v with
  | AWord _ => false
  | ABytes _ | AArray _ => true
  | ATuple vs => existsb dynamic vs
  end.

(** The bytes that fill the last word. *)
Definition filler (n : nat) : bytes := repeat 0 ((32 - n mod 32) mod 32).

(** The sequence of heads: a static component itself, or the position of a dynamic one counted from
    the first head. *)
Fixpoint abi_heads (position : nat) (parts : list (bool * bytes)) : bytes :=
  match parts with
  | [] => []
  | (false, e) :: rest => e ++ abi_heads position rest
  | (true, e) :: rest => be_bytes 32 (N.of_nat position) ++ abi_heads (position + length e) rest
  end.
Definition abi_tuple (parts : list (bool * bytes)) : bytes :=
  let head_size := fold_right (fun (p : bool * bytes) n => ((if p.1 then 32 else length p.2) + n)%nat) 0%nat parts in
  abi_heads head_size parts ++ flat_map (fun p : bool * bytes => if p.1 then p.2 else []) parts.

(** The encoding of a value. *)
Fixpoint abi_encode (v : abi_value) : bytes :=
  match v with
  | AWord x => be_bytes 32 x
  | ABytes bs => be_bytes 32 (N.of_nat (length bs)) ++ bs ++ filler (length bs)
  | AArray vs =>
      be_bytes 32 (N.of_nat (length vs)) ++ abi_tuple (map (fun v => (dynamic v, abi_encode v)) vs)
  | ATuple vs => abi_tuple (map (fun v => (dynamic v, abi_encode v)) vs)
  end.

(** [abi.encode(v)]: the encoding of the one argument. *)
Definition solidity (v : abi_value) : bytes := abi_encode (ATuple [v]).

(** A struct all of whose members take one word. *)
Definition flat_struct (xs : list N) : abi_value := ATuple (map AWord xs).

(** The receipt published for a receipt of the ledger; variants and statuses are numbered as in
    contracts/src/libraries/PublicValues.sol, and a withdrawal has the largest number as its id. *)
Definition status_number (s : tx_status) : N :=
  match s with StNone => 0 | StPending => 1 | StCompleted => 2 | StReverted => 3 end.
Definition receipt_value (r : receipt) : abi_value :=
  match r with
  | RDeposit o =>
      ATuple [AWord 0; AWord (status_number (or_status o)); AWord (or_tx_id o);
        ABytes (solidity (flat_struct [da_account (or_action o); da_amount (or_action o)]))]
  | RWithdraw o =>
      ATuple [AWord 1; AWord (status_number (fr_status o)); AWord (2 ^ 64 - 1);
        ABytes (solidity (flat_struct [wa_account (fr_action o); wa_amount (fr_action o)]))]
  | RCreateProver o =>
      ATuple [AWord 2; AWord (status_number (or_status o)); AWord (or_tx_id o);
        ABytes (solidity (flat_struct [cp_prover (or_action o); cp_owner (or_action o);
                                       cp_bips (or_action o)]))]
  end.

(** [StepPublicValues]. *)
Definition step_value (old_root new_root timestamp : N) (receipts : list receipt) : abi_value :=
  ATuple [AWord old_root; AWord new_root; AWord timestamp; AArray (map receipt_value receipts)].

(** ** The commitment of a ledger state *)

(** The Merkle tree with these leaves: the hash of the leaf's bytes, or zero where there is none; above,
    the hash of the two words of the children. *)
Fixpoint subtree (hash : bytes -> N) (leaf : N -> option bytes) (height : nat) (i : N) : N :=
  match height with
  | O => match leaf i with Some bs => hash bs | None => 0 end
  | S h => hash (be_bytes 32 (subtree hash leaf h (2 * i)) ++ be_bytes 32 (subtree hash leaf h (2 * i + 1)))
  end.

Definition account_leaf (m : gmap N account) (i : N) : option bytes :=
  (fun a => solidity (flat_struct [acc_balance a; acc_owner a; acc_signer a; acc_bips a])) <$> m !! i.
Definition flag_leaf (m : gmap N bool) (i : N) : option bytes :=
  (fun b : bool => solidity (AWord (if b then 1 else 0))) <$> m !! i.

(** The root of a state: seven words, the last two the roots of trees with 160 levels. *)
Definition state_commitment (E : env) (s : full_state) : N :=
  keccak E (solidity (flat_struct
    [vs_domain s; vs_tx_id s; vs_onchain_tx_id s; vs_onchain_block s; vs_onchain_log_index s;
     subtree (keccak E) (account_leaf (accounts s)) 160 0;
     subtree (keccak E) (flag_leaf (flags s)) 160 0])).
