(** The Solidity ABI encoding used for hashing and for public values.

    alloy_sol_types is an external crate; what is modelled here is the Solidity ABI it implements,
    for the types of crates/vapp/src/sol.rs. *)
From Verif Require Export Types.
Open Scope N_scope.

(** One ABI word: 32 bytes big-endian (external alloy_sol_types).  (As called in crates/vapp/src/merkle.rs
    554-560 and crates/vapp/src/receipts.rs 52-64.) *)
Definition word (x : N) : bytes := be_bytes 32 x.

(** [Account::abi_encode], crates/vapp/src/sol.rs 105-112: four static words. *)
Definition abi_account (a : account) : bytes :=
  word (acc_balance a) ++ word (acc_owner a) ++ word (acc_signer a) ++ word (acc_bips a).

(** [bool::abi_encode]: one word (values of the transactions tree, crates/vapp/src/state.rs 69). *)
Definition abi_bool (b : bool) : bytes := word (if b then 1 else 0).

(** Concatenation of two [B256::abi_encode], crates/vapp/src/merkle.rs 557-562. *)
Definition abi_pair (l r : N) : bytes := word l ++ word r.

(** [VAppStateContainer::abi_encode], crates/vapp/src/sol.rs 93-103: seven static words. *)
Definition abi_container (domain tx_id onchain_tx_id block log_index accounts_root tx_root : N)
    : bytes :=
  word domain ++ word tx_id ++ word onchain_tx_id ++ word block ++ word log_index ++
  word accounts_root ++ word tx_root.

(** [Deposit::abi_encode], crates/vapp/src/sol.rs 62-67. *)
Definition abi_deposit (d : deposit_action) : bytes := word (da_account d) ++ word (da_amount d).
(** [Withdraw::abi_encode], crates/vapp/src/sol.rs 69-74. *)
Definition abi_withdraw (w : withdraw_action) : bytes := word (wa_account w) ++ word (wa_amount w).
(** [CreateProver::abi_encode], crates/vapp/src/sol.rs 76-82. *)
Definition abi_create_prover (c : create_prover_action) : bytes :=
  word (cp_prover c) ++ word (cp_owner c) ++ word (cp_bips c).

(** [TransactionVariant] of the settlement contract, crates/vapp/src/sol.rs 38-47. *)
Inductive sol_variant : Type := VDeposit | VWithdraw | VCreateProver.

(** Comparison of variants, contracts/src/libraries/PublicValues.sol 29-33. *)
Global Instance sol_variant_eq_dec : EqDecision sol_variant.
Proof. solve_decision. Defined.

(** [Receipt], crates/vapp/src/sol.rs 25-36. *)
Record sol_receipt : Type := SolReceipt {
  sr_variant : sol_variant;
  sr_status : tx_status;
  sr_tx_id : N;
  sr_action : bytes
}.

(** [StepPublicValues], crates/vapp/src/sol.rs 84-91. *)
Record step_pv : Type := StepPv {
  pv_old_root : N;
  pv_new_root : N;
  pv_timestamp : N;
  pv_receipts : list sol_receipt
}.

(** [VAppReceipt::sol], crates/vapp/src/receipts.rs 43-68. *)
Definition sol_of_receipt (r : receipt) : sol_receipt :=
  match r with
  | RDeposit o => SolReceipt VDeposit (or_status o) (or_tx_id o) (abi_deposit (or_action o))
  | RCreateProver o =>
      SolReceipt VCreateProver (or_status o) (or_tx_id o) (abi_create_prover (or_action o))
  | RWithdraw o => SolReceipt VWithdraw (fr_status o) u64_max (abi_withdraw (fr_action o))
  end.

(** Enum discriminants, crates/vapp/src/sol.rs 38-47. *)
Definition sol_variant_tag (v : sol_variant) : N :=
  match v with VDeposit => 0 | VWithdraw => 1 | VCreateProver => 2 end.
(** Enum discriminants, crates/vapp/src/sol.rs 49-60. *)
Definition tx_status_tag (s : tx_status) : N :=
  match s with StNone => 0 | StPending => 1 | StCompleted => 2 | StReverted => 3 end.

(** Zero bytes that pad a dynamic byte string to a multiple of 32 (Solidity ABI).  (As called in
    crates/vapp/src/receipts.rs 52-64, programs/vapp/stf/src/main.rs 98.) *)
Definition padding (bs : bytes) : bytes :=
  replicate ((32 - length bs mod 32) mod 32) 0.

(** Dynamic [bytes]: length word, contents, padding (Solidity ABI).  (As called in
    programs/vapp/stf/src/main.rs 98.) *)
Definition abi_bytes (bs : bytes) : bytes := word (N.of_nat (length bs)) ++ bs ++ padding bs.

(** A [Receipt] (dynamic tuple; Solidity ABI for crates/vapp/src/sol.rs 25-36). *)
Definition abi_receipt (r : sol_receipt) : bytes :=
  word (sol_variant_tag (sr_variant r)) ++ word (tx_status_tag (sr_status r)) ++
  word (sr_tx_id r) ++ word 128 ++ abi_bytes (sr_action r).

(** The offsets of the elements of a dynamic array, counted from the first offset word (Solidity ABI).  (As
    called in programs/vapp/stf/src/main.rs 98.) *)
Fixpoint abi_offsets (start : N) (tails : list bytes) : bytes :=
  match tails with
  | [] => []
  | t :: ts => word start ++ abi_offsets (start + N.of_nat (length t)) ts
  end.

(** [Receipt[]]: length, offsets, elements (Solidity ABI).  (As called in programs/vapp/stf/src/main.rs 98.)
    *)
Definition abi_receipts (rs : list sol_receipt) : bytes :=
  let tails := map abi_receipt rs in
  word (N.of_nat (length rs)) ++ abi_offsets (32 * N.of_nat (length rs)) tails ++ concat tails.

(** [StepPublicValues::abi_encode], programs/vapp/stf/src/main.rs 98,
    programs/vapp/aggregation/src/main.rs 79, for the struct of crates/vapp/src/sol.rs 84-91. *)
Definition abi_step (p : step_pv) : bytes :=
  word 32 ++ word (pv_old_root p) ++ word (pv_new_root p) ++ word (pv_timestamp p) ++ word 128 ++
  abi_receipts (pv_receipts p).

(** ** Decoding *)

(** The bytes from offset [off], if inside the buffer (bounds check of the ABI decoder).  (As called in
    programs/vapp/aggregation/src/main.rs 34.) *)
Definition slice_from (bs : bytes) (off : N) : option bytes :=
  if off <=? N.of_nat (length bs) then Some (drop (N.to_nat off) bs) else None.

(** The word at byte offset [off].  (As called in programs/vapp/aggregation/src/main.rs 34.) *)
Definition read_word (bs : bytes) (off : N) : option N :=
  if off + 32 <=? N.of_nat (length bs)
  then Some (from_be (take 32 (drop (N.to_nat off) bs))) else None.

(** Decoding of the enum of crates/vapp/src/sol.rs 38-47. *)
Definition sol_variant_of (n : N) : option sol_variant :=
  match n with 0 => Some VDeposit | 1 => Some VWithdraw | 2 => Some VCreateProver | _ => None end.
(** Decoding of the enum of crates/vapp/src/sol.rs 49-60. *)
Definition tx_status_of (n : N) : option tx_status :=
  match n with
  | 0 => Some StNone | 1 => Some StPending | 2 => Some StCompleted | 3 => Some StReverted
  | _ => None
  end.

(** Decoding of dynamic [bytes] at the start of a buffer.  (As called in
    programs/vapp/aggregation/src/main.rs 34.) *)
Definition decode_bytes (bs : bytes) : option bytes :=
  len ← read_word bs 0;
  rest ← slice_from bs 32;
  if len <=? N.of_nat (length rest) then Some (take (N.to_nat len) rest) else None.

(** Decoding of a [Receipt] at the start of a buffer.  (As called in programs/vapp/aggregation/src/main.rs
    34.) *)
Definition decode_receipt (bs : bytes) : option sol_receipt :=
  v ← read_word bs 0; v ← sol_variant_of v;
  st ← read_word bs 32; st ← tx_status_of st;
  id ← read_word bs 64;
  off ← read_word bs 96;
  rest ← slice_from bs off;
  act ← decode_bytes rest;
  if id <? two64 then Some (SolReceipt v st id act) else None.

(** Decoding of [n] array elements: the [i]-th offset is at byte [32 * i] of [bs].  (As called in
    programs/vapp/aggregation/src/main.rs 34.) *)
Fixpoint decode_receipts (n : nat) (i : N) (bs : bytes) : option (list sol_receipt) :=
  match n with
  | O => Some []
  | S n' =>
      off ← read_word bs (32 * i);
      rest ← slice_from bs off;
      r ← decode_receipt rest;
      rs ← decode_receipts n' (i + 1) bs;
      Some (r :: rs)
  end.

(** [StepPublicValues::abi_decode], programs/vapp/aggregation/src/main.rs 33-34.  The behaviour of
    alloy's decoder on byte strings that are not ABI encodings is not claimed; theorems use this
    function on encodings only. *)
Definition decode_step (bs : bytes) : option step_pv :=
  off ← read_word bs 0;
  t ← slice_from bs off;
  old ← read_word t 0;
  new ← read_word t 32;
  ts ← read_word t 64;
  aoff ← read_word t 96;
  a ← slice_from t aoff;
  n ← read_word a 0;
  elems ← slice_from a 32;
  if (ts <? two64) && (n <=? N.of_nat (length bs)) then
    rs ← decode_receipts (N.to_nat n) 0 elems;
    Some (StepPv old new ts rs)
  else None.
