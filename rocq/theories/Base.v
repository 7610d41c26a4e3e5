(** Machine words, byte strings and the external functions of the model. *)
From stdpp Require Export prelude numbers list gmap sorting.
From Coq Require Export ZArith NArith Lia.

Open Scope N_scope.

(** ** Words *)

(** 2^256: the first value that does not fit alloy's [U256]
    (used throughout crates/vapp/src/u256.rs 1-27). *)
Definition two256 : N := 2 ^ 256.

(** 2^64: the first value that does not fit [u64]
    (fields of VAppState, crates/vapp/src/state.rs 41-70). *)
Definition two64 : N := 2 ^ 64.

(** 2^160: the first value that does not fit an [Address]
    (crates/vapp/src/storage.rs 56-64). *)
Definition two160 : N := 2 ^ 160.

(** [u64::MAX] (crates/vapp/src/receipts.rs 63). *)
Definition u64_max : N := two64 - 1.

(** [x += 1] on a [u64] (crates/vapp/src/state.rs 166, 170, 194, 225).  The workspace sets no
    [overflow-checks], so a release build wraps; a debug build would abort the process instead. *)
Definition u64_succ (x : N) : N := (x + 1) mod two64.

(** ** Byte strings *)

(** A byte string ([Vec<u8>], [&[u8]], UTF-8 contents of a [String]).  Bytes are numbers; the predicate
    [bytes_ok] says that each is below 256.  (for example the leaves and messages hashed in
    crates/vapp/src/merkle.rs 552-563.) *)
Definition bytes := list N.

(** Every element is a byte.  (the range of [u8], as in crates/vapp/src/merkle.rs 552-563.) *)
Definition bytes_ok (bs : bytes) : Prop := Forall (fun b => b < 256) bs.

(** Boolean version of [bytes_ok].  (the range of [u8], as in crates/vapp/src/merkle.rs 552-563.) *)
Definition bytes_okb (bs : bytes) : bool := forallb (fun b => b <? 256) bs.

(** Big-endian value of a byte string: [U256::from_be_slice], [u32::from_be_bytes]
    (crates/vapp/src/storage.rs 58, 71; crates/vapp/src/utils.rs 16). *)
Definition from_be (bs : bytes) : N := fold_left (fun acc b => acc * 256 + b) bs 0.

(** Big-endian bytes of a number, [n] of them: [Address::to_vec], [B256::as_slice]
    (crates/vapp/src/state.rs 668, 708). *)
Fixpoint be_bytes (n : nat) (x : N) : bytes :=
  match n with
  | O => []
  | S n' => be_bytes n' (N.shiftr x 8) ++ [N.land x 255]
  end.

(** Equality test on byte strings.  ([==] on [Vec<u8>], as in crates/vapp/src/state.rs 826.) *)
Definition bytes_eqb (a b : bytes) : bool := bool_decide (a = b).

(** [Address::try_from(slice)]: succeeds exactly on 20 bytes
    (crates/vapp/src/utils.rs 21-24, crates/vapp/src/state.rs 300, 312, 353, 413, 428, 533). *)
Definition address_of_bytes (bs : bytes) : option N :=
  if (length bs =? 20)%nat then Some (from_be bs) else None.

(** [B256::try_from(slice)] / [<[u8; 32]>::try_from(slice)]: succeeds exactly on 32 bytes
    (crates/vapp/src/state.rs 268, 389, 482, 653, 809, 837-849, 860). *)
Definition b256_of_bytes (bs : bytes) : option N :=
  if (length bs =? 32)%nat then Some (from_be bs) else None.

(** [str::starts_with] (crates/vapp/src/state.rs 871). *)
Fixpoint starts_with (s prefix : bytes) : bool :=
  match prefix, s with
  | [], _ => true
  | p :: ps, x :: xs => (p =? x) && starts_with xs ps
  | _ :: _, [] => false
  end.

(** ** Outcomes of fallible code *)

(** [Result<A, E>].  (the type of every fallible function, crates/vapp/src/u256.rs 10-27.) *)
Inductive result (A E : Type) : Type :=
| Ok (a : A)
| Err (e : E).
Arguments Ok {A E} a.
Arguments Err {A E} e.

Global Arguments two256 : simpl never.
Global Arguments two160 : simpl never.
Global Arguments two64 : simpl never.
Global Arguments be_bytes : simpl never.
Global Arguments from_be : simpl never.
