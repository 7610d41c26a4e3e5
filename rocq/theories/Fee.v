(** Checked 256-bit arithmetic and the fee split. *)
From Verif Require Export Types.
Open Scope N_scope.

(** [u256::add], crates/vapp/src/u256.rs 10-12. *)
Definition u256_add (a b : N) : result N panic :=
  if a + b <? two256 then Ok (a + b) else Err ArithmeticOverflow.
(** [u256::sub], crates/vapp/src/u256.rs 15-17. *)
Definition u256_sub (a b : N) : result N panic :=
  if b <=? a then Ok (a - b) else Err ArithmeticOverflow.
(** [u256::mul], crates/vapp/src/u256.rs 20-22. *)
Definition u256_mul (a b : N) : result N panic :=
  if a * b <? two256 then Ok (a * b) else Err ArithmeticOverflow.
(** [u256::div], crates/vapp/src/u256.rs 25-27. *)
Definition u256_div (a b : N) : result N panic :=
  if b =? 0 then Err ArithmeticOverflow else Ok (a / b).

(** [?] on pure results (used by the functions below).  (crates/vapp/src/fee.rs 38-56.) *)
Definition rbind {X Y} (r : result X panic) (f : X -> result Y panic) : result Y panic :=
  match r with Ok x => f x | Err e => Err e end.

Notation "'try' x := m 'in' k" := (rbind m (fun x => k))
  (at level 200, x pattern, m at level 100, k at level 200, right associativity).

(** [PROTOCOL_FEE_BIPS], crates/vapp/src/fee.rs 10. *)
Definition protocol_fee_bips : N := 0.

(** [fee], crates/vapp/src/fee.rs 15-59: (protocol, staker, owner) rewards. *)
Definition fee (amount protocol_bips staker_bips : N) : result (N * N * N) panic :=
  let denominator := 10000 in
  if denominator <? protocol_bips then Err (ProtocolFeeTooHigh protocol_bips) else
  if denominator <? staker_bips then Err (StakerFeeTooHigh staker_bips) else
  try total := u256_add protocol_bips staker_bips in
  try adjusted :=
    (if denominator <? total then
       try overflow := u256_sub total denominator in
       u256_sub staker_bips overflow
     else Ok staker_bips) in
  try combined := u256_add protocol_bips adjusted in
  if denominator <? combined then Err (TotalFeeTooHigh protocol_bips staker_bips) else
  try p1 := u256_mul amount protocol_bips in
  try protocol_reward := u256_div p1 denominator in
  try s1 := u256_mul amount adjusted in
  try staker_reward := u256_div s1 denominator in
  try o1 := u256_sub amount protocol_reward in
  try owner_reward := u256_sub o1 staker_reward in
  Ok (protocol_reward, staker_reward, owner_reward).
