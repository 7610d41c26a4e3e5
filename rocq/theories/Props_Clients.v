(** Properties of the client side: pricing, the example program. *)
From Verif Require Import Proofs_Clients.
Open Scope N_scope.

(** ** C33: price conversion rounds in the consumer's favour *)

(** The result is the largest whole number of wei not worth more than the amount; a zero price is the only
    error. *)
Theorem C33_amount_in_wei usd price :
  forall (Hrange : usd < 2 ^ 64),
  (usd_micros_to_prove_wei usd price = Err ZeroProvePrice /\ price = 0) \/
  (exists w, usd_micros_to_prove_wei usd price = Ok w /\ price <> 0 /\
     w * price <= usd * 10 ^ 18 /\ usd * 10 ^ 18 < (w + 1) * price).
Proof. exact (wei_spec usd price). Qed.
Print Assumptions C33_amount_in_wei.

Theorem C33_price_per_pgu target price :
  forall (Hrange : target < 2 ^ 64),
  (compute_max_price_per_pgu_wei target price = Err ZeroProvePrice /\ price = 0) \/
  (exists w, compute_max_price_per_pgu_wei target price = Ok w /\ price <> 0 /\
     w * 10 ^ 9 * price <= target * 10 ^ 18 /\ target * 10 ^ 18 < (w + 1) * 10 ^ 9 * price).
Proof. exact (pgu_spec target price). Qed.
Print Assumptions C33_price_per_pgu.

(** The result is the largest multiple of the tick that is not above the amount; no tick, no change. *)
Theorem C33_tick wei tick :
  (tick = 0 -> round_down_to_tick wei tick = wei) /\
  (tick <> 0 -> exists k, round_down_to_tick wei tick = k * tick /\ k * tick <= wei /\ wei < (k + 1) * tick).
Proof. split; [intros ->; reflexivity|exact (tick_spec wei tick)]. Qed.
Print Assumptions C33_tick.

(** One micro-dollar at a price of three: 333333333333333333 wei. *)
Example C33_example :
  (1 < 2 ^ 64) /\ usd_micros_to_prove_wei 1 3 = Ok 333333333333333333 /\
  compute_max_price_per_pgu_wei 200000 400000 = Ok 500000000 /\
  usd_micros_to_prove_wei 200000 0 = Err ZeroProvePrice /\
  round_down_to_tick 642742367 10000000 = 640000000 /\ round_down_to_tick 5 10 = 0 /\ round_down_to_tick 123 0 = 123.
Proof. repeat match goal with |- _ /\ _ => split end; vm_compute; reflexivity. Qed.

(** ** C55: reading a price *)

(** An accepted price is a positive 64-bit number of micro-dollars, and the text a decimal number.  The two
    differ by at most 1/2, plus the 2^51st part for floating point. *)
Theorem C55_accepted_is_near s k :
  forall (Haccepted : parse_usd_micros s = Ok k),
  1 <= k /\ k < 2 ^ 64 /\
  exists t a b, padded s t /\ literal t a b /\ 0 < a /\ 0 < b /\
    2 ^ 52 * (k * b) <= 2 ^ 51 * b + 2 ^ 52 * (1000000 * a) + 2 * (1000000 * a) /\
    2 ^ 52 * (1000000 * a) <= 2 ^ 51 * b + 2 ^ 52 * (k * b) + 2 * (1000000 * a).
Proof. exact (C55_accepted_is_near_proof s k). Qed.
Print Assumptions C55_accepted_is_near.

(** Every number from one micro-dollar to 2^63 is accepted. *)
Theorem C55_accepts s t a b :
  forall (Hpadded : padded s t) (Hnumber : literal t a b)
    (Hmin : b <= 1000000 * a) (Hmax : 1000000 * a <= 2 ^ 63 * b),
  exists k, parse_usd_micros s = Ok k.
Proof. exact (C55_accepts_proof s t a b). Qed.
Print Assumptions C55_accepts.

(** A whole number of micro-dollars below 2^50 is read exactly. *)
Theorem C55_exact s t a b m :
  forall (Hpadded : padded s t) (Hnumber : literal t a b)
    (Hwhole : 1000000 * a = m * b) (Hmin : 1 <= m) (Hmax : m < 2 ^ 50),
  parse_usd_micros s = Ok m.
Proof. exact (C55_exact_proof s t a b m). Qed.
Print Assumptions C55_exact.

(** " 0.2337 " is 2337/10000 of a dollar. *)
Example C55_example :
  padded [32; 48; 46; 50; 51; 51; 55; 32] [48; 46; 50; 51; 51; 55] /\
  literal [48; 46; 50; 51; 51; 55] 2337 10000 /\ 1000000 * 2337 = 233700 * 10000 /\
  parse_usd_micros [32; 48; 46; 50; 51; 51; 55; 32] = Ok 233700 /\
  parse_usd_micros [48; 46; 50; 51; 51; 55; 48; 48; 53] = Ok 233701 /\
  parse_usd_micros [53; 101; 45; 55] = Ok 1 /\ parse_usd_micros [52; 101; 45; 55] = Err PriceConversion /\
  parse_usd_micros [45; 49] = Err PriceConversion /\ parse_usd_micros [78; 97; 78] = Err PriceConversion /\
  parse_usd_micros [49; 101; 52; 48; 48] = Err PriceConversion /\ parse_usd_micros [] = Err PriceConversion.
Proof. exact C55_example_proof. Qed.

(** ** C38: the example program decides primality *)

(** For every 64-bit number, even where the square of the candidate wraps around, the program stops, never
    panics, and returns whether the number is prime. *)
Theorem C38_decides_primality n :
  forall (Hrange : n < 2 ^ 64),
  exists b rounds, (forall r, (rounds <= r)%nat -> is_prime r n = Returns b) /\ (b = true <-> prime_number n).
Proof. exact (is_prime_correct n). Qed.
Print Assumptions C38_decides_primality.

(** 1000003 is prime, 1022117 is 1009 * 1013, and 2^64 - 5 is divisible by 11. *)
Example C38_example :
  1000003 < 2 ^ 64 /\ is_prime 200 1000003 = Returns true /\ is_prime 200 1022117 = Returns false /\
  is_prime 5 (2 ^ 64 - 5) = Returns false /\ is_prime 0 0 = Returns false /\ is_prime 0 2 = Returns true /\
  is_prime 1 25 = Returns false.
Proof. repeat match goal with |- _ /\ _ => split end; vm_compute; reflexivity. Qed.
