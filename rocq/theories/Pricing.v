(** Price conversion, crates/network/pricing/src/math.rs.

    A [&str] is the list of its characters (Unicode scalar values).  An [f64] is [FNan], an infinity, or the
    exact rational number it stands for.  Parsing an [f64], its product and its rounding are the standard
    library's, modelled as documented: the nearest representable number, ties to an even mantissa. *)
From Verif Require Export Fee.
Open Scope N_scope.

(** [PriceError], crates/network/pricing/src/error.rs 4-18 (those of this module). *)
Inductive price_error : Type := ZeroProvePrice | PriceOverflow | PriceConversion.

(** [usd_micros_to_prove_wei], crates/network/pricing/src/math.rs 16-23. *)
Definition usd_micros_to_prove_wei (usd_micros prove_usd_micros : N) : result N price_error :=
  if prove_usd_micros =? 0 then Err ZeroProvePrice
  else
    let scale := 10 ^ 18 in
    if usd_micros * scale <? two256 then Ok (usd_micros * scale / prove_usd_micros) else Err PriceOverflow.

(** [compute_max_price_per_pgu_wei], crates/network/pricing/src/math.rs 29-36. *)
Definition compute_max_price_per_pgu_wei (target prove_usd_micros : N) : result N price_error :=
  match usd_micros_to_prove_wei target prove_usd_micros with
  | Ok wei_per_bpgu => Ok (wei_per_bpgu / 10 ^ 9)
  | Err e => Err e
  end.

(** [round_down_to_tick], crates/network/pricing/src/math.rs 43-49. *)
Definition round_down_to_tick (wei multiple : N) : N :=
  if multiple <=? 1 then wei else wei - wei mod multiple.

(** ** Floating point numbers *)

(** Rust's [f64] without signed zeros and subnormals told apart: the values met in
    crates/network/pricing/src/math.rs 58-77. *)
Inductive f64 : Type :=
| FNan
| FInf (negative : bool)
| FFin (negative : bool) (num den : N).

(** The quotient rounded to the nearest integer, ties to even
    (f64 arithmetic, crates/network/pricing/src/math.rs 58, 66). *)
Definition nearest_even (p q : N) : N :=
  let d := p / q in let r := p mod q in
  if 2 * r <? q then d else if q <? 2 * r then d + 1 else if N.even d then d else d + 1.

(** [a / b / 2^e] as a fraction (f64 arithmetic, crates/network/pricing/src/math.rs 58, 66). *)
Definition scaled (a b : N) (e : Z) : N * N :=
  match e with
  | Z0 => (a, b)
  | Zpos p => (a, b * 2 ^ Npos p)
  | Zneg p => (a * 2 ^ Npos p, b)
  end.
(** The exponent of the float nearest to [a / b]: the quotient by its power of two is in [2^52, 2^53), or
    the exponent is the least one (f64 arithmetic, crates/network/pricing/src/math.rs 58, 66). *)
Definition exponent_of (a b : N) : Z :=
  let l := (Z.of_N (N.log2 a) - Z.of_N (N.log2 b))%Z in
  let (p, q) := scaled a b (l - 52) in
  Z.max (if (q * 2 ^ 52 <=? p)%N then l - 52 else l - 53)%Z (-1074).
(** The float nearest to [a / b] (f64 arithmetic, crates/network/pricing/src/math.rs 58, 66). *)
Definition to_f64 (negative : bool) (a b : N) : f64 :=
  if a =? 0 then FFin negative 0 1
  else
    let e := exponent_of a b in
    let (p, q) := scaled a b e in
    let (num, den) := scaled (nearest_even p q) 1 (- e) in
    if den * 2 ^ 1024 <=? num then FInf negative else FFin negative num den.

(** [price * 1_000_000.0], crates/network/pricing/src/math.rs 66, for a positive finite price. *)
Definition f64_million (num den : N) : f64 := to_f64 false (num * 1000000) den.
(** [round], half away from zero, crates/network/pricing/src/math.rs 66. *)
Definition round_half_up (num den : N) : N := (2 * num + den) / (2 * den).

(** ** Reading a number *)

(** [char::is_whitespace], used by [trim], crates/network/pricing/src/math.rs 58. *)
Definition is_space (c : N) : bool :=
  ((9 <=? c) && (c <=? 13)) || (c =? 32) || (c =? 133) || (c =? 160) || (c =? 5760) ||
  ((8192 <=? c) && (c <=? 8202)) || (c =? 8232) || (c =? 8233) || (c =? 8239) || (c =? 8287) || (c =? 12288).
(** [trim], crates/network/pricing/src/math.rs 58. *)
Fixpoint trim_start (s : list N) : list N :=
  match s with c :: r => if is_space c then trim_start r else s | [] => [] end.
(** [trim] removes white space at both ends, crates/network/pricing/src/math.rs 58. *)
Definition trim (s : list N) : list N := rev (trim_start (rev (trim_start s))).

(** A decimal digit (f64 parsing, crates/network/pricing/src/math.rs 58). *)
Definition is_digit (c : N) : bool := (48 <=? c) && (c <=? 57).
(** The longest prefix of digits, and the rest (f64 parsing, crates/network/pricing/src/math.rs 58). *)
Fixpoint digits (s : list N) : list N * list N :=
  match s with
  | c :: r => if is_digit c then let (ds, rest) := digits r in (c :: ds, rest) else ([], s)
  | [] => ([], [])
  end.
(** The number written by digits (f64 parsing, crates/network/pricing/src/math.rs 58). *)
Definition digits_value (ds : list N) : N := fold_left (fun acc c => acc * 10 + (c - 48)) ds 0.
(** ASCII lower case (f64 parsing ignores case, crates/network/pricing/src/math.rs 58). *)
Definition lower (c : N) : N := if (65 <=? c) && (c <=? 90) then c + 32 else c.

(** An optional sign (f64 parsing, crates/network/pricing/src/math.rs 58). *)
Definition read_sign (s : list N) : bool * list N :=
  match s with
  | c :: r => if c =? 43 then (false, r) else if c =? 45 then (true, r) else (false, s)
  | [] => (false, [])
  end.
(** An optional exponent up to the end (f64 parsing, crates/network/pricing/src/math.rs 58). *)
Definition read_exponent (s : list N) : option Z :=
  match s with
  | [] => Some 0%Z
  | c :: r =>
      if lower c =? 101 then
        let (negative, r1) := read_sign r in
        let (ds, rest) := digits r1 in
        if bool_decide (ds = []) then None
        else if bool_decide (rest = []) then
          Some (if negative then (- Z.of_N (digits_value ds))%Z else Z.of_N (digits_value ds))
        else None
      else None
  end.
(** [a / b * 10^e] (f64 parsing, crates/network/pricing/src/math.rs 58). *)
Definition decimal (a b : N) (e : Z) : N * N :=
  match e with
  | Z0 => (a, b)
  | Zpos p => (a * 10 ^ Npos p, b)
  | Zneg p => (a, b * 10 ^ Npos p)
  end.
(** An unsigned number: digits with at most one point, and an exponent
    (f64 parsing, crates/network/pricing/src/math.rs 58). *)
Definition read_number (s : list N) : option (N * N) :=
  let (ints, r) := digits s in
  let (fracs, r') :=
    match r with c :: r1 => if c =? 46 then digits r1 else ([], r) | [] => ([], []) end in
  if bool_decide (ints ++ fracs = []) then None
  else match read_exponent r' with
       | Some e => Some (decimal (digits_value (ints ++ fracs)) (10 ^ N.of_nat (length fracs)) e)
       | None => None
       end.
(** "inf", "infinity", "nan" (f64 parsing, crates/network/pricing/src/math.rs 58). *)
Definition word_inf : list N := [105; 110; 102].
(** "infinity" (f64 parsing, crates/network/pricing/src/math.rs 58). *)
Definition word_infinity : list N := [105; 110; 102; 105; 110; 105; 116; 121].
(** "nan" (f64 parsing, crates/network/pricing/src/math.rs 58). *)
Definition word_nan : list N := [110; 97; 110].
(** [parse::<f64>], crates/network/pricing/src/math.rs 58. *)
Definition parse_f64 (s : list N) : option f64 :=
  let (negative, r) := read_sign s in
  let w := map lower r in
  if bool_decide (w = word_inf) || bool_decide (w = word_infinity) then Some (FInf negative)
  else if bool_decide (w = word_nan) then Some FNan
  else match read_number r with Some (a, b) => Some (to_f64 negative a b) | None => None end.

(** [parse_usd_micros], crates/network/pricing/src/math.rs 57-78. *)
Definition parse_usd_micros (s : list N) : result N price_error :=
  match parse_f64 (trim s) with
  | Some (FFin negative num den) =>
      if negative || (num =? 0) then Err PriceConversion
      else match f64_million num den with
           | FFin _ n d =>
               let micros := round_half_up n d in
               if micros <? 1 then Err PriceConversion
               else if two64 <=? micros then Err PriceConversion
               else Ok micros
           | _ => Err PriceConversion
           end
  | _ => Err PriceConversion
  end.
