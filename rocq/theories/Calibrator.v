(** The calibrator, crates/node/calibrator/src/lib.rs, and the two commands of the node's binary,
    bin/node/src/main.rs: [calibrate], which prints a bid price, and the reading of the options of [prove].

    The proving client and the clock give arbitrary answers.  The options are texts, read as clap does, with
    [parse::<f64>].  Of the printed tables only the two results are kept; the throughput is kept as a number,
    the price as text. *)
From Verif Require Export Node.
Open Scope N_scope.
Open Scope flow_scope.

(** ** Arithmetic *)

(** The product of [f64] numbers, crates/node/calibrator/src/lib.rs 97-100. *)
Definition f64_mul (x y : f64) : f64 :=
  match x, y with
  | FNan, _ | _, FNan => FNan
  | FInf s, FInf s' => FInf (xorb s s')
  | FInf s, FFin s' n _ | FFin s' n _, FInf s => if n =? 0 then FNan else FInf (xorb s s')
  | FFin s a b, FFin s' c d => to_f64 (xorb s s') (a * c) (b * d)
  end.
(** The sum of [f64] numbers, crates/node/calibrator/src/lib.rs 100 and [Duration::as_secs_f64] (84). *)
Definition f64_add (x y : f64) : f64 :=
  match x, y with
  | FNan, _ | _, FNan => FNan
  | FInf s, FInf s' => if eqb s s' then FInf s else FNan
  | FInf s, FFin _ _ _ | FFin _ _ _, FInf s => FInf s
  | FFin s a b, FFin s' c d =>
      if eqb s s' then to_f64 s (a * d + c * b) (b * d)
      else if c * b <? a * d then to_f64 s (a * d - c * b) (b * d)
      else if a * d <? c * b then to_f64 s' (c * b - a * d) (b * d)
      else FFin false 0 1
  end.
(** A whole number as [f64], crates/node/calibrator/src/lib.rs 84, 97. *)
Definition f64_of (n : N) : f64 := to_f64 false n 1.
(** [Duration::as_secs_f64] of a number of nanoseconds, crates/node/calibrator/src/lib.rs 84. *)
Definition as_secs_f64 (nanos : N) : f64 :=
  f64_add (f64_of (nanos / 10 ^ 9)) (f64_div (f64_of (nanos mod 10 ^ 9)) (f64_of (10 ^ 9))).

(** [f64::round]: the nearest whole number, halves away from zero, bin/node/src/main.rs 151. *)
Definition f64_round (x : f64) : f64 :=
  match x with FFin s n d => FFin s (round_half_up n d) 1 | _ => x end.

(** ** The calibrator *)

(** [CalibratorMetrics], crates/node/calibrator/src/lib.rs 19-26. *)
Record metrics : Type := Metrics { pgus_per_second : f64; pgu_price : f64 }.
(** [SinglePassCalibrator], crates/node/calibrator/src/lib.rs 28-41. *)
Record calibrator : Type := Calibrator {
  cal_elf : bytes;
  cal_stdin : bytes;
  cal_cost_per_hour : f64;
  cal_utilization_rate : f64;
  cal_profit_margin : f64
}.
(** The proving client, the clock (in nanoseconds) and the terminal,
    crates/node/calibrator/src/lib.rs 59-83, bin/node/src/main.rs 150-172. *)
Inductive cal_event : Type :=
| CSetup (elf : bytes) (r : result bytes (list N))
| CExecute (elf stdin : bytes) (r : result (option N) (list N))
| CProve (key stdin : bytes) (r : result unit (list N))
| CClock (t : N)
| CResults (throughput : f64) (price : list N) (done : unit).

(** The formula for the price, crates/node/calibrator/src/lib.rs 84, 97-100. *)
Definition price_of (c : calibrator) (prover_gas duration : N) : metrics :=
  let pgus_per_second := f64_div (f64_of prover_gas) (as_secs_f64 duration) in
  let pgus_per_hour := f64_mul pgus_per_second (f64_of 3600) in
  let utilized_pgus_per_hour := f64_mul pgus_per_hour (cal_utilization_rate c) in
  let optimal_pgu_price := f64_div (cal_cost_per_hour c) utilized_pgus_per_hour in
  Metrics pgus_per_second (f64_mul optimal_pgu_price (f64_add (f64_of 1) (cal_profit_margin c))).

(** [SinglePassCalibrator::calibrate], crates/node/calibrator/src/lib.rs 59-105.  The program of the proving
    key (68) is the one it was made from. *)
Definition calibrate (c : calibrator) : flow cal_event (result metrics (list N)) :=
  rpc! key := ask (CSetup (cal_elf c)) in
  rpc! report := ask (CExecute (cal_elf c) (cal_stdin c)) in
  let prover_gas := match report with Some gas => gas | None => 0 end in
  ask! start := ask CClock in
  rpc! _ := ask (CProve key (cal_stdin c)) in
  ask! now := ask CClock in
  Ret (Ok (price_of c prover_gas (now - start))).

(** ** The command [calibrate] *)

(** Decimal digits of a whole number below [10 ^ 320] ([format!], bin/node/src/main.rs 161). *)
Definition digits_text (n : N) : list N := decimal_aux 320 n.
(** [format!("{:.2}")]: the nearest number of hundredths, bin/node/src/main.rs 159-162. *)
Definition two_decimals (x : f64) : list N :=
  match x with
  | FNan => [78; 97; 78]
  | FInf s => (if s then [45] else []) ++ [105; 110; 102]
  | FFin s n d =>
      let h := nearest_even (100 * n) d in
      (if s then [45] else []) ++ digits_text (h / 100) ++ [46; 48 + h mod 100 / 10; 48 + h mod 10]
  end.
(** [CalibrateArgs], bin/node/src/main.rs 31-46: the texts of the options. *)
Record calibrate_args : Type := CalibrateArgs {
  arg_usd_cost_per_hour : list N;
  arg_utilization_rate : list N;
  arg_profit_margin : list N;
  arg_prove_price : list N
}.
(** Reading an option or ending with the usage, bin/node/src/main.rs 31-46, 75. *)
Notation "'option!' x := e 'in' k" :=
  (match e with Some x => k | None => Ret (Err []) end)
  (at level 200, x pattern, e at level 100, k at level 200, right associativity) : flow_scope.
(** The command [calibrate], bin/node/src/main.rs 75, 83-173, for the embedded program and its input
    (85, 124-127). *)
Definition calibrate_command (elf stdin : bytes) (args : calibrate_args) : flow cal_event (result unit (list N)) :=
  option! cost := parse_f64 (arg_usd_cost_per_hour args) in
  option! rate := parse_f64 (arg_utilization_rate args) in
  option! margin := parse_f64 (arg_profit_margin args) in
  option! prove_price := parse_f64 (arg_prove_price args) in
  rpc! m := calibrate (Calibrator elf stdin cost rate margin) in
  ask! _ := ask (CResults (f64_round (pgus_per_second m))
                   (two_decimals (f64_mul (f64_mul (pgu_price m) prove_price) (f64_of (10 ^ 9))))) in
  Ret (Ok tt).

(** ** The options of [prove] *)

(** [U256::from] for [f64] (ruint), bin/node/src/main.rs 188: zero below one half, otherwise the whole part of
    the number increased by one half; panics for NaN, a negative number or one that does not fit. *)
Definition u256_of_f64 (x : f64) : option N :=
  match x with
  | FFin s n d =>
      if s && negb (n =? 0) then None
      else if d * two256 <=? n then None
      else if 2 * n <? d then Some 0
      else match f64_add x (to_f64 false 1 2) with
           | FFin _ n' d' => let r := n' / d' in if r <? two256 then Some r else None
           | _ => None
           end
  | _ => None
  end.
(** The bidder of the command [prove], bin/node/src/main.rs 49-66, 174-188: [None] for bad options. *)
Definition node_of_options (address : N) (sign : bytes -> bytes) (domain : N) (prover : N)
    (bid throughput : list N) : option node :=
  match parse_f64 bid, parse_f64 throughput with
  | Some b, Some t =>
      match u256_of_f64 b with
      | Some wei => Some (Node address sign wei t prover domain)
      | None => None
      end
  | _, _ => None
  end.
