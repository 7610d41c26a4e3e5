(** Properties of the calibrator and of the options of the node's binary. *)
From Coq Require Import QArith Qabs.
From Verif Require Import Proofs_Calibrator.
Open Scope Q_scope.

(** ** C70: at the calibrated price the prover earns its cost and the margin *)

(** A calibration ends well exactly after a set-up, an execution and one proof with the clock read before and
    after it, and fails with the first error. *)
Theorem C70_outcome c tr r :
  forall (Hrun : runs (calibrate c) tr r),
  (forall m, r = Ok m -> exists key report start now,
     tr = [CSetup (cal_elf c) (Ok key); CExecute (cal_elf c) (cal_stdin c) (Ok report); CClock start;
           CProve key (cal_stdin c) (Ok tt); CClock now]) /\
  (forall e, r = Err e -> exists before,
     tr = before ++ [CSetup (cal_elf c) (Err e)] \/ tr = before ++ [CExecute (cal_elf c) (cal_stdin c) (Err e)] \/
     exists key, tr = before ++ [CProve key (cal_stdin c) (Err e)]).
Proof. exact (C70_outcome_proof c tr r). Qed.
Print Assumptions C70_outcome.

(** At the price found, an hour's income is the cost of the hour and the margin on it, up to floating point
    errors; the throughput is the measured one. *)
Theorem C70_earns c tr r gas nanos c1 c2 r1 r2 m1 m2 :
  forall (Hrun : runs (calibrate c) tr r) (Hcal : calibration (cal_elf c) (cal_stdin c) gas nanos tr)
    (Hmeasured : measured gas nanos)
    (Hcost : cal_cost_per_hour c = FFin false c1 c2) (Hc : ordinary c1 c2)
    (Hrate : cal_utilization_rate c = FFin false r1 r2) (Hr : ordinary r1 r2)
    (Hmargin : cal_profit_margin c = FFin false m1 m2) (Hm : (0 < m2)%N /\ (m1 <= 10 ^ 12 * m2)%N),
  exists m p q u v, r = Ok m /\
    pgu_price m = FFin false p q /\ (0 < q)%N /\
    close (hourly_income (frac p q) (frac r1 r2) gas nanos) (frac c1 c2 * (1 + frac m1 m2)) /\
    pgus_per_second m = FFin false u v /\ (0 < v)%N /\ close (frac u v) (units_per_second gas nanos).
Proof. exact (C70_earns_proof c tr r gas nanos c1 c2 r1 r2 m1 m2). Qed.
Print Assumptions C70_earns.

(** If the execution reports no gas, the throughput found is zero and the price infinite. *)
Theorem C70_no_gas c key start nanos r c1 c2 r1 r2 m1 m2 :
  forall (Hrun : runs (calibrate c) [CSetup (cal_elf c) (Ok key); CExecute (cal_elf c) (cal_stdin c) (Ok None);
                   CClock start; CProve key (cal_stdin c) (Ok tt); CClock (start + nanos)%N] r)
    (Hn0 : (0 < nanos)%N) (Hn : (nanos < 2 ^ 64 * 10 ^ 9)%N)
    (Hcost : cal_cost_per_hour c = FFin false c1 c2) (Hc : ordinary c1 c2)
    (Hrate : cal_utilization_rate c = FFin false r1 r2) (Hr : ordinary r1 r2)
    (Hmargin : cal_profit_margin c = FFin false m1 m2) (Hm : (0 < m2)%N /\ (m1 <= 10 ^ 12 * m2)%N),
  r = Ok (Metrics (FFin false 0 1) (FInf false)).
Proof. exact (C70_no_gas_proof c key start nanos r c1 c2 r1 r2 m1 m2). Qed.
Print Assumptions C70_no_gas.

Example C70_no_gas_case :
  let c := Calibrator [1]%N [3]%N (FFin false 3 4) (FFin false 1 2) (FFin false 1 8) in
  runs (calibrate c) [CSetup [1]%N (Ok [2]%N); CExecute [1]%N [3]%N (Ok None); CClock 5; CProve [2]%N [3]%N (Ok tt);
                      CClock (5 + 1000000)] (Ok (Metrics (FFin false 0 1) (FInf false))).
Proof. exact C70_no_gas_case_proof. Qed.

(** Three quarters of a dollar an hour, half of the time, a margin of an eighth; ten million units in ten seconds. *)
Example C70_example :
  let c := Calibrator [1]%N [3]%N (FFin false 3 4) (FFin false 1 2) (FFin false 1 8) in
  calibration (cal_elf c) (cal_stdin c) 10000000 10000000000 toy_calibration /\ measured 10000000 10000000000 /\
  ordinary 3 4 /\ ordinary 1 2 /\ (1 <= 10 ^ 12 * 8)%N /\
  exists m, runs (calibrate c) toy_calibration (Ok m) /\ f64_round (pgus_per_second m) = FFin false 1000000 1.
Proof. exact C70_example_proof. Qed.

(** ** C71: the printed bid price *)

(** The text printed is a number of hundredths next to the price per billion units in dollars *times* the
    price of $PROVE in dollars; the throughput printed is the whole number next to the measured one. *)
Theorem C71_printed elf stdin args cal throughput text gas nanos c1 c2 r1 r2 m1 m2 p1 p2 :
  forall (Hcost : literal (arg_usd_cost_per_hour args) c1 c2) (Hc : ordinary c1 c2)
    (Hrate : literal (arg_utilization_rate args) r1 r2) (Hr : ordinary r1 r2)
    (Hmargin : literal (arg_profit_margin args) m1 m2) (Hm : m1 = 0%N \/ ordinary m1 m2)
    (Hprice : literal (arg_prove_price args) p1 p2) (Hp : ordinary p1 p2)
    (Hcal : calibration elf stdin gas nanos cal) (Hmeasured : measured gas nanos)
    (Hrun : runs (calibrate_command elf stdin args) (cal ++ [CResults throughput text tt]) (Ok tt)),
  (exists h x, literal text h 100 /\ Qabs (frac h 100 - x) <= 1 # 200 /\
    close (hourly_income (x / number (10 ^ 9)) (frac r1 r2) gas nanos)
          (frac p1 p2 * (frac c1 c2 * (1 + frac m1 m2)))) /\
  (exists k x, throughput = FFin false k 1 /\ Qabs (number k - x) <= 1 # 2 /\ close x (units_per_second gas nanos)).
Proof. exact (C71_printed_proof elf stdin args cal throughput text gas nanos c1 c2 r1 r2 m1 m2 p1 p2). Qed.
Print Assumptions C71_printed.

(** So bidding what is printed, in $PROVE per billion units, may not even earn half of the cost. *)
Theorem C71_printed_bid_earns_refuted : exists elf stdin args cal throughput text gas nanos c1 c2 r1 r2 m1 m2 p1 p2 h,
  literal (arg_usd_cost_per_hour args) c1 c2 /\ literal (arg_utilization_rate args) r1 r2 /\
  literal (arg_profit_margin args) m1 m2 /\ literal (arg_prove_price args) p1 p2 /\
  calibration elf stdin gas nanos cal /\ measured gas nanos /\
  runs (calibrate_command elf stdin args) (cal ++ [CResults throughput text tt]) (Ok tt) /\ literal text h 100 /\
  hourly_income (frac h 100 / number (10 ^ 9) * frac p1 p2) (frac r1 r2) gas nanos < (1 # 2) * frac c1 c2.
Proof. exact C71_refuted_proof. Qed.
Print Assumptions C71_printed_bid_earns_refuted.

(** Options "0.80", "0.5", "0.1" and "0.50" meet the hypotheses; "0.24" is printed. *)
Example C71_example :
  (literal (arg_usd_cost_per_hour toy_args) 80 100 /\ literal (arg_utilization_rate toy_args) 5 10 /\
   literal (arg_profit_margin toy_args) 1 10 /\ literal (arg_prove_price toy_args) 50 100 /\ literal toy_text 24 100) /\
  (ordinary 80 100 /\ ordinary 5 10 /\ ordinary 1 10 /\ ordinary 50 100 /\ measured 10000000 10000000000) /\
  calibration [1]%N [3]%N 10000000 10000000000 toy_calibration /\
  runs (calibrate_command [1]%N [3]%N toy_args)
    (toy_calibration ++ [CResults (FFin false 1000000 1) toy_text tt]) (Ok tt).
Proof. exact (conj toy_literals (conj toy_ordinary (conj toy_calibration_ok toy_run))). Qed.

(** ** C72: the options of the node *)

(** The bid of the node is the whole number next to the number given, and its throughput the number given. *)
Theorem C72_options address sign domain prover bid throughput a b c d :
  forall (Hbid : literal bid a b) (Hmax : (a < 2 ^ 50 * b)%N) (Hthroughput : literal throughput c d) (Hc : ordinary c d),
  exists w u v, node_of_options address sign domain prover bid throughput =
      Some (Node address sign w (FFin false u v) prover domain) /\
    Qabs (number w - frac a b) <= (1 # 2) + frac a b / number (2 ^ 50) /\
    (0 < v)%N /\ close (frac u v) (frac c d).
Proof. exact (C72_options_proof address sign domain prover bid throughput a b c d). Qed.
Print Assumptions C72_options.

(** The bid sent is in wei per unit of gas.  Read as documented, in $PROVE per billion units, it is more than
    [10^8] times too low. *)
Theorem C72_bid_unit_refuted : exists address sign domain prover bid throughput a b n,
  literal bid a b /\ node_of_options address sign domain prover bid throughput = Some n /\
  number (10 ^ 8) * (number (nd_bid n) * number (10 ^ 9)) < frac a b * number (10 ^ 18).
Proof. exact C72_refuted_proof. Qed.
Print Assumptions C72_bid_unit_refuted.

(** A bid of "2.5" becomes 3, "0.4" nothing. *)
Example C72_example :
  literal [50; 46; 53]%N 25 10 /\ (25 < 2 ^ 50 * 10)%N /\ literal [49; 48; 48; 46]%N 100 1 /\ ordinary 100 1 /\
  option_map nd_bid (node_of_options 1 (fun _ => []) 2 3 [50; 46; 53]%N [49; 48; 48; 46]%N) = Some 3%N /\
  option_map nd_bid (node_of_options 1 (fun _ => []) 2 3 [48; 46; 52]%N [49; 48; 48; 46]%N) = Some 0%N /\
  node_of_options 1 (fun _ => []) 2 3 [45; 49; 46]%N [49; 48; 48; 46]%N = None.
Proof. exact C72_example_proof. Qed.
