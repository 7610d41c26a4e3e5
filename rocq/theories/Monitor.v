(** The node's monitor, [SerialMonitor::record], crates/node/core/src/serial.rs 444-508, and the counters it reads,
    crates/node/core/src/lib.rs 103-116, which the prover updates (crates/node/core/src/serial.rs 687-691).

    Each counter has its own lock, so the updates and the readings may mix in any order.  The libraries that
    measure memory, processor and graphics card give numbers that are logged as they are, and are left out; of the
    state of the system the disks are kept.  The texts in front of the logged values are left out. *)
From Verif Require Export Calibrator NodeSystem.
Open Scope N_scope.
Open Scope flow_scope.

(** ** The counters *)

(** The counters of [NodeMetrics], crates/node/core/src/lib.rs 103-116; the time is in nanoseconds. *)
Record counters : Type := Counters { ct_fulfilled : N; ct_cycles : N; ct_time : N }.
(** At the start, crates/node/core/src/serial.rs 49-54. *)
Definition counters_start : counters := Counters 0 0 0.
(** What is done while one of the locks is held: the updates, crates/node/core/src/serial.rs 689-691, and the
    readings, 449-451. *)
Inductive counter_event : Type :=
| MAddCycles (cycles : N)
| MAddTime (time : N)
| MAddFulfilled
| MReadFulfilled (v : N)
| MReadCycles (v : N)
| MReadTime (v : N).
(** The updates made by the prover at one of its events, in their order, crates/node/core/src/serial.rs 689-691. *)
Definition counter_updates (e : timed node_event) : list counter_event :=
  match e with
  | Op (EMetrics cycles time _) => [MAddCycles cycles; MAddTime time; MAddFulfilled]
  | _ => []
  end.
(** The effect on the counters, crates/node/core/src/serial.rs 449-451, 689-691; 64-bit numbers wrap around.
    [None] if the value read is not the one stored. *)
Definition counter_step (c : counters) (e : counter_event) : option counters :=
  match e with
  | MAddCycles n => Some (Counters (ct_fulfilled c) ((ct_cycles c + n) mod 2 ^ 64) (ct_time c))
  | MAddTime n => Some (Counters (ct_fulfilled c) (ct_cycles c) (ct_time c + n))
  | MAddFulfilled => Some (Counters ((ct_fulfilled c + 1) mod 2 ^ 64) (ct_cycles c) (ct_time c))
  | MReadFulfilled v => if v =? ct_fulfilled c then Some c else None
  | MReadCycles v => if v =? ct_cycles c then Some c else None
  | MReadTime v => if v =? ct_time c then Some c else None
  end.

(** ** The texts *)

(** An item of [humantime::format_duration] (crates/node/core/src/serial.rs 459): nothing for zero. *)
Definition duration_item (name : list N) (value : N) : list (list N) :=
  if value =? 0 then [] else [decimal_text value ++ name].
(** An item whose name gets an "s" above one (humantime, crates/node/core/src/serial.rs 459). *)
Definition duration_item_plural (name : list N) (value : N) : list (list N) :=
  duration_item (name ++ (if 1 <? value then [115] else [])) value.
(** The items with spaces between them (humantime, crates/node/core/src/serial.rs 459). *)
Fixpoint with_spaces (items : list (list N)) : list N :=
  match items with
  | [] => []
  | [item] => item
  | item :: rest => item ++ [32] ++ with_spaces rest
  end.
(** [humantime::format_duration], crates/node/core/src/serial.rs 459: years of 365.25 days, months of 30.44 days,
    days, h, m, s, ms, us, ns; "0s" for nothing. *)
Definition format_duration (nanos : N) : list N :=
  let secs := nanos / 10 ^ 9 in
  let sub := nanos mod 10 ^ 9 in
  if nanos =? 0 then [48; 115]
  else
    let ydays := secs mod 31557600 in
    let mdays := ydays mod 2630016 in
    let day_secs := mdays mod 86400 in
    with_spaces
      (duration_item_plural [121; 101; 97; 114] (secs / 31557600) ++
       duration_item_plural [109; 111; 110; 116; 104] (ydays / 2630016) ++
       duration_item_plural [100; 97; 121] (mdays / 86400) ++
       duration_item [104] (day_secs / 3600) ++
       duration_item [109] (day_secs mod 3600 / 60) ++
       duration_item [115] (day_secs mod 60) ++
       duration_item [109; 115] (sub / 1000000) ++
       duration_item [117; 115] (sub / 1000 mod 1000) ++
       duration_item [110; 115] (sub mod 1000)).
(** The throughput, crates/node/core/src/serial.rs 452-457: cycles by whole seconds, in "MHz". *)
Definition throughput_text (cycles time : N) : list N :=
  match f64_div (f64_of cycles) (f64_of (time / 10 ^ 9)) with
  | FNan => [48] ++ [32; 77; 72; 122]
  | throughput => two_decimals (f64_div throughput (f64_of 1000000)) ++ [32; 77; 72; 122]
  end.
(** The cycles in millions, crates/node/core/src/serial.rs 458. *)
Definition cycles_text (cycles : N) : list N := two_decimals (f64_div (f64_of cycles) (f64_of 1000000)) ++ [77].

(** ** The monitor *)

(** The logged counters, crates/node/core/src/serial.rs 460-466. *)
Record metrics_line : Type := MetricsLine {
  ml_fulfilled : list N;
  ml_cycles : list N;
  ml_time : list N;
  ml_throughput : list N
}.
(** The first part of [record], crates/node/core/src/serial.rs 447-466. *)
Definition record_metrics : flow counter_event metrics_line :=
  ask! fulfilled := ask MReadFulfilled in
  ask! total_cycles := ask MReadCycles in
  ask! total_proving_time := ask MReadTime in
  Ret (MetricsLine (decimal_text fulfilled) (cycles_text total_cycles) (format_duration total_proving_time)
         (throughput_text total_cycles total_proving_time)).
(** A disk: its space and its available space, crates/node/core/src/serial.rs 480-483. *)
Record disk : Type := Disk { dk_total : N; dk_available : N }.
(** The sum of 64-bit numbers, which wraps around, crates/node/core/src/serial.rs 481, 483. *)
Definition sum_u64 (l : list N) : N := fold_left (fun a b => (a + b) mod 2 ^ 64) l 0.
(** The logged number [disk_used_percent], crates/node/core/src/serial.rs 480-490. *)
Definition disk_used_percent (disks : list disk) : f64 :=
  f64_mul (f64_div (f64_of (sum_u64 (map dk_available disks))) (f64_of (sum_u64 (map dk_total disks)))) (f64_of 100).
