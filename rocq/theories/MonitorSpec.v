(** Vocabulary for the properties of the node's monitor. *)
From Coq Require Import QArith Qabs.
From Verif Require Export Monitor CalibratorSpec NodeSystemSpec ArtifactsSpec.
Open Scope N_scope.

(** ** The proofs of the prover *)

(** The cycles and times of the proofs made: an execution that told its cycles, then a proof that told its time. *)
Fixpoint proofs_made (tr : list (timed node_event)) : list (N * N) :=
  match tr with
  | Op (EExecute _ _ (TOk cycles)) :: (Op (EProve _ _ _ (TOk (_, time))) :: _) as rest =>
      (cycles, time) :: proofs_made rest
  | _ :: rest => proofs_made rest
  | [] => []
  end.
(** The proofs that were added to the counters. *)
Definition proofs_counted (tr : list (timed node_event)) : list (N * N) :=
  flat_map (fun e => match e with Op (EMetrics cycles time _) => [(cycles, time)] | _ => [] end) tr.
(** The number of fulfilments that the network accepted. *)
Definition fulfilments_accepted (tr : list (timed node_event)) : nat :=
  length (flat_map (fun e => match e with Op (EFulfill _ (Ok _)) => [tt] | _ => [] end) tr).

(** The sums over the first [k] proofs. *)
Definition sum_all (l : list N) : N := fold_right N.add 0 l.
Definition cycles_of (k : nat) (proofs : list (N * N)) : N := sum_all (map fst (take k proofs)).
Definition time_of (k : nat) (proofs : list (N * N)) : N := sum_all (map snd (take k proofs)).

(** The counters of these proofs do not overflow: 64-bit numbers of proofs, cycles and seconds. *)
Definition fit_64_bits (proofs : list (N * N)) : Prop :=
  N.of_nat (length proofs) < 2 ^ 64 /\ cycles_of (length proofs) proofs < 2 ^ 64 /\
  time_of (length proofs) proofs < 2 ^ 64 * 10 ^ 9.

(** The history of the counters: the values read are those stored. *)
Fixpoint counter_history (c : counters) (h : list counter_event) : Prop :=
  match h with
  | [] => True
  | e :: h => exists c', counter_step c e = Some c' /\ counter_history c' h
  end.

(** ** Texts *)

(** The names of units of time for [n] of them, and their sizes in nanoseconds. *)
Definition time_unit (n : N) (name : list N) (size : N) : Prop :=
  In (name, size)
    [(if n =? 1 then [121; 101; 97; 114] else [121; 101; 97; 114; 115], 31557600 * 10 ^ 9);
     (if n =? 1 then [109; 111; 110; 116; 104] else [109; 111; 110; 116; 104; 115], 2630016 * 10 ^ 9);
     (if n =? 1 then [100; 97; 121] else [100; 97; 121; 115], 86400 * 10 ^ 9);
     ([104], 3600 * 10 ^ 9); ([109], 60 * 10 ^ 9); ([115], 10 ^ 9); ([109; 115], 10 ^ 6); ([117; 115], 10 ^ 3); ([110; 115], 1)].
(** The text of a time: numbers with units, with spaces between them; and their sum. *)
Inductive duration_text : list N -> N -> Prop :=
| one_item n digits name size :
    is_decimal n digits -> time_unit n name size -> duration_text (digits ++ name) (n * size)
| more_items n digits name size text rest :
    is_decimal n digits -> time_unit n name size -> duration_text text rest ->
    duration_text (digits ++ name ++ [32] ++ text) (n * size + rest).

(** The text is a number with two digits after the point next to [y], up to the rounding of [y]. *)
Definition shows (text : list N) (y : Q) : Prop :=
  exists h x, literal text h 100 /\ (Qabs (frac h 100 - x) <= 1 # 200)%Q /\ close x y.

(** What is printed as the throughput for these cycles and nanoseconds: the cycles by the whole seconds, in
    millions. *)
Definition shows_throughput (text : list N) (cycles time : N) : Prop :=
  exists value, text = value ++ [32; 77; 72; 122] /\
    (time / 10 ^ 9 <> 0 -> shows value (frac cycles (time / 10 ^ 9) / number (10 ^ 6))) /\
    (time / 10 ^ 9 = 0 -> cycles = 0 -> value = [48]) /\
    (time / 10 ^ 9 = 0 -> cycles <> 0 -> value = [105; 110; 102]).
(** The line shows [n] proofs, these cycles, this time, and the throughput. *)
Definition line_shows (line : metrics_line) (n cycles time : N) : Prop :=
  is_decimal n (ml_fulfilled line) /\
  (exists value, ml_cycles line = value ++ [77] /\ shows value (frac cycles (10 ^ 6))) /\
  duration_text (ml_time line) time /\
  shows_throughput (ml_throughput line) cycles time.

(** ** Disks *)

(** The sizes of the disks are known, and fit into 64 bits. *)
Definition disks_ok (disks : list disk) : Prop :=
  sum_all (map dk_available disks) < 2 ^ 64 /\ 0 < sum_all (map dk_total disks) /\ sum_all (map dk_total disks) < 2 ^ 64.
(** The free and the used space of all disks, in percent. *)
Definition free_percent (disks : list disk) : Q :=
  (100 * frac (sum_all (map dk_available disks)) (sum_all (map dk_total disks)))%Q.
Definition used_percent (disks : list disk) : Q := (100 - free_percent disks)%Q.
