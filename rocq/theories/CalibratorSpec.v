(** Vocabulary for the properties of the calibrator and of the node's options. *)
From Coq Require Import QArith Qabs.
From Verif Require Export Calibrator NodeSpec PricingSpec.
Open Scope Q_scope.

(** A whole number, and the number [n / d]. *)
Definition number (n : N) : Q := inject_Z (Z.of_N n).
Definition frac (n d : N) : Q := number n / number d.

(** The two numbers are equal up to the [2^47]th part, about fourteen digits. *)
Definition close (x y : Q) : Prop := Qabs (x - y) <= y / number (2 ^ 47).

(** A fraction from [10^-12] to [10^12]. *)
Definition ordinary (a b : N) : Prop := (0 < b)%N /\ (b <= a * 10 ^ 12)%N /\ (a <= 10 ^ 12 * b)%N.

(** What a prover earns in an hour at a price per unit of gas, when it did [gas] units in [nanos] nanoseconds and
    works for the part [rate] of the time. *)
Definition units_per_second (gas nanos : N) : Q := number gas / frac nanos (10 ^ 9).
Definition hourly_income (price rate : Q) (gas nanos : N) : Q :=
  price * (units_per_second gas nanos * (3600 * rate)).

(** The calibration: the program is set up, executed for its [gas], and proved once in [nanos] nanoseconds. *)
Definition calibration (elf stdin : bytes) (gas nanos : N) (tr : list cal_event) : Prop :=
  exists key start, tr = [CSetup elf (Ok key); CExecute elf stdin (Ok (Some gas)); CClock start;
                          CProve key stdin (Ok tt); CClock (start + nanos)%N].
(** A possible measurement: 64-bit numbers of gas and of seconds. *)
Definition measured (gas nanos : N) : Prop :=
  (0 < gas)%N /\ (gas < 2 ^ 64)%N /\ (0 < nanos)%N /\ (nanos < 2 ^ 64 * 10 ^ 9)%N.
