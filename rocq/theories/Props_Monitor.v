(** C78: what the node's monitor logs. *)
From Coq Require Import QArith.
From Verif Require Import Proofs_Monitor.
Open Scope N_scope.

(** Every proof the prover makes is counted once, with the cycles its execution told and the time its proof took,
    before anything else is executed: at most the last one is not yet counted.  The network has accepted no more
    fulfilments than there are counted proofs. *)
Theorem C78_counted fuel n ls s :
  forall (Hrun : sys_run fuel n ls s),
  (fulfilments_accepted (prove_events ls) <= length (proofs_counted (prove_events ls)))%nat /\
  (proofs_made (prove_events ls) = proofs_counted (prove_events ls) \/
   exists p, proofs_made (prove_events ls) = proofs_counted (prove_events ls) ++ [p]).
Proof. exact (C78_counted_proof fuel n ls s). Qed.
Print Assumptions C78_counted.

(** Whatever the prover does meanwhile, a line of the monitor shows the number of some of the first proofs, the
    cycles of no fewer, and the time of no fewer; the cycles are those of at most one proof more than the time. *)
Theorem C78_line ev tr line h :
  forall (Hrun : runs record_metrics tr line) (Hmix : interleaving [flat_map counter_updates ev; tr] h)
    (Hread : counter_history counters_start h) (Hfits : fit_64_bits (proofs_counted ev)),
  exists k1 k2 k3, (k1 <= k2)%nat /\ (k1 <= k3)%nat /\ (k2 <= k3 + 1)%nat /\
    (k2 <= length (proofs_counted ev))%nat /\ (k3 <= length (proofs_counted ev))%nat /\
    line_shows line (N.of_nat k1) (cycles_of k2 (proofs_counted ev)) (time_of k3 (proofs_counted ev)).
Proof. exact (C78_line_proof ev tr line h). Qed.
Print Assumptions C78_line.

(** If the counters do not change while the monitor reads, it shows exactly the proofs counted before. *)
Theorem C78_quiet earlier later tr line :
  forall (Hrun : runs record_metrics tr line)
    (Hread : counter_history counters_start (flat_map counter_updates earlier ++ tr ++ flat_map counter_updates later))
    (Hfits : fit_64_bits (proofs_counted earlier)),
  line_shows line (N.of_nat (length (proofs_counted earlier))) (sum_all (map fst (proofs_counted earlier)))
    (sum_all (map snd (proofs_counted earlier))).
Proof. exact (C78_quiet_proof earlier later tr line). Qed.
Print Assumptions C78_quiet.

(** The number logged as [disk_used_percent] is the free share of the disks. *)
Theorem C78_disks disks :
  forall (Hdisks : disks_ok disks),
  exists n d, disk_used_percent disks = FFin false n d /\ 0 < d /\ close (frac n d) (free_percent disks).
Proof. exact (C78_disks_proof disks). Qed.
Print Assumptions C78_disks.

(** So it is not the used share: 10 is logged where 90 percent are used. *)
Theorem C78_disk_used_refuted : exists disks n d,
  disks_ok disks /\ disk_used_percent disks = FFin false n d /\ (frac n d <= 10)%Q /\ (used_percent disks == 90)%Q.
Proof. exact C78_disk_used_refuted_proof. Qed.
Print Assumptions C78_disk_used_refuted.

(** It does not hold that the number logged as [fulfilled] is that of the fulfilments the network accepted. *)
Theorem C78_fulfilled_refuted : exists n ls s tr line,
  sys_run 12 n ls s /\ runs record_metrics tr line /\
  counter_history counters_start (flat_map counter_updates (prove_events ls) ++ tr) /\
  is_decimal 1 (ml_fulfilled line) /\ fulfilments_accepted (prove_events ls) = 0%nat.
Proof. exact C78_fulfilled_refuted_proof. Qed.
Print Assumptions C78_fulfilled_refuted.

(** A node whose fulfilment is refused. *)
Example C78_counted_case :
  (exists s, sys_run 12 toy_node toy_refused s) /\ proofs_made (prove_events toy_refused) = [(99, 30)] /\
  proofs_counted (prove_events toy_refused) = [(99, 30)].
Proof. exact C78_counted_case_proof. Qed.
(** The monitor reads while the second of two proofs is being counted. *)
Example C78_line_case :
  runs record_metrics toy_readings toy_line /\ interleaving [flat_map counter_updates toy_proofs; toy_readings] toy_history /\
  counter_history counters_start toy_history /\ fit_64_bits (proofs_counted toy_proofs).
Proof. exact C78_line_case_proof. Qed.
(** The monitor reads after two proofs and before two more. *)
Example C78_quiet_case :
  runs record_metrics [MReadFulfilled 2; MReadCycles 4000000; MReadTime 61500000007]
    (MetricsLine [50] (ml_cycles toy_line) (ml_time toy_line) (ml_throughput toy_line)) /\
  counter_history counters_start
    (flat_map counter_updates toy_proofs ++ [MReadFulfilled 2; MReadCycles 4000000; MReadTime 61500000007] ++
     flat_map counter_updates toy_proofs).
Proof. exact C78_quiet_case_proof. Qed.
Example C78_disks_case : disks_ok [Disk 600 50; Disk 400 50] /\ (free_percent [Disk 600 50; Disk 400 50] == 10)%Q.
Proof. exact C78_disks_case_proof. Qed.
