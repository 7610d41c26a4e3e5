(** Properties of the aggregation program.  The vocabulary is in [AggSpec.v].  The digest [sha] and the
    verification [verify] of step proofs are arbitrary. *)
From Verif Require Import Proofs_Agg.
Open Scope N_scope.

(** ** C25: aggregation composes state transitions faithfully *)

Theorem C25_commits_exactly sha verify pvs out :
  aggregate_main sha verify pvs = Some out <->
  exists steps first last,
    Forall (fun b => verify (sha b) = true) pvs /\
    Forall2 (fun b p => decode_step b = Some p) pvs steps /\
    chained steps /\
    head steps = Some first /\ list.last steps = Some last /\
    out = StepPv (pv_old_root first) (pv_new_root last) (pv_timestamp last)
            (concat (map pv_receipts steps)).
Proof. exact (aggregate_spec sha verify pvs out). Qed.
Print Assumptions C25_commits_exactly.

(** If verified steps were committed by the state-transition program, the aggregate describes the
    execution of all batches one after the other. *)
Theorem C25_aggregate_is_true E sha verify domain evs s pvs inputs out :
  forall (Henv : env_ok E) (Hreached : history E (full_new E domain) evs s) (Htyped : typed_full s)
    (Hinputs : Forall (usable_input E) inputs)
    (Hsound : Forall2 (fun b i => verify (sha b) = true -> stf_commit E i = Some b) pvs inputs)
    (Hout : aggregate_main sha verify pvs = Some out)
    (Hroot : pv_old_root out = full_root E s)
    (Hhash : collision_free (keccak E) (chain_strings E inputs s)),
  exists s' rs, run_batch E s (all_txs inputs) = (s', rs) /\ calm rs /\
    pv_new_root out = full_root E s' /\
    Some (pv_timestamp out) = si_timestamp <$> list.last inputs /\
    pv_receipts out = map sol_of_receipt (batch_receipts rs).
Proof. exact (C25_aggregate_is_true_proof E sha verify domain evs s pvs inputs out). Qed.
Print Assumptions C25_aggregate_is_true.

(** Two batches after a first one. *)
Example C25_example :
  history toy_env world0 (run_txs toy_env batch_a world0).1 world_a1 /\ typed_full world_a1 /\
  collision_free (keccak toy_env) (chain_strings toy_env [input_b; input_c] world_a1) /\
  exists pvs, checked_commits toy_env [input_b; input_c] = Some pvs /\
    Forall (usable_input toy_env) [input_b; input_c] /\
    Forall2 (fun b i => true = true -> stf_commit toy_env i = Some b) pvs [input_b; input_c] /\
    (fun out => (pv_old_root out =? full_root toy_env world_a1, length (pv_receipts out))) <$>
      aggregate_main toy_hash (fun _ => true) pvs = Some (true, 2%nat) /\
    aggregate_main toy_hash (fun _ => true) (rev pvs) = None.
Proof. exact C25_example_proof. Qed.
