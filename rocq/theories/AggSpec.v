(** Vocabulary for the theorems about the aggregation program. *)
From Verif Require Export TypedSpec Aggregation.
Open Scope N_scope.

(** Each step starts at the root where the previous one ended, not earlier in time. *)
Definition chained (steps : list step_pv) : Prop :=
  forall i a b, steps !! i = Some a -> steps !! S i = Some b ->
    pv_new_root a = pv_old_root b /\ pv_timestamp a <= pv_timestamp b.

(** An input of the state-transition program as the Rust types enforce it, whose output is no longer
    than any memory. *)
Definition usable_input (E : env) (i : stf_input) : Prop :=
  typed_input i /\ is_u64 (si_timestamp i) /\ Forall typed_tx (si_txs i) /\
  (forall b, stf_commit E i = Some b -> N.of_nat (length b) < 2 ^ 256).

(** All strings hashed when the inputs are checked one after the other against the full ledger. *)
Fixpoint chain_strings (E : env) (inputs : list stf_input) (s : full_state) : list bytes :=
  match inputs with
  | [] => []
  | i :: rest => stf_strings E i s ++ chain_strings E rest (run_batch E s (si_txs i)).1
  end.

(** The transactions of all inputs, in order. *)
Definition all_txs (inputs : list stf_input) : list tx := concat (map si_txs inputs).
