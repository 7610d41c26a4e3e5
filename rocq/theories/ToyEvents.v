(** The events of sample logs of the settlement contract; used only in examples. *)
From Verif Require Export ToyL1 EventsLedger EventsSpec.
Open Scope N_scope.

Fixpoint run_events (L : l1_env) (log : list l1_entry) (v : l1_state) : list l1_event :=
  match log with
  | [] => []
  | LAccepted x c _ :: rest =>
      l1_events L x c v ++ match l1_run L x c v with Ok v1 => run_events L rest v1 | Err _ => [] end
  | LReverted x c e :: rest => run_events L rest v
  | LToken o :: rest =>
      match run_token_op (va_prove v) o with Ok t => run_events L rest (va_set_prove t v) | Err _ => [] end
  end.

Lemma history_events L v log v' : l1_history L v log v' -> l1_observed L v log (run_events L log v) v'.
Proof.
  induction 1 as [v|v x c i v1 log v' Ht H IH|v x c e v1 log v' Ht H IH|v o t log v' Ht H IH]; cbn [run_events].
  - constructor.
  - rewrite (transact_ok _ _ _ _ _ Ht). econstructor; eassumption.
  - pose proof (transact_err _ _ _ _ _ _ Ht) as [_ ->]. econstructor; eassumption.
  - rewrite Ht. econstructor; eassumption.
Qed.

(** The first events of the sample contract. *)
Definition toy_first : list l1_event :=
  initialize_events 1 auctioneer1 toy_staking 3 10 4 (full_root toy_env world0).
Definition toy_events : list l1_event := run_events toy_l1 toy_log toy_v0.

(** Then its owner acts. *)
Definition owner_log : list l1_entry :=
  [ LAccepted (toy_ctx 1 1020) (CAdmin APause) [];
    LAccepted (toy_ctx 1 1021) (CFork 44 55) [];
    LAccepted (toy_ctx 1 1022) (CAdmin (AUpdateMinDeposit 20)) [];
    LAccepted (toy_ctx 1 1023) (CAdmin AUnpause) [];
    LAccepted (toy_ctx 1 1024) (CAdmin (ATransferOwnership 9)) [] ].
Definition toy_v3 : l1_state := default toy_v1 (run_log toy_l1 owner_log toy_v1).
Lemma owner_history : l1_history toy_l1 toy_v1 owner_log toy_v3.
Proof. apply run_log_default. vm_compute. reflexivity. Qed.

Lemma history_app L v1 log1 v2 log2 v3 : l1_history L v1 log1 v2 -> l1_history L v2 log2 v3 -> l1_history L v1 (log1 ++ log2) v3.
Proof. induction 1; intros H2; [exact H2|econstructor; eauto..]. Qed.

Lemma deployed_observed log v : l1_history toy_l1 toy_v0 log v -> observed_run toy_l1 log (toy_first ++ run_events toy_l1 log toy_v0) v.
Proof.
  intros H. exists (Token ∅ ∅), 1, 2, auctioneer1, toy_staking, 3, 10, 4, (full_root toy_env world0), toy_v0, (run_events toy_l1 log toy_v0).
  split; [exact (toy_deployed _ toy_root_nonzero)|]. split; [reflexivity|]. now apply history_events.
Qed.

Definition all_log : list l1_entry := toy_log ++ owner_log.
Definition all_events : list l1_event := toy_first ++ run_events toy_l1 all_log toy_v0.
Lemma all_observed : observed_run toy_l1 all_log all_events toy_v3.
Proof. apply deployed_observed. exact (history_app _ _ _ _ _ _ toy_history owner_history). Qed.
Lemma all_typed : Forall typed_entry all_log.
Proof.
  apply Forall_app. split; [exact toy_typed|]. apply (forallb_ok typed_entryb); [exact typed_entryb_ok|vm_compute; reflexivity].
Qed.

Lemma toy_observed : l1_observed toy_l1 toy_v0 toy_log toy_events toy_v1.
Proof. exact (history_events _ _ _ _ toy_history). Qed.
