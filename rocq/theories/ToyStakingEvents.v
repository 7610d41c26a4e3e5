(** The events of a concrete history of the staking contract, for the examples beside the properties. *)
From Verif Require Export Proofs_StakingEvents ToyStaking.
Open Scope N_scope.

Fixpoint stk_exec_logs (K : staking_env) (l : list stk_step) (s : staking) : list staking_log :=
  match l with
  | [] => []
  | SCall x c :: rest =>
      match staking_run K x c s with
      | Ok (s1, evs) => staking_logs K x c s s1 evs ++ stk_exec_logs K rest s1
      | Err e => stk_exec_logs K rest s
      end
  | SToken o :: rest =>
      match run_token_op (bk_prove (sk_bank s)) o with
      | Ok t => stk_exec_logs K rest (sk_set_bank (bk_set_prove t (sk_bank s)) s)
      | Err _ => stk_exec_logs K rest s
      end
  end.

Lemma stk_exec_logs_ok K l : forall s log s', stk_exec K l s = (log, s') -> stk_observed K s log (stk_exec_logs K l s) s'.
Proof.
  induction l as [|[x c|o] rest IH]; cbn [stk_exec stk_exec_logs]; intros s log s' H.
  - apply pair_equal_spec in H as [<- <-]. constructor.
  - destruct (staking_run K x c s) as [[s1 evs]|e] eqn:Hr.
    + destruct (stk_exec K rest s1) as [log1 s2] eqn:He. apply pair_equal_spec in H as [<- <-].
      exact (ko_accepted K s x c s1 evs log1 _ s2 Hr (IH _ _ _ He)).
    + destruct (stk_exec K rest s) as [log1 s2] eqn:He. apply pair_equal_spec in H as [<- <-].
      exact (ko_reverted K s x c e log1 _ s2 Hr (IH _ _ _ He)).
  - destruct (run_token_op (bk_prove (sk_bank s)) o) as [t|e] eqn:Ht.
    + destruct (stk_exec K rest (sk_set_bank (bk_set_prove t (sk_bank s)) s)) as [log1 s2] eqn:He.
      apply pair_equal_spec in H as [<- <-]. exact (ko_token K s o t log1 _ s2 Ht (IH _ _ _ He)).
    + exact (IH _ _ _ H).
Qed.

(** Alice leaves, the settings change, a second prover is made, the first loses everything. *)
Definition toy_steps5 : list stk_step :=
  [ SCall (at_ sk_alice 180) (KRequestUnstake 600);
    SCall (at_ sk_carol 300) (KFinishUnstake sk_alice);
    SCall (at_ sk_keeper 310) (KSetDispenser sk_bob);
    SCall (at_ sk_keeper 311) (KTransferOwnership 6);
    SCall (at_ sk_bob 312) (KCreateProver 100);
    SCall (at_ 12 313) (KRequestSlash toy_prover 9000);
    SCall (at_ 6 314) (KFinishSlash toy_prover 2);
    SCall (at_ 6 315) KRenounceOwnership ].
Definition toy_told_steps : list stk_step := toy_steps1 ++ toy_steps2 ++ toy_steps3 ++ toy_steps4 ++ toy_steps5.
Definition toy_told_run := stk_exec toy_sk toy_told_steps toy_sk0.
Definition toy_told_logs : list staking_log := staking_initialize_logs sk_keeper ++ stk_exec_logs toy_sk toy_told_steps toy_sk0.
Definition toy_before_logs : list staking_log :=
  staking_initialize_logs sk_keeper ++ stk_exec_logs toy_sk (toy_steps1 ++ toy_steps2 ++ toy_steps34) toy_sk0.

Lemma toy_told_of l log s :
  stk_exec toy_sk l toy_sk0 = (log, s) -> forallb (by_outsiderb toy_sk) log = true ->
  stk_told toy_sk sk_giver log (staking_initialize_logs sk_keeper ++ stk_exec_logs toy_sk l toy_sk0) s.
Proof.
  intros He Ho. constructor.
  - exact toy_sk_addresses.
  - exists toy_prove, sk_keeper, 20, 21, toy_sk0, (stk_exec_logs toy_sk l toy_sk0). split; [|split; [|split]].
    + intros a. unfold tk_allowance, toy_prove. cbn [tk_allowances toy_sk ke_self ke_iprove].
      split; (destruct (_ !! _) as [n|] eqn:E; [|reflexivity]); apply elem_of_list_to_map_2 in E;
        repeat (apply elem_of_cons in E as [E|E]; [discriminate E|]); now apply elem_of_nil in E.
    + exact toy_sk_start.
    + reflexivity.
    + exact (stk_exec_logs_ok _ _ _ _ _ He).
  - exact (by_outsiderb_ok _ _ Ho).
Qed.

Lemma toy_is_told : stk_told toy_sk sk_giver toy_told_run.1 toy_told_logs toy_told_run.2.
Proof. apply (toy_told_of toy_told_steps); [apply surjective_pairing|vm_compute; reflexivity]. Qed.
Lemma toy_is_told34 : stk_told toy_sk sk_giver toy_run34.1 toy_before_logs toy_run34.2.
Proof. apply (toy_told_of (toy_steps1 ++ toy_steps2 ++ toy_steps34)); [apply surjective_pairing|vm_compute; reflexivity]. Qed.


Lemma C93_example_proof :
  stk_told toy_sk sk_giver toy_told_run.1 toy_told_logs toy_told_run.2 /\
  omap owner_step toy_told_logs = [(0, sk_keeper); (sk_keeper, 6); (6, 0)] /\
  omap dispenser_step toy_told_logs = [(sk_giver, sk_bob)] /\ omap rate_step toy_told_logs = [(0, 7)] /\
  omap deployed toy_told_logs = [(toy_prover, sk_carol, 500); (1002, sk_bob, 100)] /\
  omap deactivation toy_told_logs = [toy_prover] /\
  omap (binding_step sk_alice) toy_told_logs = [(0, toy_prover); (toy_prover, 0)] /\
  omap (claim_made sk_alice) toy_told_logs = [439; 540] /\ omap (claim_done sk_alice) toy_told_logs = [370; 556] /\
  omap (slash_asked toy_prover) toy_told_logs = [(0, 300); (1, 40); (2, 9000)] /\
  omap (slash_ended toy_prover) toy_told_logs = [0; 1; 2] /\
  stake_of (sk_bank toy_told_run.2) sk_bob = 400 /\ length (claims_of toy_told_run.2 sk_bob) = 1%nat.
Proof. split; [exact toy_is_told|]. repeat split; vm_compute; reflexivity. Qed.

Lemma C93_held_example_proof :
  stk_told toy_sk sk_giver toy_run34.1 toy_before_logs toy_run34.2 /\ toy_prover <> ke_self toy_sk /\
  (tk_balance (bk_iprove (sk_bank toy_run34.2)) toy_prover, ep_escrow (pool_of toy_run34.2 toy_prover),
   list_total (taken_out toy_prover) toy_before_logs, list_total (put_in toy_prover) toy_before_logs) = (900, 450, 300, 1650).
Proof. split; [exact toy_is_told34|]. split; [discriminate|]. vm_compute. reflexivity. Qed.

Lemma C93_call_example_proof :
  exists s', let call := KFinishUnstake sk_alice in let evs := [EvUnstake sk_alice toy_prover 370 359] in
  stk_told toy_sk sk_giver toy_run34.1 toy_before_logs toy_run34.2 /\
  staking_run toy_sk (at_ sk_carol 170) call toy_run34.2 = Ok (s', evs) /\
  by_outsider toy_sk (KAccepted (at_ sk_carol 170) call evs s') /\
  staking_returns toy_sk (at_ sk_carol 170) call toy_run34.2 = Some 370 /\
  staking_returns toy_sk (at_ 12 170) (KRequestSlash toy_prover 5) toy_run34.2 = Some 2.
Proof.
  destruct (run_events_ok toy_sk (at_ sk_carol 170) (KFinishUnstake sk_alice) toy_run34.2 [EvUnstake sk_alice toy_prover 370 359])
    as [s' Hs']; [vm_compute; reflexivity|].
  exists s'. cbv zeta. split; [exact toy_is_told34|]. split; [exact Hs'|]. split; [|split; vm_compute; reflexivity].
  split; [|exact I]. split; discriminate.
Qed.
