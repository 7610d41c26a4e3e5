(** Properties of the running node: the rounds, the registry of unexecutable requests, the end. *)
From Verif Require Import Proofs_NodeSystem ToyNodeSystem.
Open Scope N_scope.

(** ** C73: the tasks of the node *)

(** The bidder and the prover work round by round: each has done the same number of complete rounds, none of
    which panicked, and is somewhere in the next. *)
Theorem C73_rounds fuel n ls s :
  forall (Hrun : sys_run fuel n ls s),
  exists done b p,
    bid_events ls = concat (map fst done) ++ b /\ prove_events ls = concat (map snd done) ++ p /\
    length done = rounds_ended ls /\ Forall (complete_round fuel n) done /\
    reaches (bid fuel n) b (sy_bid s) /\ reaches (prove fuel n) p (sy_prove s).
Proof. exact (C73_rounds_proof fuel n ls s). Qed.
Print Assumptions C73_rounds.

(** The background task works turn by turn, and goes on as long as the node runs. *)
Theorem C73_background fuel n ls s :
  forall (Hrun : sys_run fuel n ls s),
  exists turns rest more, check_events ls = concat turns ++ rest /\ Forall (check_round n) turns /\
    more <> [] /\ check_round n (rest ++ more) /\
    (sy_returned s = None -> exists e s', sys_step fuel n s (LCheck e) s').
Proof. exact (C73_background_proof fuel n ls s). Qed.
Print Assumptions C73_background.

(** The prover is told that a request cannot be executed only if the network said so; and it is told so once
    the network said so and the background task has taken its next step. *)
Theorem C73_registry_answers fuel n ls1 id known ls2 s :
  forall (Hrun : sys_run fuel n (ls1 ++ LProve (Op (EUnexecutable id known)) :: ls2) s),
  (known = true -> reported ls1 id) /\
  (forall before owner qs middle e after, ls1 = before ++ said_unexecutable owner qs :: middle ++ LCheck e :: after ->
     In id (map pr_id qs) -> known = true).
Proof. exact (C73_registry_answers_proof fuel n ls1 id known ls2 s). Qed.
Print Assumptions C73_registry_answers.

(** A request that the network called unexecutable is not fulfilled in any later round. *)
Theorem C73_never_proved fuel n before owner qs middle1 e middle2 after x s id :
  forall (Hrun : sys_run fuel n (before ++ said_unexecutable owner qs :: middle1 ++ LCheck e :: middle2 ++ LRound :: after) s)
    (Hid : In id (map pr_id qs)) (Hx : In (LProve (Op x)) after),
  ~ fulfils id x.
Proof. exact (C73_never_proved_proof fuel n before owner qs middle1 e middle2 after x s id). Qed.
Print Assumptions C73_never_proved.

(** A proof is aborted only if the network said that the request under proof cannot be executed. *)
Theorem C73_aborted fuel n ls1 e ls2 s :
  forall (Hrun : sys_run fuel n (ls1 ++ LProve e :: ls2) s) (Ha : aborts e),
  exists id, working_on (prove_events ls1) id /\ reported ls1 id.
Proof. exact (C73_aborted_proof fuel n ls1 e ls2 s). Qed.
Print Assumptions C73_aborted.

(** The background task learns about a request; a round without success; the request is assigned and reported as
    failed. *)
Example C73_known_case : exists s, sys_run 12 toy_node toy_known s /\ sy_returned s = None.
Proof. exact toy_known_runs. Qed.
Example C73_known_case_shape : exists before middle2 after x,
  toy_known = before ++ said_unexecutable toy_owner [toy_request] :: [] ++ LCheck (KInsert [[9; 9]] tt) :: middle2 ++ LRound :: after /\
  In [9; 9] (map pr_id [toy_request]) /\ In (LProve (Op x)) after /\ fails [9; 9] x.
Proof.
  exists [LCheck (KOwner (address_bytes toy_node) (Ok toy_owner))],
    [LProve (Op (EOwner (address_bytes toy_node) (Err toy_gone))); LBid (Op (EOwner (address_bytes toy_node) (Err toy_down)))],
    (toy_assigned ++ [LProve (Op (EUnexecutable [9; 9] true))] ++ toy_gives_up), (EFail (fail_message toy_node 4 [9; 9]) (Ok tt)).
  split; [reflexivity|]. split; [now left|]. split; [cbn; auto 12|].
  exists (fail_message toy_node 4 [9; 9]), (Ok tt), (FailBody 4 [9; 9] None). auto.
Qed.
(** The request is assigned; while it is being proved the background task learns about it; the proof is
    aborted. *)
Example C73_aborted_case : exists s, sys_run 12 toy_node toy_aborted s /\ sy_returned s = None.
Proof. exact toy_aborted_runs. Qed.
Example C73_aborted_case_shape : exists ls1 ls2,
  toy_aborted = ls1 ++ LProve (Op (ESetup toy_program TAbort)) :: ls2 /\ aborts (Op (ESetup toy_program TAbort)).
Proof. do 2 eexists. split; [reflexivity|]. left. eauto. Qed.

(** ** C74: the end of the node *)

(** The node returns only if its monitor fails or panics, or if a request without a mode was assigned to it;
    and it returns without an error exactly if its monitor fails. *)
Theorem C74_returned fuel n ls s ok :
  forall (Hrun : sys_run fuel n ls s) (Hret : sy_returned s = Some ok),
  exists before l, ls = before ++ [l] /\
    ((ok = true /\ exists e, l = LMonitor (TErr e)) \/
     (ok = false /\ l = LMonitor TPanic) \/
     (ok = false /\ l = LPanic /\ exists earlier last f qs q,
        prove_events before = earlier ++ last /\ runs (prove fuel n) last RPanic /\
        In (EList f (Ok qs)) (ops last) /\ In q qs /\ pr_mode q = 0%Z)).
Proof. exact (C74_returned_proof fuel n ls s ok). Qed.
Print Assumptions C74_returned.

(** After that nothing happens any more. *)
Theorem C74_last fuel n before l after s :
  forall (Hrun : sys_run fuel n (before ++ l :: after) s)
    (Hl : l = LPanic \/ exists r, l = LMonitor r /\ r <> TOk tt),
  after = [].
Proof. exact (C74_last_proof fuel n before l after s). Qed.
Print Assumptions C74_last.

(** Until then the bidder or the prover can go on, or a new round starts, whatever the answers so far, or the
    node panics. *)
Theorem C74_goes_on fuel n ls s :
  forall (Hrun : sys_run fuel n ls s) (Hret : sy_returned s = None) (Hfuel : (12 <= fuel)%nat)
    (Hclock : well_timed 0 (bid_events ls)) (Hclock' : well_timed 0 (prove_events ls)),
  exists l s', sys_step fuel n s l s' /\
    ((exists e, l = LBid e) \/ (exists e, l = LProve e) \/ l = LRound \/ l = LPanic).
Proof. exact (C74_goes_on_proof fuel n ls s). Qed.
Print Assumptions C74_goes_on.

(** It does not hold that the node returns an error whenever its monitor fails. *)
Theorem C74_failure_reported_refuted : exists n ls e s,
  sys_run 12 n (ls ++ [LMonitor (TErr e)]) s /\ sy_returned s = Some true.
Proof.
  destruct toy_unmonitored_runs as (s & H1 & H2). exists toy_node, (toy_learns ++ toy_idle), toy_gone, s. split; [exact H1|exact H2].
Qed.
Print Assumptions C74_failure_reported_refuted.

Example C74_stops_case : exists s, sys_run 12 toy_node toy_stops s /\ sy_returned s = Some false.
Proof. exact toy_stops_runs. Qed.
Example C74_goes_on_case : exists s, sys_run 12 toy_node toy_known s /\ sy_returned s = None /\
  well_timed 0 (bid_events toy_known) /\ well_timed 0 (prove_events toy_known).
Proof.
  destruct toy_known_runs as (s & H1 & H2). exists s. split; [exact H1|]. split; [exact H2|]. cbn. lia.
Qed.
