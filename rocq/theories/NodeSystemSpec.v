(** Vocabulary for the properties of the running node. *)
From Verif Require Export NodeSystem NodeSpec.
Open Scope N_scope.

(** [sys_run fuel n ls s]: the node has taken the steps [ls] from its start and is in state [s]. *)
Inductive sys_run (fuel : nat) (n : node) : list sys_label -> system -> Prop :=
| run_start : sys_run fuel n [] (sys_start fuel n)
| run_step ls s l s' : sys_run fuel n ls s -> sys_step fuel n s l s' -> sys_run fuel n (ls ++ [l]) s'.

(** The events of the bidder and of the prover. *)
Definition bid_events (ls : list sys_label) : list (timed node_event) :=
  flat_map (fun l => match l with LBid e => [e] | _ => [] end) ls.
Definition prove_events (ls : list sys_label) : list (timed node_event) :=
  flat_map (fun l => match l with LProve e => [e] | _ => [] end) ls.
(** The events of the background task. *)
Definition check_events (ls : list sys_label) : list check_event :=
  flat_map (fun l => match l with LCheck e => [e] | _ => [] end) ls.
(** The number of rounds that came to their end. *)
Definition rounds_ended (ls : list sys_label) : nat :=
  length (flat_map (fun l => match l with LRound => [tt] | _ => [] end) ls).

(** A complete round: what the two halves did, and how they ended. *)
Definition complete_round (fuel : nat) (n : node) (t : list (timed node_event) * list (timed node_event)) : Prop :=
  exists rb rp, runs (bid fuel n) (fst t) rb /\ runs (prove fuel n) (snd t) rp /\ rb <> RPanic /\ rp <> RPanic.
(** The events are the beginning of what the program can do, [rest] what is left. *)
Fixpoint reaches {Ev X} (p : flow Ev X) (tr : list Ev) (rest : flow Ev X) {struct tr} : Prop :=
  match tr with
  | [] => p = rest
  | e :: tr => match p with
               | Ret _ => False
               | Do A mk k => exists a, e = mk a /\ reaches (k a) tr rest
               end
  end.

(** A turn of the background task: it asks who the owner is, asks for up to 100 requests assigned to the owner
    that cannot be executed, and notes down their ids; after an error it starts again. *)
Inductive check_round (n : node) : list check_event -> Prop :=
| no_owner e : check_round n [KOwner (address_bytes n) (Err e)]
| no_list owner e : check_round n [KOwner (address_bytes n) (Ok owner); KList (CheckFilter 2 3 owner 100) (Err e)]
| noted_down owner qs : check_round n
    [KOwner (address_bytes n) (Ok owner); KList (CheckFilter 2 3 owner 100) (Ok qs); KInsert (map pr_id qs) tt].

(** The network said that the requests [qs], assigned to [owner], cannot be executed. *)
Definition said_unexecutable (owner : bytes) (qs : list proof_request) : sys_label :=
  LCheck (KList (CheckFilter 2 3 owner 100) (Ok qs)).
(** The network said so about the request with this id. *)
Definition reported (ls : list sys_label) (id : bytes) : Prop :=
  exists owner qs, In (said_unexecutable owner qs) ls /\ In id (map pr_id qs).
(** The proof that was under way was aborted. *)
Definition aborts (e : timed node_event) : Prop :=
  (exists program, e = Op (ESetup program TAbort)) \/ (exists key stdin, e = Op (EExecute key stdin TAbort)) \/
  (exists key stdin mode, e = Op (EProve key stdin mode TAbort)).
(** The prover's last question to the registry was about this request. *)
Definition working_on (tr : list (timed node_event)) (id : bytes) : Prop :=
  exists before known after, tr = before ++ Op (EUnexecutable id known) :: after /\
    forall id' known', ~ In (Op (EUnexecutable id' known')) after.
