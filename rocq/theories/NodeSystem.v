(** The running node, crates/node/core/src/lib.rs 118-169: the loop of bidding and proving, the monitor, and
    the background task that keeps the registry of unexecutable requests (crates/node/core/src/serial.rs
    284-359), taking steps in any order.

    Simplified: pauses and the waiting for locks are left out, as steps may come in any order.  The background
    task, which the first round starts (290-299), is there from the start.  What the monitor measures is left
    out. *)
From stdpp Require Export gmap.
From Verif Require Export Node.
Open Scope N_scope.
Open Scope flow_scope.

(** [ExecutionStatus::Unexecutable], crates/types/network/src/types.rs 2335-2345. *)
Definition execution_unexecutable : Z := 3%Z.
(** The fields used of [GetFilteredProofRequestsRequest], crates/node/core/src/serial.rs 323-330; the version is
    left out. *)
Record check_filter : Type := CheckFilter {
  cf_fulfillment_status : Z;
  cf_execution_status : Z;
  cf_fulfiller : bytes;
  cf_limit : N
}.
(** The steps of the background task, crates/node/core/src/serial.rs 309-357. *)
Inductive check_event : Type :=
| KOwner (signer : bytes) (r : result bytes rpc_error)
| KList (f : check_filter) (r : result (list proof_request) rpc_error)
| KInsert (ids : list bytes) (done : unit).
(** One turn of the background task, crates/node/core/src/serial.rs 309-357.  After an error it starts again. *)
Definition check_turn (n : node) : flow check_event unit :=
  ask! owner := ask (KOwner (be_bytes 20 (nd_address n))) in
  match owner with
  | Err _ => Ret tt
  | Ok owner =>
      ask! response := ask (KList (CheckFilter status_assigned execution_unexecutable owner 100)) in
      match response with
      | Err _ => Ret tt
      | Ok requests => ask (KInsert (map pr_id requests))
      end
  end.

(** The state of the node: the two halves of the current round (crates/node/core/src/lib.rs 127-129), the turn
    of the background task, the registry [unexecutable_requests] (crates/node/core/src/serial.rs 263), the
    request under proof, and how [run] returned, [true] for [Ok] (crates/node/core/src/lib.rs 153-168). *)
Record system : Type := System {
  sy_bid : flow (timed node_event) round;
  sy_prove : flow (timed node_event) round;
  sy_check : flow check_event unit;
  sy_registry : gset bytes;
  sy_request : option bytes;
  sy_returned : option bool
}.
(** The start of [run], crates/node/core/src/lib.rs 118-129. *)
Definition sys_start (fuel : nat) (n : node) : system :=
  System (bid fuel n) (prove fuel n) (check_turn n) ∅ None None.

(** The steps that can be seen, crates/node/core/src/lib.rs 118-169: an event of a task; the next round; the
    end of [record]; the panic of a round. *)
Inductive sys_label : Type :=
| LBid (e : timed node_event)
| LProve (e : timed node_event)
| LCheck (e : check_event)
| LRound
| LMonitor (r : task_answer unit)
| LPanic.

(** The request whose turn it is, crates/node/core/src/serial.rs 549-551. *)
Definition request_after (e : timed node_event) (cur : option bytes) : option bytes :=
  match e with Op (EUnexecutable id _) => Some id | _ => cur end.
(** The answers that the registry gives: what it contains (crates/node/core/src/serial.rs 550-551), and an
    aborted proof only for a request that it contains (650-680). *)
Definition answer_fits (registry : gset bytes) (cur : option bytes) (e : timed node_event) : Prop :=
  match e with
  | Op (EUnexecutable id known) => known = bool_decide (id ∈ registry)
  | Op (ESetup _ TAbort) | Op (EExecute _ _ TAbort) | Op (EProve _ _ _ TAbort) =>
      exists id, cur = Some id /\ id ∈ registry
  | _ => True
  end.
(** Insertion into the registry, crates/node/core/src/serial.rs 344-353. *)
Definition registry_after (e : check_event) (registry : gset bytes) : gset bytes :=
  match e with KInsert ids _ => list_to_set ids ∪ registry | _ => registry end.
(** A round that ended without a panic: its result is ignored, crates/node/core/src/lib.rs 129. *)
Definition ended (r : round) : Prop := match r with RDone | RError _ => True | _ => False end.

(** One step of the node, crates/node/core/src/lib.rs 118-169. *)
Inductive sys_step (fuel : nat) (n : node) : system -> sys_label -> system -> Prop :=
(** The bidder goes on, crates/node/core/src/lib.rs 127-129. *)
| step_bid A mk k a prove check registry request :
    sys_step fuel n (System (Do A mk k) prove check registry request None) (LBid (mk a))
      (System (k a) prove check registry request None)
(** The prover goes on, crates/node/core/src/lib.rs 127-129. *)
| step_prove A mk k a bid check registry request :
    answer_fits registry request (mk a) ->
    sys_step fuel n (System bid (Do A mk k) check registry request None) (LProve (mk a))
      (System bid (k a) check registry (request_after (mk a) request) None)
(** The background task goes on, crates/node/core/src/serial.rs 309-357. *)
| step_check A mk k a bid prove registry request :
    sys_step fuel n (System bid prove (Do A mk k) registry request None) (LCheck (mk a))
      (System bid prove (match k a with Ret _ => check_turn n | next => next end) (registry_after (mk a) registry)
         request None)
(** Both halves ended, and a new round starts, crates/node/core/src/lib.rs 126-132. *)
| step_round rb rp check registry request :
    ended rb -> ended rp ->
    sys_step fuel n (System (Ret rb) (Ret rp) check registry request None) LRound
      (System (bid fuel n) (prove fuel n) check registry request None)
(** The monitor recorded something, crates/node/core/src/lib.rs 143-146. *)
| step_monitor s :
    sy_returned s = None -> sys_step fuel n s (LMonitor (TOk tt)) s
(** The monitor failed: its task returns the error, and [run] returns [Ok], crates/node/core/src/lib.rs 144,
    160-165: the error inside the result of the task is not looked at. *)
| step_monitor_error e bid prove check registry request :
    sys_step fuel n (System bid prove check registry request None) (LMonitor (TErr e))
      (System bid prove check registry request (Some true))
(** The monitor panicked, crates/node/core/src/lib.rs 160-165. *)
| step_monitor_panic bid prove check registry request :
    sys_step fuel n (System bid prove check registry request None) (LMonitor TPanic)
      (System bid prove check registry request (Some false))
(** Bidding or proving panicked, crates/node/core/src/lib.rs 155-159. *)
| step_panic bid prove check registry request :
    bid = Ret RPanic \/ prove = Ret RPanic ->
    sys_step fuel n (System bid prove check registry request None) LPanic
      (System bid prove check registry request (Some false)).
