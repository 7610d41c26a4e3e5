(** The reference prover node, crates/node/core/src/serial.rs: one round of the bidder and one of the prover.

    Every answer from outside (RPC server, clock, storage, proving task, the registry of unexecutable requests,
    which another task fills) is arbitrary.  Logging and the system monitor are left out.  Of a proof request
    only the fields that are used are kept.  [hex::encode] followed by [hex::decode] (163, 186, 232) is the
    identity. *)
From Verif Require Export Retry Pricing Prost Artifacts.
Open Scope N_scope.
Open Scope flow_scope.

(** ** Data *)

(** The fields used of [ProofRequest], crates/types/network/src/types.rs 348-468. *)
Record proof_request : Type := ProofRequest {
  pr_id : bytes;
  pr_mode : Z;
  pr_program_uri : list N;
  pr_stdin_uri : list N;
  pr_deadline : N;
  pr_gas_limit : N
}.

(** The fields used of [GetFilteredProofRequestsRequest], crates/node/core/src/serial.rs 111-118, 135-142,
    528-535; the version, the same in all, is left out. *)
Record request_filter : Type := RequestFilter {
  rf_fulfillment_status : Z;
  rf_minimum_deadline : N;
  rf_fulfiller : option bytes;
  rf_not_bid_by : option bytes;
  rf_limit : N
}.

(** [FulfillmentStatus::Requested], [Assigned], crates/types/network/src/types.rs 2294-2304. *)
Definition status_requested : Z := 1%Z.
(** [FulfillmentStatus::Assigned], crates/types/network/src/types.rs 2294-2304. *)
Definition status_assigned : Z := 2%Z.

(** [FailFulfillmentRequestBody], crates/types/network/src/types.rs 322-332. *)
Record fail_body : Type := FailBody { ff_nonce : N; ff_request_id : bytes; ff_error : option Z }.
(** [FailFulfillmentRequestBody::encode], crates/types/network/src/types.rs 322-332. *)
Definition encode_fail (b : fail_body) : bytes :=
  encode_fields (f_u64 1 (ff_nonce b) ++ f_bytes 2 (ff_request_id b) ++ f_opt_enum 3 (ff_error b)).

(** The answer to a step of the proving task: a value, an error, or the task panics or is aborted there
    (crates/node/core/src/serial.rs 624-643, 685-799). *)
Inductive task_answer (A : Type) : Type := TOk (a : A) | TErr (e : rpc_error) | TPanic | TAbort.
Arguments TOk {A} a.
Arguments TErr {A} e.
Arguments TPanic {A}.
Arguments TAbort {A}.

(** Requests to the outside and their answers, crates/node/core/src/serial.rs 99-253, 363-398, 513-803. *)
Inductive node_event : Type :=
| EOwner (signer : bytes) (r : result bytes rpc_error)
| ENow (t : N)
| EList (f : request_filter) (r : result (list proof_request) rpc_error)
| ENonce (address : bytes) (r : result N rpc_error)
| EDetails (id : bytes) (r : result (option proof_request) rpc_error)
| EBid (m : signed bid_body) (r : result unit rpc_error)
| EFulfill (m : signed fulfill_body) (r : result unit rpc_error)
| EFail (m : signed fail_body) (r : result unit rpc_error)
| EUnexecutable (id : bytes) (known : bool)
| EProgram (uri : list N) (r : result bytes rpc_error)
| EStdin (uri : list N) (r : result bytes rpc_error)
| ESetup (program : bytes) (r : task_answer bytes)
| EExecute (key stdin : bytes) (r : task_answer N)
| EProve (key stdin : bytes) (mode : proof_mode) (r : task_answer (option bytes * N))
| EMetrics (cycles time : N) (done : unit).

(** [SerialBidder] and [SerialContext], crates/node/core/src/serial.rs 33-42, 76-84: the address and the
    signing function of the node, the bid, the throughput, the prover; and [SPN_MAINNET_V1_DOMAIN],
    crates/network/utils/src/domain.rs 36-43. *)
Record node : Type := Node {
  nd_address : N;
  nd_sign : bytes -> bytes;
  nd_bid : N;
  nd_throughput : f64;
  nd_prover : N;
  nd_domain : N
}.

(** ** Arithmetic *)

(** [U256::to_string], crates/node/core/src/serial.rs 234. *)
Fixpoint decimal_aux (fuel : nat) (n : N) : bytes :=
  match fuel with
  | O => []
  | S f => if n <? 10 then [48 + n] else decimal_aux f (n / 10) ++ [48 + n mod 10]
  end.
(** [U256::to_string]: at most 78 digits, crates/node/core/src/serial.rs 234. *)
Definition decimal_text (n : N) : bytes := decimal_aux 78 n.

(** Division of [f64] numbers, crates/node/core/src/serial.rs 196. *)
Definition f64_div (x y : f64) : f64 :=
  match x, y with
  | FNan, _ | _, FNan | FInf _, FInf _ => FNan
  | FInf s, FFin s' _ _ => FInf (xorb s s')
  | FFin s _ _, FInf s' => FFin (xorb s s') 0 1
  | FFin s a b, FFin s' c d =>
      if c =? 0 then (if a =? 0 then FNan else FInf (xorb s s')) else to_f64 (xorb s s') (a * d) (b * c)
  end.
(** [as u64], crates/node/core/src/serial.rs 196: truncated and saturating. *)
Definition f64_to_u64 (x : f64) : N :=
  match x with
  | FNan => 0
  | FInf s => if s then 0 else u64_max
  | FFin s n d => if s then 0 else N.min (n / d) u64_max
  end.
(** [required_time], crates/node/core/src/serial.rs 196. *)
Definition required_time (gas_limit : N) (throughput : f64) : N :=
  f64_to_u64 (f64_div (to_f64 false gas_limit 1) throughput).

(** ** Bidding *)

(** The [?] operator after an RPC, crates/node/core/src/serial.rs 99-253. *)
Notation "'rpc!' x := e 'in' k" :=
  (flow_bind e (fun r => match r with Ok x => k | Err e' => Ret (Err e') end))
  (at level 200, x pattern, e at level 100, k at level 200, right associativity) : flow_scope.

(** The signed bid, crates/node/core/src/serial.rs 230-243. *)
Definition bid_body_of (n : node) (nonce : N) (id : bytes) : bid_body :=
  BidBody nonce id (decimal_text (nd_bid n)) (be_bytes 32 (nd_domain n)) (be_bytes 20 (nd_prover n))
    (variant_tag BidVariant).
(** The signed bid request, crates/node/core/src/serial.rs 226-243. *)
Definition bid_message (n : node) (nonce : N) (id : bytes) : signed bid_body :=
  let body := bid_body_of n nonce id in Signed 1 (nd_sign n (encode_bid body)) (Some body).

(** The operation that is retried, crates/node/core/src/serial.rs 170-247. *)
Definition bid_operation (n : node) (id : bytes) : flow node_event (result unit rpc_error) :=
  rpc! nonce := ask (ENonce (be_bytes 20 (nd_address n))) in
  rpc! details := ask (EDetails id) in
  match details with
  | None => Ret (Err (OtherError str_details_not_found))
  | Some request =>
      ask! now := ask ENow in
      let remaining := pr_deadline request - now in
      let required := required_time (pr_gas_limit request) (nd_throughput n) in
      if remaining <? required then Ret (Ok tt)
      else ask (EBid (bid_message n nonce id))
  end.

(** The result of a round: done, an error that is ignored by the caller, a panic that ends the node
    (crates/node/core/src/lib.rs 126-137, 158-168), or not enough fuel. *)
Inductive round : Type := RDone | RError (e : rpc_error) | RPanic | RUnfinished.

(** The [?] operator in a round, crates/node/core/src/serial.rs 99-253, 513-803. *)
Notation "'step!' x := e 'in' k" :=
  (flow_bind (flow_map Op e) (fun r => match r with Ok x => k | Err e' => Ret (RError e') end))
  (at level 200, x pattern, e at level 100, k at level 200, right associativity) : flow_scope.

(** [SerialBidder::bid], crates/node/core/src/serial.rs 99-253. *)
Definition bid (fuel : nat) (n : node) : flow (timed node_event) round :=
  step! owner := ask (EOwner (be_bytes 20 (nd_address n))) in
  ask! t := flow_map Op (ask ENow) in
  step! assigned := ask (EList (RequestFilter status_assigned t (Some owner) None 1)) in
  if negb (bool_decide (assigned = [])) then Ret RDone
  else
    ask! t' := flow_map Op (ask ENow) in
    step! unassigned := ask (EList (RequestFilter status_requested t' None (Some owner) 1)) in
    match unassigned with
    | [] => Ret RDone
    | _ :: _ :: _ => Ret RDone
    | [request] =>
        ask! r := with_retry fuel (bid_operation n (pr_id request)) in
        match r with
        | Some (Ok _) => Ret RDone
        | Some (Err e) => Ret (RError e)
        | None => Ret RUnfinished
        end
    end.

(** ** Proving *)

(** The operation of [fail_request], crates/node/core/src/serial.rs 369-393. *)
Definition fail_message (n : node) (nonce : N) (id : bytes) : signed fail_body :=
  let body := FailBody nonce id None in Signed 1 (nd_sign n (encode_fail body)) (Some body).
(** One attempt of [fail_request]: nonce, then the report, crates/node/core/src/serial.rs 369-393. *)
Definition fail_operation (n : node) (id : bytes) : flow node_event (result unit rpc_error) :=
  rpc! nonce := ask (ENonce (be_bytes 20 (nd_address n))) in ask (EFail (fail_message n nonce id)).

(** The operation that submits a proof, crates/node/core/src/serial.rs 703-735. *)
Definition fulfill_body_of (n : node) (nonce : N) (id proof : bytes) : fulfill_body :=
  FulfillBody nonce id proof None (be_bytes 32 (nd_domain n)) (variant_tag FulfillVariant).
(** The signed fulfilment, crates/node/core/src/serial.rs 715-733. *)
Definition fulfill_message (n : node) (nonce : N) (id proof : bytes) : signed fulfill_body :=
  let body := fulfill_body_of n nonce id proof in Signed 1 (nd_sign n (encode_fulfill body)) (Some body).
(** One attempt to submit a proof: nonce, then the fulfilment, crates/node/core/src/serial.rs 703-735. *)
Definition fulfill_operation (n : node) (id proof : bytes) : flow node_event (result unit rpc_error) :=
  rpc! nonce := ask (ENonce (be_bytes 20 (nd_address n))) in ask (EFulfill (fulfill_message n nonce id proof)).

(** Errors of the two are only logged; [true] unless fuel runs out
    (crates/node/core/src/serial.rs 699-741, 808-830). *)
Definition submit (fuel : nat) (operation : flow node_event (result unit rpc_error)) : flow (timed node_event) bool :=
  ask! r := with_retry fuel operation in Ret (match r with Some _ => true | None => false end).

(** The mode used, crates/node/core/src/serial.rs 614-621; [None] is the unreachable case. *)
Definition proving_mode (tag : Z) : option proof_mode :=
  match mode_of_tag tag with
  | None => Some CoreMode
  | Some UnspecifiedMode => None
  | Some m => Some m
  end.

(** The proving task, crates/node/core/src/serial.rs 624-643: the key is set up, the program is executed, which
    gives the cycles, and proved, which gives the proof (to be serialised later, [None] if that fails) and the
    time.  [None] is every other end. *)
Definition proving_task (program stdin : bytes) (mode : proof_mode) : flow node_event (option (option bytes * N * N)) :=
  ask! key := ask (ESetup program) in
  match key with
  | TOk pk =>
      ask! report := ask (EExecute pk stdin) in
      match report with
      | TOk cycles =>
          ask! proof := ask (EProve pk stdin mode) in
          match proof with
          | TOk (serialized, time) => Ret (Some (serialized, cycles, time))
          | _ => Ret None
          end
      | _ => Ret None
      end
  | _ => Ret None
  end.

(** One request, crates/node/core/src/serial.rs 547-800; [next] is the rest of the loop. *)
Definition prove_request (fuel : nat) (n : node) (request : proof_request) (next : flow (timed node_event) round)
    : flow (timed node_event) round :=
  let id := pr_id request in
  let go_on (done : bool) := if done then next else Ret RUnfinished in
  ask! known := flow_map Op (ask (EUnexecutable id)) in
  if known then ask! done := submit fuel (fail_operation n id) in go_on done
  else
    match extract_artifact_name (pr_program_uri request) with
    | None => Ret (RError (OtherError str_invalid_url))
    | Some _ =>
        step! program := ask (EProgram (pr_program_uri request)) in
        match extract_artifact_name (pr_stdin_uri request) with
        | None => Ret (RError (OtherError str_invalid_url))
        | Some _ =>
            step! stdin := ask (EStdin (pr_stdin_uri request)) in
            match proving_mode (pr_mode request) with
            | None => Ret RPanic
            | Some mode =>
                ask! outcome := flow_map Op (proving_task program stdin mode) in
                match outcome with
                | Some (serialized, cycles, time) =>
                    ask! _ := flow_map Op (ask (EMetrics cycles time)) in
                    match serialized with
                    | None => Ret (RError (OtherError str_failed_to_serialize))
                    | Some proof => ask! done := submit fuel (fulfill_operation n id proof) in go_on done
                    end
                | None => ask! done := submit fuel (fail_operation n id) in go_on done
                end
            end
        end
    end.

(** The loop over the requests, crates/node/core/src/serial.rs 547-800. *)
Fixpoint prove_all (fuel : nat) (n : node) (requests : list proof_request) : flow (timed node_event) round :=
  match requests with
  | [] => Ret RDone
  | request :: rest => prove_request fuel n request (prove_all fuel n rest)
  end.

(** [SerialProver::prove], crates/node/core/src/serial.rs 513-803. *)
Definition prove (fuel : nat) (n : node) : flow (timed node_event) round :=
  step! owner := ask (EOwner (be_bytes 20 (nd_address n))) in
  ask! t := flow_map Op (ask ENow) in
  step! requests := ask (EList (RequestFilter status_assigned t (Some owner) None 1)) in
  prove_all fuel n requests.
