(** Vocabulary for the properties of the prover node. *)
From Verif Require Export RetrySpec Node Spec.
Open Scope N_scope.

(** The node's address in bytes. *)
Definition address_bytes (n : node) : bytes := be_bytes 20 (nd_address n).

(** A message in binary format with this body, signed by the node. *)
Definition signed_by_node {B} (n : node) (encode : B -> bytes) (m : signed B) (body : B) : Prop :=
  m = Signed 1 (nd_sign n (encode body)) (Some body).

(** A text made of the decimal digits of a number. *)
Definition is_decimal (n : N) (text : bytes) : Prop :=
  Forall (fun c => 48 <= c <= 57) text /\ text <> [] /\ fold_left (fun acc c => acc * 10 + (c - 48)) text 0 = n.

(** A bid of the node on a request: its price, its prover, the right domain and variant. *)
Definition is_bid (n : node) (nonce : N) (id : bytes) (m : signed bid_body) : Prop :=
  exists text, is_decimal (nd_bid n) text /\
    signed_by_node n encode_bid m (BidBody nonce id text (be_bytes 32 (nd_domain n)) (be_bytes 20 (nd_prover n)) 1).
(** A fulfilment. *)
Definition is_fulfilment (n : node) (nonce : N) (id proof : bytes) (m : signed fulfill_body) : Prop :=
  signed_by_node n encode_fulfill m (FulfillBody nonce id proof None (be_bytes 32 (nd_domain n)) 4).
(** A report of failure. *)
Definition is_failure (n : node) (nonce : N) (id : bytes) (m : signed fail_body) : Prop :=
  signed_by_node n encode_fail m (FailBody nonce id None).

(** ** Bidding *)

(** The start of a round of the bidder in which a bid is possible: nothing is assigned to the owner, and [q]
    is offered. *)
Definition offered (n : node) (owner : bytes) (t t' : N) (q : proof_request) : list node_event :=
  [EOwner (address_bytes n) (Ok owner); ENow t; EList (RequestFilter 2 t (Some owner) None 1) (Ok []);
   ENow t'; EList (RequestFilter 1 t' None (Some owner) 1) (Ok [q])].

(** What comes just before a bid. *)
Definition looked_at (n : node) (id : bytes) (nonce : N) (details : proof_request) (now : N) : list node_event :=
  [ENonce (address_bytes n) (Ok nonce); EDetails id (Ok (Some details)); ENow now].

(** The gas is provable within [time] seconds, at [c / d] units of gas per second; a relative error of
    [1 / 2^51] is possible in the comparison. *)
Definition surely_enough (gas c d time : N) : Prop := (2 ^ 51 + 1) * (gas * d) < 2 ^ 51 * (c * time).
Definition surely_too_little (gas c d time : N) : Prop := 2 ^ 51 * (c * time) <= (2 ^ 51 - 1) * (gas * d).

(** ** Submissions *)

(** [tries n is_message tr r]: the events of a submission with retries.  Each attempt fetches the nonce and
    then sends the message; all attempts but the last ended with a temporary error; [r] is the answer to the
    last. *)
Inductive one_try (n : node) (sends : N -> node_event -> result unit rpc_error -> Prop)
    : list node_event -> result unit rpc_error -> Prop :=
| no_nonce e : one_try n sends [ENonce (address_bytes n) (Err e)] (Err e)
| sent nonce event r : sends nonce event r -> one_try n sends [ENonce (address_bytes n) (Ok nonce); event] r.
Inductive tries (n : node) (sends : N -> node_event -> result unit rpc_error -> Prop)
    : list node_event -> result unit rpc_error -> Prop :=
| last_try tr r : one_try n sends tr r -> tries n sends tr r
| try_again tr e rest r :
    one_try n sends tr (Err e) -> temporary e -> tries n sends rest r -> tries n sends (tr ++ rest) r.

(** The sending of a fulfilment, of a failure. *)
Definition sends_fulfilment (n : node) (id proof : bytes) (nonce : N) (e : node_event) (r : result unit rpc_error) : Prop :=
  exists m, is_fulfilment n nonce id proof m /\ e = EFulfill m r.
Definition sends_failure (n : node) (id : bytes) (nonce : N) (e : node_event) (r : result unit rpc_error) : Prop :=
  exists m, is_failure n nonce id m /\ e = EFail m r.

(** The mode of proofs asked for by a request; an unknown one counts as core. *)
Definition mode_wanted (tag : Z) (m : proof_mode) : Prop :=
  (tag = 2 /\ m = CompressedMode \/ tag = 3 /\ m = PlonkMode \/ tag = 4 /\ m = Groth16Mode \/
   tag <> 0 /\ tag <> 2 /\ tag <> 3 /\ tag <> 4 /\ m = CoreMode)%Z.

(** The inputs of a request were downloaded. *)
Definition downloaded (q : proof_request) (program stdin : bytes) : list node_event :=
  [EUnexecutable (pr_id q) false; EProgram (pr_program_uri q) (Ok program); EStdin (pr_stdin_uri q) (Ok stdin)].
(** The program was executed and then proved. *)
Definition proved (program stdin key : bytes) (mode : proof_mode) (cycles : N) (proof : option bytes) (time : N)
    : list node_event :=
  [ESetup program (TOk key); EExecute key stdin (TOk cycles); EProve key stdin mode (TOk (proof, time));
   EMetrics cycles time tt].
(** The proving task did not get to a proof. *)
Inductive unproved (program stdin : bytes) (mode : proof_mode) : list node_event -> Prop :=
| no_setup a : (forall key, a <> TOk key) -> unproved program stdin mode [ESetup program a]
| no_execution key a : (forall cycles, a <> TOk cycles) ->
    unproved program stdin mode [ESetup program (TOk key); EExecute key stdin a]
| no_proof key cycles a : (forall proof, a <> TOk proof) ->
    unproved program stdin mode [ESetup program (TOk key); EExecute key stdin (TOk cycles); EProve key stdin mode a].

(** [handled n q tr]: all that happens for a request that is dealt with. *)
Inductive handled (n : node) (q : proof_request) : list node_event -> Prop :=
| skipped tr r :
    tries n (sends_failure n (pr_id q)) tr r ->
    handled n q (EUnexecutable (pr_id q) true :: tr)
| fulfilled program stdin key mode cycles proof time tr r :
    mode_wanted (pr_mode q) mode -> tries n (sends_fulfilment n (pr_id q) proof) tr r ->
    handled n q (downloaded q program stdin ++ proved program stdin key mode cycles (Some proof) time ++ tr)
| given_up program stdin mode task tr r :
    mode_wanted (pr_mode q) mode -> unproved program stdin mode task -> tries n (sends_failure n (pr_id q)) tr r ->
    handled n q (downloaded q program stdin ++ task ++ tr).

(** [abandoned n q tr r]: all that happens for a request that ends the round with [r]. *)
Inductive abandoned (q : proof_request) : list node_event -> round -> Prop :=
| no_program e : abandoned q [EUnexecutable (pr_id q) false; EProgram (pr_program_uri q) (Err e)] (RError e)
| no_stdin program e :
    abandoned q [EUnexecutable (pr_id q) false; EProgram (pr_program_uri q) (Ok program);
                 EStdin (pr_stdin_uri q) (Err e)] (RError e)
| no_mode program stdin : pr_mode q = 0%Z -> abandoned q (downloaded q program stdin) RPanic
| not_serializable program stdin key mode cycles time e :
    mode_wanted (pr_mode q) mode ->
    abandoned q (downloaded q program stdin ++ proved program stdin key mode cycles None time) (RError e).

(** The start of a round of the prover. *)
Definition asked_assigned (n : node) (owner : bytes) (t : N) (r : result (list proof_request) rpc_error) : list node_event :=
  [EOwner (address_bytes n) (Ok owner); ENow t; EList (RequestFilter 2 t (Some owner) None 1) r].

(** The id a message about a request names. *)
Definition fulfils (id : bytes) (e : node_event) : Prop :=
  exists m r b, e = EFulfill m r /\ s_body m = Some b /\ fb_request_id b = id.
Definition fails (id : bytes) (e : node_event) : Prop :=
  exists m r b, e = EFail m r /\ s_body m = Some b /\ ff_request_id b = id.
