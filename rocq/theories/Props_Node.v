(** Properties of the RPC retry helper and of the reference prover node. *)
From Coq Require Import ZifyBool ZifyN ZifyNat.
From Verif Require Import Proofs_Node.
Open Scope N_scope.

(** ** C35: retrying *)

(** The attempts of a retried operation: all but the last ended with a temporary error, the result is that of
    the last, and there is one pause between each two, of half to one and a half intervals.  The last attempt
    ended with a temporary error only if the time was up, that is, a further pause would have ended too late. *)
Theorem C35_outcome {Ev T} fuel (operation : flow Ev (result T rpc_error)) timeout tr r :
  forall (Hrun : runs (retry_operation fuel operation timeout) tr (Some r)),
  exists start rest before last,
    tr = Clock start :: rest /\ ops tr = concat (map fst before) ++ last /\
    Forall (fun a => runs operation (fst a) (Err (snd a)) /\ temporary (snd a)) before /\
    runs operation last r /\
    length (pauses tr) = length before /\
    (forall k d, nth_error (pauses tr) k = Some d -> interval_no k / 2 <= d <= interval_no k * 3 / 2) /\
    (forall e, r = Err e -> temporary e -> exists limit t d,
       timeout = Some limit /\ In (Clock t) rest /\
       interval_no (length before) / 2 <= d <= interval_no (length before) * 3 / 2 /\
       limit < t - start + d).
Proof. exact (C35_outcome_proof fuel operation timeout tr r). Qed.
Print Assumptions C35_outcome.

(** The pauses do not exceed the time limit, if the clock does not run backwards. *)
Theorem C35_budget {Ev T} fuel (operation : flow Ev (result T rpc_error)) limit tr o now :
  forall (Hrun : runs (retry_operation fuel operation (Some limit)) tr o) (Hclock : well_timed now tr),
  total_time (pauses tr) <= limit.
Proof. exact (C35_budget_proof fuel operation limit tr o now). Qed.
Print Assumptions C35_budget.

(** With the default limit of two minutes there are at most twelve attempts. *)
Theorem C35_attempts_bounded {Ev T} fuel (operation : flow Ev (result T rpc_error)) tr o now :
  forall (Hrun : runs (with_retry fuel operation) tr o) (Hclock : well_timed now tr),
  (length (pauses tr) <= 11)%nat /\ ((12 <= fuel)%nat -> o <> None).
Proof. exact (with_retry_bounded operation fuel tr o now). Qed.
Print Assumptions C35_attempts_bounded.

(** The default limit is two minutes: the pauses do not exceed it, and a temporary error is given up on only if
    a further pause would have. *)
Theorem C35_default_limit {Ev T} fuel (operation : flow Ev (result T rpc_error)) tr o now :
  forall (Hrun : runs (with_retry fuel operation) tr o) (Hclock : well_timed now tr),
  total_time (pauses tr) <= 120 * 10 ^ 9 /\
  (forall e, o = Some (Err e) -> temporary e -> exists start rest t d,
     tr = Clock start :: rest /\ In (Clock t) rest /\ 120 * 10 ^ 9 < t - start + d /\
     interval_no (length (pauses tr)) / 2 <= d <= interval_no (length (pauses tr)) * 3 / 2).
Proof. exact (C35_default_limit_proof fuel operation tr o now). Qed.
Print Assumptions C35_default_limit.

Example C35_success_case : runs (with_retry 12 toy_op) toy_retry (Some (Ok 42)) /\ well_timed 0 toy_retry /\
  length (pauses toy_retry) = 2%nat.
Proof. split; [replay|]. split; [|reflexivity]. cbn. lia. Qed.
Example C35_permanent_case : runs (with_retry 12 toy_op) toy_retry_gone (Some (Err toy_gone)) /\ ~ temporary toy_gone.
Proof. split; [replay|]. cbn. intuition discriminate. Qed.
Example C35_late_case : runs (with_retry 12 toy_op) toy_retry_late (Some (Err toy_down)) /\ temporary toy_down.
Proof. split; [replay|]. cbn. auto. Qed.
(** "DNS Error" in a message. *)
Example C35_message_case : temporary (OtherError [88; 68; 78; 83; 32; 69; 114; 114; 111; 114]) /\
  ~ temporary (OtherError [68; 78; 83]).
Proof. split; [apply transient_spec|rewrite <- transient_spec]; vm_compute; [reflexivity|discriminate]. Qed.

(** ** C36: bidding *)

(** Every bid is made when nothing is assigned to the owner, on the one request offered, with the configured
    price and prover; its time is not clearly too short; it is the last event of the round unless it was
    answered with a temporary error. *)
Theorem C36_bid_justified fuel n tr r before m answer after :
  forall (Hrun : runs (bid fuel n) tr r) (Hbid : ops tr = before ++ EBid m answer :: after)
    (Hprice : nd_bid n < 2 ^ 256),
  exists owner t t' q earlier nonce details now,
    before = offered n owner t t' q ++ earlier ++ looked_at n (pr_id q) nonce details now /\
    is_bid n nonce (pr_id q) m /\
    (after = [] \/ exists e, answer = Err e /\ temporary e) /\
    (forall c d, nd_throughput n = FFin false c d -> 0 < c -> 0 < d ->
       pr_gas_limit details < 2 ^ 64 -> pr_deadline details - now < 2 ^ 64 - 1 ->
       ~ surely_too_little (pr_gas_limit details) c d (pr_deadline details - now + 1)).
Proof. exact (C36_bid_justified_proof fuel n tr r before m answer after). Qed.
Print Assumptions C36_bid_justified.

(** So at most one bid is acknowledged, and it comes last. *)
Theorem C36_one_acknowledged fuel n tr r before m after :
  forall (Hrun : runs (bid fuel n) tr r) (Hbid : ops tr = before ++ EBid m (Ok tt) :: after), after = [].
Proof. exact (C36_one_acknowledged_proof fuel n tr r before m after). Qed.
Print Assumptions C36_one_acknowledged.

(** A request looked at with clearly enough time is bid on. *)
Theorem C36_bids_in_time fuel n tr r owner t t' q earlier nonce details now after c d :
  forall (Hrun : runs (bid fuel n) tr r)
    (Hlooked : ops tr = offered n owner t t' q ++ earlier ++ looked_at n (pr_id q) nonce details now ++ after)
    (Hthroughput : nd_throughput n = FFin false c d) (Hc : 0 < c) (Hd : 0 < d)
    (Hgas : pr_gas_limit details < 2 ^ 64)
    (Htime : surely_enough (pr_gas_limit details) c d (pr_deadline details - now + 1)),
  exists m answer after', after = EBid m answer :: after' /\ s_body m <> None.
Proof. exact (C36_bids_in_time_proof fuel n tr r owner t t' q earlier nonce details now after c d). Qed.
Print Assumptions C36_bids_in_time.

(** A round that ends without an error and had a request on offer ends with an acknowledged bid, or the time
    was not clearly enough. *)
Theorem C36_round_end fuel n tr owner t t' q rest :
  forall (Hrun : runs (bid fuel n) tr RDone) (Hoffer : ops tr = offered n owner t t' q ++ rest),
  exists earlier nonce details now,
    (exists m, rest = earlier ++ looked_at n (pr_id q) nonce details now ++ [EBid m (Ok tt)]) \/
    (rest = earlier ++ looked_at n (pr_id q) nonce details now /\
     (forall c d, nd_throughput n = FFin false c d -> 0 < c -> 0 < d -> pr_gas_limit details < 2 ^ 64 ->
        ~ surely_enough (pr_gas_limit details) c d (pr_deadline details - now + 1))).
Proof. exact (C36_round_end_proof fuel n tr owner t t' q rest). Qed.
Print Assumptions C36_round_end.

(** A round of bidding always ends, without a panic. *)
Theorem C36_ends fuel n tr r now :
  forall (Hrun : runs (bid fuel n) tr r) (Hclock : well_timed now tr) (Hfuel : (12 <= fuel)%nat),
  r = RDone \/ exists e, r = RError e.
Proof. exact (bid_total fuel n tr r now). Qed.
Print Assumptions C36_ends.

Example C36_bid_case : runs (bid 12 toy_node) toy_bid_twice RDone /\ well_timed 0 toy_bid_twice /\
  nd_bid toy_node < 2 ^ 256 /\
  ops toy_bid_twice = (offered toy_node toy_owner 1000 1001 toy_request ++
    (looked_at toy_node [9; 9] 3 toy_request 1002 ++ [EBid (bid_message toy_node 3 [9; 9]) (Err toy_down)]) ++
    looked_at toy_node [9; 9] 4 toy_request 1003) ++ EBid (bid_message toy_node 4 [9; 9]) (Ok tt) :: [] /\
  surely_enough 100 5 2 (1060 - 1003 + 1) /\ ~ surely_too_little 100 5 2 (1060 - 1003 + 1) /\
  surely_too_little 100 5 2 (1060 - 1021).
Proof. exact C36_bid_case_proof. Qed.
Example C36_late_case : runs (bid 12 toy_node) toy_bid_late RDone /\
  ops toy_bid_late = offered toy_node toy_owner 1000 1001 toy_request ++ [] ++ looked_at toy_node [9; 9] 3 toy_request 1021.
Proof. split; [replay_node|reflexivity]. Qed.
(** The price of the bid, as text. *)
Example C36_price_case : is_bid toy_node 3 [9; 9] (bid_message toy_node 3 [9; 9]) /\
  decimal_text (nd_bid toy_node) = [49; 48; 53; 48].
Proof. split; [|reflexivity]. eexists. split; [apply decimal_text_spec; reflexivity|reflexivity]. Qed.

(** ** C37: proving *)

(** All that happens in a round: the requests assigned to the owner are dealt with in order, each proved and
    fulfilled or reported as failed.  The round ends early only with an error of the first two RPCs, or with a
    request that could not be downloaded, has no mode, or whose proof could not be serialised. *)
Theorem C37_round fuel n tr r now :
  forall (Hrun : runs (prove fuel n) tr r) (Hclock : well_timed now tr) (Hfuel : (12 <= fuel)%nat),
  (exists e, ops tr = [EOwner (address_bytes n) (Err e)] /\ r = RError e) \/
  (exists owner t e, ops tr = asked_assigned n owner t (Err e) /\ r = RError e) \/
  (exists owner t qs segments,
    (r = RDone /\ ops tr = asked_assigned n owner t (Ok qs) ++ concat segments /\
     Forall2 (handled n) qs segments) \/
    (exists qs1 q qs2 last, qs = qs1 ++ q :: qs2 /\
       ops tr = asked_assigned n owner t (Ok qs) ++ concat segments ++ last /\
       Forall2 (handled n) qs1 segments /\ abandoned q last r)).
Proof. exact (prove_runs fuel n tr r now). Qed.
Print Assumptions C37_round.

(** No request is both fulfilled and reported as failed, if the server does not list it twice. *)
Theorem C37_never_both fuel n tr r now id :
  forall (Hrun : runs (prove fuel n) tr r) (Hclock : well_timed now tr) (Hfuel : (12 <= fuel)%nat)
    (Hlist : forall f qs, In (EList f (Ok qs)) (ops tr) -> NoDup (map pr_id qs)),
  ~ ((exists e, In e (ops tr) /\ fulfils id e) /\ (exists e, In e (ops tr) /\ fails id e)).
Proof. exact (C37_never_both_proof fuel n tr r now id). Qed.
Print Assumptions C37_never_both.

Example C37_round_case : runs (prove 12 toy_node) toy_prove RDone /\ well_timed 0 toy_prove /\
  NoDup (map pr_id [toy_request; toy_request2]) /\
  (exists e, In e (ops toy_prove) /\ fulfils [9; 9] e) /\ (exists e, In e (ops toy_prove) /\ fails [9; 8] e).
Proof. exact C37_round_case_proof. Qed.

(** ** C58: the node's messages pass the ledger's checks *)

(** If the node's signing function signs with the key of its address, the ledger takes a bid of the node for a
    message of that address, for the node's prover and the node's network. *)
Theorem C58_bid_verifies E fuel n tr r m answer :
  forall (Hrun : runs (bid fuel n) tr r) (Hbid : In (EBid m answer) (ops tr))
    (Hkey : forall message, ecrecover E message (nd_sign n message) = Some (nd_address n))
    (Hparse : forall text v, is_decimal v text -> v < 2 ^ 256 -> parse_u256 E text = Some v)
    (Hprice : nd_bid n < 2 ^ 256) (Hprover : nd_prover n < 2 ^ 160) (Hdomain : nd_domain n < 2 ^ 256),
  exists body, signed_by E encode_bid (json_bid E) m body (nd_address n) /\
    parse_u256 E (bb_amount body) = Some (nd_bid n) /\
    as_address (bb_prover body) = Some (nd_prover n) /\
    as_word (bb_domain body) = Some (nd_domain n) /\
    bb_variant body = 1%Z.
Proof. exact (C58_bid_verifies_proof E fuel n tr r m answer). Qed.
Print Assumptions C58_bid_verifies.

(** The same for a fulfilment. *)
Theorem C58_fulfilment_verifies E fuel n tr r now m answer :
  forall (Hrun : runs (prove fuel n) tr r) (Hclock : well_timed now tr) (Hfuel : (12 <= fuel)%nat)
    (Hsent : In (EFulfill m answer) (ops tr))
    (Hkey : forall message, ecrecover E message (nd_sign n message) = Some (nd_address n))
    (Hdomain : nd_domain n < 2 ^ 256),
  exists body, signed_by E encode_fulfill (json_fulfill E) m body (nd_address n) /\
    as_word (fb_domain body) = Some (nd_domain n) /\
    fb_variant body = 4%Z.
Proof. exact (C58_fulfilment_verifies_proof E fuel n tr r now m answer). Qed.
Print Assumptions C58_fulfilment_verifies.

Example C58_case :
  (forall message, ecrecover toy_env message (nd_sign toy_node message) = Some (nd_address toy_node)) /\
  In (EBid (bid_message toy_node 4 [9; 9]) (Ok tt)) (ops toy_bid_twice) /\
  In (EFulfill (fulfill_message toy_node 3 [9; 9] [8; 8]) (Ok tt)) (ops toy_prove) /\
  (forall text v, is_decimal v text -> v < 2 ^ 256 -> parse_u256 toy_env text = Some v).
Proof. exact C58_case_proof. Qed.

(** ** Properties that do not hold *)

(** C59: a round may send several bids on the same request. *)
Theorem C59_single_bid_refuted : exists n tr before m1 a1 middle m2 a2 after,
  runs (bid 12 n) tr RDone /\ well_timed 0 tr /\
  ops tr = before ++ EBid m1 a1 :: middle ++ EBid m2 a2 :: after.
Proof. exact C59_single_bid_refuted_proof. Qed.
Print Assumptions C59_single_bid_refuted.

(** C60: an assigned request may be neither fulfilled nor reported as failed. *)
Theorem C60_every_request_resolved_refuted : exists n tr r f q,
  runs (prove 12 n) tr r /\ well_timed 0 tr /\ In (EList f (Ok [q])) (ops tr) /\
  forall e, In e (ops tr) -> ~ fulfils (pr_id q) e /\ ~ fails (pr_id q) e.
Proof. exact C60_every_request_resolved_refuted_proof. Qed.
Print Assumptions C60_every_request_resolved_refuted.

(** C61: an assigned request may stop the node. *)
Theorem C61_never_stops_refuted : exists n tr, runs (prove 12 n) tr RPanic /\ well_timed 0 tr.
Proof. exists toy_node, toy_prove_panic. split; [replay_node|cbn; lia]. Qed.
Print Assumptions C61_never_stops_refuted.
