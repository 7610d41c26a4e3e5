(** A small node and some rounds of it, for the examples in [Props_Node]. *)
From Verif Require Export Toy NodeFacts.
Open Scope N_scope.

(** An operation that asks for a number (no counterpart in the code). *)
Definition toy_op : flow (result N rpc_error) (result N rpc_error) := ask id.
Definition toy_down : rpc_error := Status CUnavailable [].
Definition toy_gone : rpc_error := Status CNotFound [].
(** Two failures and a success; an error that is not temporary; two minutes of failures. *)
Definition toy_retry : list (timed (result N rpc_error)) :=
  [Clock 5; Op (Err toy_down); Clock 7; Random 3; Slept 500000003 tt; Op (Err toy_down); Clock 500000020; Random 750000000;
   Slept 1500000000 tt; Op (Ok 42)].
Definition toy_retry_gone : list (timed (result N rpc_error)) :=
  [Clock 5; Op (Err toy_down); Clock 7; Random 3; Slept 500000003 tt; Op (Err toy_gone)].
Definition toy_retry_late : list (timed (result N rpc_error)) :=
  [Clock 5; Op (Err toy_down); Clock 119600000000; Random 0].

(** A node with address 17 that can prove 2.5 units of gas per second and bids 1050. *)
Definition toy_node : node := Node 17 (toy_sig 17) 1050 (FFin false 5 2) 23 77.
Definition toy_owner : bytes := be_bytes 20 23.
(** A request of 100 units of gas, to be proved by time 1060. *)
Definition toy_request : proof_request := ProofRequest [9; 9] 2 [115; 47; 112] [115; 47; 105] 1060 100.
Definition toy_request2 : proof_request := ProofRequest [9; 8] 4 [115; 47; 113] [115; 47; 105] 1070 100.
Definition toy_unspecified : proof_request := ProofRequest [9; 7] 0 [115; 47; 113] [115; 47; 105] 1070 100.

(** A round with two bids: the first is answered with a temporary error. *)
Definition toy_bid_start (now : N) : list node_event :=
  offered toy_node toy_owner 1000 1001 toy_request ++ looked_at toy_node [9; 9] 3 toy_request now.
Definition toy_bid_twice : list (timed node_event) :=
  map Op (offered toy_node toy_owner 1000 1001 toy_request) ++ [Clock 0] ++
  map Op (looked_at toy_node [9; 9] 3 toy_request 1002 ++ [EBid (bid_message toy_node 3 [9; 9]) (Err toy_down)]) ++
  [Clock 7; Random 3; Slept 500000003 tt] ++
  map Op (looked_at toy_node [9; 9] 4 toy_request 1003 ++ [EBid (bid_message toy_node 4 [9; 9]) (Ok tt)]).
(** A round without a bid: 39 seconds are left, 40 are needed. *)
Definition toy_bid_late : list (timed node_event) :=
  map Op (offered toy_node toy_owner 1000 1001 toy_request) ++ [Clock 0] ++
  map Op (looked_at toy_node [9; 9] 3 toy_request 1021).

(** A round of proving: the first request is proved, the second fails in execution. *)
Definition toy_program : bytes := [1; 2].
Definition toy_stdin : bytes := [3].
Definition toy_prove : list (timed node_event) :=
  map Op (asked_assigned toy_node toy_owner 1000 (Ok [toy_request; toy_request2])) ++
  map Op (downloaded toy_request toy_program toy_stdin ++
          proved toy_program toy_stdin [7] CompressedMode 99 (Some [8; 8]) 30) ++
  [Clock 0; Op (ENonce (address_bytes toy_node) (Ok 3)); Op (EFulfill (fulfill_message toy_node 3 [9; 9] [8; 8]) (Ok tt))] ++
  map Op (downloaded toy_request2 toy_program toy_stdin ++
          [ESetup toy_program (TOk [7]); EExecute [7] toy_stdin TPanic]) ++
  [Clock 40; Op (ENonce (address_bytes toy_node) (Ok 4)); Op (EFail (fail_message toy_node 4 [9; 8]) (Ok tt))].
(** The program cannot be downloaded. *)
Definition toy_prove_lost : list (timed node_event) :=
  map Op (asked_assigned toy_node toy_owner 1000 (Ok [toy_request]) ++
          [EUnexecutable [9; 9] false; EProgram [115; 47; 112] (Err toy_gone)]).
(** A request without a mode. *)
Definition toy_prove_panic : list (timed node_event) :=
  map Op (asked_assigned toy_node toy_owner 1000 (Ok [toy_unspecified]) ++ downloaded toy_unspecified toy_program toy_stdin).

(** 40 seconds are needed for the request. *)
Lemma toy_required : required_time (pr_gas_limit toy_request) (nd_throughput toy_node) = 40.
Proof. vm_compute. reflexivity. Qed.
(** Replaying a round of the node. *)
Ltac replay_node :=
  lazymatch goal with
  | |- Flow.runs ?p _ _ =>
      let p' := eval hnf in p in change p with p'; rewrite ?toy_required;
      lazymatch p' with
      | Flow.Do _ _ _ => cbn [runs]; eexists; eexists; split; [reflexivity|]; cbv beta zeta; rewrite ?toy_required; replay_node
      | Flow.Ret _ => split; reflexivity
      end
  end.

Lemma toy_signs who message : who < two160 -> ecrecover toy_env message (toy_sig who message) = Some who.
Proof.
  intros H. cbn [toy_env ecrecover]. unfold toy_recover. cbv zeta.
  assert (E : from_be (take 20 (toy_sig who message)) = who).
  { unfold toy_sig. rewrite take_app_alt by (now rewrite be_bytes_length). rewrite from_be_be_bytes. now apply N.mod_small. }
  rewrite E. unfold bytes_eqb. now rewrite bool_decide_true by reflexivity.
Qed.

Lemma toy_reads text v : is_decimal v text -> v < 2 ^ 256 -> parse_u256 toy_env text = Some v.
Proof.
  intros (H1 & H2 & H3) Hv. cbn [toy_env parse_u256]. unfold toy_parse. destruct text as [|c text]; [easy|].
  rewrite H3. destruct (N.ltb_spec v two256) as [_|Hv']; [|unfold two256 in Hv'; lia].
  replace (forallb _ _) with true; [reflexivity|]. symmetry. apply forallb_forall. intros x Hx.
  rewrite Forall_forall in H1. apply elem_of_list_In in Hx. specialize (H1 x Hx). cbn beta in H1.
  apply andb_true_iff. rewrite !N.leb_le. exact H1.
Qed.
