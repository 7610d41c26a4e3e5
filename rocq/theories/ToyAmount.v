(** A node and a clear of its bid, for the examples of [Props_Amount]. *)
From Verif Require Export ToyNode AmountFacts.
Open Scope N_scope.

(** The external functions of [Toy] with the real reading of amounts. *)
Definition amount_env : env :=
  {| keccak := keccak toy_env; ecrecover := ecrecover toy_env; parse_u256 := u256_from_str;
     json_withdraw := json_withdraw toy_env; json_transfer := json_transfer toy_env;
     json_delegation := json_delegation toy_env; json_request := json_request toy_env; json_bid := json_bid toy_env;
     json_settle := json_settle toy_env; json_execute := json_execute toy_env; json_fulfill := json_fulfill toy_env;
     sp1_verify := sp1_verify toy_env |}.

(** A node of the owner of [prover1], who bids 2. *)
Definition market_node : node := Node owner1 (toy_sig owner1) 2 (FFin false 5 2) prover1 toy_domain.
Definition market_id : bytes := be_bytes 32 (req_id alice request1).
(** Alice's request, offered to the node. *)
Definition market_request : proof_request := ProofRequest market_id 2 [115; 47; 112] [115; 47; 105] 1060 100.
Definition market_bid : list (timed node_event) :=
  map Op (offered market_node (addr owner1) 1000 1001 market_request) ++ [Clock 0] ++
  map Op (looked_at market_node market_id 3 market_request 1003 ++ [EBid (bid_message market_node 3 market_id) (Ok tt)]).
(** The clear with the bid and the fulfilment of the node. *)
Definition market_clear : clear_tx :=
  ClearTx (sign_bin encode_request alice request1) (bid_message market_node 3 market_id)
    (sign_bin encode_settle auctioneer1 (settle_msg (req_id alice request1) prover1))
    (sign_bin encode_execute executor1 (executed_msg (req_id alice request1) 100))
    (Some (fulfill_message market_node 5 market_id [8; 8])) None.

(** A transfer of "0x1F" with a fee of "1_0". *)
Definition hex_transfer : tx :=
  TxTransfer (sign_bin encode_transfer alice
    (TransferBody 9 (addr bob) [48; 120; 49; 70] Toy.dom 6 (addr auctioneer1) [49; 95; 48])).

(** Two requests for a balance: the first fails, the second is answered with "0x10". *)
Definition toy_balance : list (timed balance_event) :=
  [Clock 5; Op (QBalance [1; 2] (Err toy_down)); Clock 7; Random 3; Slept 500000003 tt;
   Op (QBalance [1; 2] (Ok [48; 120; 49; 48]))].
