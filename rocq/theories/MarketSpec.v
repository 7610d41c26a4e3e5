(** What a clear does with a bid of a node: vocabulary for the properties of the node and the ledger together. *)
From Verif Require Export AmountSpec NodeSpec StepSpec.
Open Scope N_scope.

(** [bid_outcome n request max_price requester account executed A A' res]: what the clear of a request with a bid of the
    node [n] does to the accounts, when the executor signed [executed].  The proof is paid by the units used, at
    the price of the bid, with the base fee of the request; a requester who cannot pay pays nothing; for a
    request that cannot be executed the prover gets nothing, and the requester pays the punishment the executor
    wrote, at most what the request could have cost. *)
Inductive bid_outcome (n : node) (request : request_body) (max_price requester : N) (account : account)
    (executed : execute_body) (A : gmap N Types.account) : gmap N Types.account -> exec_result -> Prop :=
| bid_paid pgus base_fee treasury A' :
    eb_execution_status executed = 2%Z -> eb_pgus executed = Some pgus -> pgus <= rb_gas_limit request ->
    amount_text (rb_base_fee request) base_fee -> as_address (rb_treasury request) = Some treasury ->
    moves (payments (AClear requester treasury (nd_prover n) (acc_owner account)
                       (nd_bid n * pgus + base_fee) (acc_bips account))) A A' ->
    bid_outcome n request max_price requester account executed A A' (ResOk None)
| bid_unpaid pgus base_fee :
    eb_execution_status executed = 2%Z -> eb_pgus executed = Some pgus -> pgus <= rb_gas_limit request ->
    amount_text (rb_base_fee request) base_fee -> bal A requester < nd_bid n * pgus + base_fee ->
    bid_outcome n request max_price requester account executed A A
      (ResRevert (InsufficientClearBalance requester (nd_bid n * pgus + base_fee) (bal A requester)))
| bid_punished treasury text punishment base_fee A' :
    eb_execution_status executed = 3%Z -> as_address (rb_treasury request) = Some treasury ->
    eb_punishment executed = Some text -> amount_text text punishment ->
    amount_text (rb_base_fee request) base_fee -> punishment <= max_price * rb_gas_limit request + base_fee ->
    moves (payments (APunish requester treasury punishment)) A A' ->
    bid_outcome n request max_price requester account executed A A' (ResOk None)
| bid_unpunished text punishment base_fee :
    eb_execution_status executed = 3%Z -> eb_punishment executed = Some text -> amount_text text punishment ->
    amount_text (rb_base_fee request) base_fee -> punishment <= max_price * rb_gas_limit request + base_fee ->
    bal A requester < punishment ->
    bid_outcome n request max_price requester account executed A A
      (ResRevert (InsufficientPunishmentBalance requester punishment (bal A requester))).
