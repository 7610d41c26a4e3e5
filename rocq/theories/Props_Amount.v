(** Properties of numbers that arrive as text, and of the node's bids in the ledger. *)
From Verif Require Import Proofs_Ledger Proofs_Amount.
Open Scope N_scope.

(** ** C75: amounts are read as the numbers written *)

(** The text of an amount is accepted exactly if it is a number below [2^256], and is read as this number. *)
Theorem C75_amounts text n : u256_from_str text = Some n <-> amount_text text n /\ n < 2 ^ 256.
Proof. exact (C75_amounts_proof text n). Qed.
Print Assumptions C75_amounts.

(** In particular every number is read back from its decimal digits. *)
Theorem C75_decimal text n :
  forall (Hdecimal : is_decimal n text) (Hn : n < 2 ^ 256), u256_from_str text = Some n.
Proof. exact (C75_decimal_proof text n). Qed.
Print Assumptions C75_decimal.

(** A transfer moves the numbers written in its message. *)
Theorem C75_transfer E s s' t body r :
  forall (Hparse : forall text, parse_u256 E text = u256_from_str text) (Hbody : s_body t = Some body)
    (Hexec : execute_full E (TxTransfer t) s = (s', ResOk r)),
  exists from to amount auctioneer fee,
    signed_by E encode_transfer (json_transfer E) t body from /\ as_address (tb_to body) = Some to /\
    as_address (tb_auctioneer body) = Some auctioneer /\
    amount_text (tb_amount body) amount /\ amount_text (tb_fee body) fee /\
    moves (payments (ATransfer from to amount auctioneer fee)) (vs_accounts (contents s)) (vs_accounts (contents s')).
Proof. exact (fun Hparse => C75_transfer_proof E Hparse s s' t body r). Qed.
Print Assumptions C75_transfer.

(** "1_050", "0xFf", "0b101" and the empty text are numbers; "-1", "1.0" and "1a" are not. *)
Example C75_example :
  amount_text [49; 95; 48; 53; 48] 1050 /\ amount_text [48; 120; 70; 102] 255 /\ amount_text [48; 98; 49; 48; 49] 5 /\
  amount_text [] 0 /\ u256_from_str [49; 95; 48; 53; 48] = Some 1050 /\ u256_from_str [48; 120; 70; 102] = Some 255 /\
  u256_from_str [] = Some 0 /\ u256_from_str [45; 49] = None /\ u256_from_str [49; 46; 48] = None /\
  u256_from_str [49; 97] = None /\ is_decimal 1050 [49; 48; 53; 48].
Proof. exact C75_example_proof. Qed.
(** A transfer of "0x1F" with a fee of "1_0". *)
Example C75_transfer_case :
  exists s', execute_full amount_env hex_transfer world1 = (s', ResOk None) /\
    map (fun who => (bal (vs_accounts (contents world1)) who, bal (vs_accounts (contents s')) who)) [alice; bob; auctioneer1] =
    [(1000, 959); (500, 531); (0, 10)].
Proof. exact C75_transfer_case_proof. Qed.

(** ** C76: the ledger settles a bid of the node at the node's price *)

(** A clear that carries a bid the node sent and is executed is for the request the node was offered, for the
    node's prover, signed for by the node, and pays the node's price for each unit of the proof, or nothing. *)
Theorem C76_settled E fuel n tr r m answer c s s' res :
  forall (Hparse : forall text, parse_u256 E text = u256_from_str text)
    (Hrun : runs (bid fuel n) tr r) (Hbid : In (EBid m answer) (ops tr))
    (Hkey : forall message, ecrecover E message (nd_sign n message) = Some (nd_address n))
    (Hprice : nd_bid n < 2 ^ 256) (Hprover : nd_prover n < 2 ^ 160) (Hdomain : nd_domain n < 2 ^ 256)
    (Hclear : cl_bid c = m)
    (Hexec : execute_full E (TxClear c) s = (s', res)) (Hok : ~ is_panic res),
  exists t' owner q request requester account executed executor max_price,
    In (EList (RequestFilter 1 t' None (Some owner) 1) (Ok [q])) (ops tr) /\
    signed_by E encode_request (json_request E) (cl_request c) request requester /\
    pr_id q = be_bytes 32 (message_id E requester (encode_request request)) /\
    signed_by E encode_execute (json_execute E) (cl_execute c) executed executor /\
    as_address (rb_executor request) = Some executor /\
    amount_text (rb_max_price_per_pgu request) max_price /\ nd_bid n <= max_price /\
    vs_domain (contents s) = nd_domain n /\
    vs_accounts (contents s) !! nd_prover n = Some account /\ acc_signer account = nd_address n /\
    bid_outcome n request max_price requester account executed (vs_accounts (contents s)) (vs_accounts (contents s')) res.
Proof. exact (fun Hparse => C76_settled_proof E Hparse fuel n tr r m answer c s s' res). Qed.
Print Assumptions C76_settled.

(** Where a clear is executed with a bid at the node's price for the same request and prover, it is executed, with
    the same effect, with the bid of the node, if the node may sign for the prover. *)
Theorem C76_as_any_other E fuel n tr r m answer b c b0 s s0 res :
  forall (Hparse : forall text, parse_u256 E text = u256_from_str text)
    (Hrun : runs (bid fuel n) tr r) (Hbid : In (EBid m answer) (ops tr)) (Hb : s_body m = Some b)
    (Hkey : forall message, ecrecover E message (nd_sign n message) = Some (nd_address n))
    (Hprice : nd_bid n < 2 ^ 256) (Hprover : nd_prover n < 2 ^ 160)
    (Hnetwork : vs_domain (contents s) = nd_domain n) (Hdomain : nd_domain n < 2 ^ 256)
    (Hsigner : forall a, vs_accounts (contents s) !! nd_prover n = Some a -> acc_signer a = nd_address n)
    (Hexec : execute_full E (TxClear c) s = (s0, res)) (Hok : ~ is_panic res)
    (Hb0 : s_body (cl_bid c) = Some b0) (Hid : bb_request_id b = bb_request_id b0)
    (Hfor : as_address (bb_prover b0) = Some (nd_prover n)) (Hamount : amount_text (bb_amount b0) (nd_bid n)),
  exists s1,
    execute_full E (TxClear (ClearTx (cl_request c) m (cl_settle c) (cl_execute c) (cl_fulfill c) (cl_verify c))) s =
      (s1, res) /\ contents s1 = contents s0.
Proof. exact (fun Hparse => C76_as_any_other_proof E Hparse fuel n tr r m answer b c b0 s s0 res). Qed.
Print Assumptions C76_as_any_other.

(** The node bids 2 on Alice's request; 100 units and a base fee of 7 are paid, a tenth of it to the stakers. *)
Example C76_case :
  (forall message, ecrecover amount_env message (nd_sign market_node message) = Some (nd_address market_node)) /\
  (forall text, parse_u256 amount_env text = u256_from_str text) /\
  runs (bid 12 market_node) market_bid RDone /\
  In (EBid (cl_bid market_clear) (Ok tt)) (ops market_bid) /\
  exists s', execute_full amount_env (TxClear market_clear) world1 = (s', ResOk None) /\
    map (fun who => (bal (vs_accounts (contents world1)) who, bal (vs_accounts (contents s')) who)) [alice; prover1; owner1] =
    [(1000, 793); (0, 20); (50, 237)].
Proof. exact C76_case_proof. Qed.

(** ** C77: a balance and a price are read as written *)

(** The balance fetched is the number in the first answer that is not a temporary error. *)
Theorem C77_balance fuel address tr o now :
  forall (Hrun : runs (fetch_balance fuel address) tr o) (Hclock : well_timed now tr) (Hfuel : (12 <= fuel)%nat),
  exists before answer,
    ops tr = before ++ [QBalance address answer] /\
    Forall (fun e => exists error, e = QBalance address (Err error) /\ temporary error) before /\
    (forall e, answer = Err e -> o = Some (Err (BalanceRpc e))) /\
    (forall text n, answer = Ok text -> amount_text text n -> n < 2 ^ 256 -> o = Some (Ok n)) /\
    (forall text, answer = Ok text -> (forall n, amount_text text n -> 2 ^ 256 <= n) -> o = Some (Err BalanceText)).
Proof. exact (C77_balance_proof fuel address tr o now). Qed.
Print Assumptions C77_balance.

(** A price that is read has the time given, in the years -9999 to 9999, and is next to the decimal number in the
    text, in micro-dollars. *)
Theorem C77_price_read s t p :
  forall (Hread : parse_prove_price s t = Ok p),
  pp_as_of p = t /\ (new_year (-9999) <= t < new_year 10000)%Z /\
  1 <= pp_usd_micros p /\ pp_usd_micros p < 2 ^ 64 /\
  exists text a b, padded s text /\ literal text a b /\ 0 < a /\ 0 < b /\
    2 ^ 52 * (pp_usd_micros p * b) <= 2 ^ 51 * b + 2 ^ 52 * (1000000 * a) + 2 * (1000000 * a) /\
    2 ^ 52 * (1000000 * a) <= 2 ^ 51 * b + 2 ^ 52 * (pp_usd_micros p * b) + 2 * (1000000 * a).
Proof. exact (C77_price_read_proof s t p). Qed.
Print Assumptions C77_price_read.

(** A price from one micro-dollar to [2^63] is read if the time is in these years, and otherwise the time is
    reported as wrong; a whole number of micro-dollars below [2^50] is read exactly. *)
Theorem C77_price_accepts s text a b t :
  forall (Hpadded : padded s text) (Hnumber : literal text a b)
    (Hmin : b <= 1000000 * a) (Hmax : 1000000 * a <= 2 ^ 63 * b),
  ((new_year (-9999) <= t < new_year 10000)%Z -> exists p, parse_prove_price s t = Ok p) /\
  (~ (new_year (-9999) <= t < new_year 10000)%Z -> parse_prove_price s t = Err (InvalidTimestamp t)) /\
  (forall m, 1000000 * a = m * b -> m < 2 ^ 50 -> (new_year (-9999) <= t < new_year 10000)%Z ->
     parse_prove_price s t = Ok (ProvePrice m t)).
Proof. exact (C77_price_accepts_proof s text a b t). Qed.
Print Assumptions C77_price_accepts.

(** A temporary error, then "0x10". *)
Example C77_balance_case :
  runs (fetch_balance 12 [1; 2]) toy_balance (Some (Ok 16)) /\ well_timed 0 toy_balance /\
  amount_text [48; 120; 49; 48] 16.
Proof. exact C77_balance_case_proof. Qed.
(** " 0.2337 " in November 2023, "0.4" in the last second of the year 9999 and in the next one. *)
Example C77_price_case :
  padded [32; 48; 46; 50; 51; 51; 55; 32] [48; 46; 50; 51; 51; 55] /\ literal [48; 46; 50; 51; 51; 55] 2337 10000 /\
  10000 <= 1000000 * 2337 /\ 1000000 * 2337 <= 2 ^ 63 * 10000 /\ 1000000 * 2337 = 233700 * 10000 /\
  (new_year (-9999) <= 1700000000 < new_year 10000)%Z /\ new_year 2000 = 946684800%Z /\
  parse_prove_price [32; 48; 46; 50; 51; 51; 55; 32] 1700000000 = Ok (ProvePrice 233700 1700000000) /\
  parse_prove_price [48; 46; 52] 253402300799 = Ok (ProvePrice 400000 253402300799) /\
  parse_prove_price [48; 46; 52] 253402300800 = Err (InvalidTimestamp 253402300800) /\
  parse_prove_price [48] 1700000000 = Err (BadPrice PriceConversion).
Proof. exact C77_price_case_proof. Qed.
