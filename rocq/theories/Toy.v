(** A computable instance of the external functions and a small world, used only in examples: it shows
    that the hypotheses of the theorems can be met by non-trivial states and transactions. *)
From Verif Require Export History.
Open Scope N_scope.

(** ** External functions *)

(** A polynomial hash modulo 2^256 over chunks of 32 bytes. *)
Definition toy_mask : N := Eval vm_compute in N.ones 256.
Definition toy_chunk (bs : bytes) : N := fold_left (fun acc b => N.shiftl acc 8 + b) bs 0.
Fixpoint toy_chunks (fuel : nat) (bs : bytes) (acc : N) : N :=
  match fuel, bs with
  | S f, _ :: _ => toy_chunks f (drop 32 bs) (N.land (65601 * acc + toy_chunk (take 32 bs)) toy_mask)
  | _, _ => acc
  end.
Definition toy_seed : N :=
  57896044618658097711785492504343953926634992332820282019728792003956564819967.
Definition toy_hash (bs : bytes) : N :=
  toy_chunks (length bs) bs (N.of_nat (length bs) + toy_seed).

(** A tagged signature: address, then a tag that depends on the address and the message. *)
Definition toy_sig (who : N) (msg : bytes) : bytes :=
  be_bytes 20 who ++ be_bytes 32 (toy_hash (be_bytes 20 who ++ msg)).

Definition toy_recover (msg sig : bytes) : option N :=
  let who := from_be (take 20 sig) in
  if bytes_eqb sig (toy_sig who msg) then Some who else None.

(** Decimal numbers below 2^256. *)
Definition toy_parse (s : bytes) : option N :=
  match s with
  | [] => None
  | _ =>
      if forallb (fun c => (48 <=? c) && (c <=? 57)) s then
        let n := fold_left (fun acc c => acc * 10 + (c - 48)) s 0 in
        if n <? two256 then Some n else None
      else None
  end.

(** A proof is accepted when the first word of the key equals the first byte of the public values. *)
Definition toy_verify (vk : list N) (pv : bytes) : bool :=
  match vk, pv with w :: _, b :: _ => w =? b | _, _ => false end.

Definition toy_json (encoded : bytes) : option bytes := Some (123 :: encoded ++ [125]).

Definition toy_env : env :=
  {| keccak := toy_hash; ecrecover := toy_recover; parse_u256 := toy_parse;
     json_withdraw b := toy_json (encode_withdraw b);
     json_transfer b := toy_json (encode_transfer b);
     json_delegation b := toy_json (encode_delegation b);
     json_request b := toy_json (encode_request b);
     json_bid b := toy_json (encode_bid b);
     json_settle b := toy_json (encode_settle b);
     json_execute b := toy_json (encode_execute b);
     json_fulfill b := toy_json (encode_fulfill b);
     sp1_verify := toy_verify |}.

(** ** Building messages *)

(** Decimal digits of a number, at most [fuel] of them. *)
Fixpoint toy_digits (fuel : nat) (n : N) : bytes :=
  match fuel with
  | O => []
  | S f => if n <? 10 then [48 + n] else toy_digits f (n / 10) ++ [48 + n mod 10]
  end.

Definition toy_num (n : N) : bytes := toy_digits 80 n.
Definition addr (a : N) : bytes := be_bytes 20 a.

Definition toy_domain : N := 42.
Definition dom : bytes := be_bytes 32 toy_domain.

(** Signed in the binary format, respectively the JSON format. *)
Definition sign_bin {B} (enc : B -> bytes) (who : N) (b : B) : signed B :=
  Signed 1 (toy_sig who (enc b)) (Some b).
Definition sign_json {B} (enc : B -> bytes) (who : N) (b : B) : signed B :=
  Signed 2 (toy_sig who (123 :: enc b ++ [125])) (Some b).

(** The people. *)
Definition alice : N := 1001.
Definition bob : N := 1002.
Definition owner1 : N := 1003.
Definition prover1 : N := 1004.
Definition auctioneer1 : N := 1005.
Definition executor1 : N := 1006.
Definition verifier1 : N := 1007.
Definition treasury1 : N := 1008.
Definition delegate1 : N := 1009.
Definition mallory : N := 1010.

Definition tx_deposit (id block log who amount : N) : tx :=
  TxDeposit (Onchain block log id (DepositAction who amount)).
Definition tx_create (id block log prover owner bips : N) : tx :=
  TxCreateProver (Onchain block log id (CreateProverAction prover owner bips)).

Definition transfer_msg (nonce to amount fee : N) : transfer_body :=
  TransferBody nonce (addr to) (toy_num amount) dom 6 (addr auctioneer1) (toy_num fee).
Definition tx_transfer (from nonce to amount fee : N) : tx :=
  TxTransfer (sign_bin encode_transfer from (transfer_msg nonce to amount fee)).

Definition withdraw_msg (nonce who amount fee : N) : withdraw_body :=
  WithdrawBody nonce (addr who) (toy_num amount) dom 7 (addr auctioneer1) (toy_num fee).
Definition tx_withdraw (from nonce who amount fee : N) : tx :=
  TxWithdraw (sign_json encode_withdraw from (withdraw_msg nonce who amount fee)).

Definition delegation_msg (nonce prover delegate fee : N) : delegation_body :=
  DelegationBody nonce (addr delegate) (addr prover) dom 5 (addr auctioneer1) (toy_num fee).
Definition tx_delegate (owner nonce prover delegate fee : N) : tx :=
  TxDelegate (sign_bin encode_delegation owner (delegation_msg nonce prover delegate fee)).

(** A request for a compressed proof of program version sp1-v6, whose key starts with the word 9 and
    whose public values hash starts with the byte 9. *)
Definition toy_vk : bytes := [0; 0; 0; 9] ++ replicate 28 7.
Definition toy_pvh : bytes := 9 :: replicate 31 1.

Definition request_msg (nonce mode gas_limit base_fee max_price : N) (whitelist : list bytes)
    : request_body :=
  RequestBody nonce toy_vk (primary_version ++ [46; 48]) (Z.of_N mode) 3 [115; 51] 1000 50000
    gas_limit 10 whitelist dom (addr auctioneer1) (addr executor1) (addr verifier1) (Some toy_pvh)
    (toy_num base_fee) (toy_num max_price) 0 (addr treasury1) false.

(** The id of a request signed by [who]. *)
Definition req_id (who : N) (r : request_body) : N := message_id toy_env who (encode_request r).

Definition bid_msg (id price prover : N) : bid_body :=
  BidBody 1 (be_bytes 32 id) (toy_num price) dom (addr prover) 1.
Definition settle_msg (id winner : N) : settle_body :=
  SettleBody 2 (be_bytes 32 id) (addr winner) dom 2.
Definition executed_msg (id pgus : N) : execute_body :=
  ExecuteBody 3 (be_bytes 32 id) 2 (Some toy_pvh) (Some 40000) (Some pgus) dom None None 3.
Definition unexecutable_msg (id punishment : N) : execute_body :=
  ExecuteBody 3 (be_bytes 32 id) 3 None None None dom (Some (toy_num punishment)) (Some 1%Z) 3.
Definition fulfill_msg (id : N) : fulfill_body :=
  FulfillBody 4 (be_bytes 32 id) [] None dom 4.

(** A clear: [requester]'s request [r], bid on by [bidder] for [prover] at [price]; the auctioneer
    says [winner] won. *)
Definition tx_clear (requester : N) (r : request_body) (bidder prover winner price : N)
    (e : N -> execute_body) (verify : N -> fulfill_body -> option bytes) : tx :=
  let id := req_id requester r in
  TxClear (ClearTx
    (sign_bin encode_request requester r)
    (sign_json encode_bid bidder (bid_msg id price prover))
    (sign_bin encode_settle auctioneer1 (settle_msg id winner))
    (sign_bin encode_execute executor1 (e id))
    (Some (sign_bin encode_fulfill bidder (fulfill_msg id)))
    (verify bidder (fulfill_msg id))).

Definition no_verify (_ : N) (_ : fulfill_body) : option bytes := None.
Definition by_verifier (signer : N) (f : fulfill_body) : option bytes :=
  Some (toy_sig verifier1 (be_bytes 32 (message_id toy_env signer (encode_fulfill f)))).

(** ** Running lists of transactions *)

Fixpoint run_txs (E : env) (ts : list tx) (s : full_state) : list event * full_state :=
  match ts with
  | [] => ([], s)
  | t :: rest =>
      let '(s1, r) := execute_full E t s in
      let '(evs, s') := run_txs E rest s1 in
      (EvTx t r :: evs, s')
  end.

Lemma run_txs_history E ts s : history E s (run_txs E ts s).1 (run_txs E ts s).2.
Proof.
  revert s; induction ts as [|t ts IH]; intros s; cbn [run_txs]; [constructor|].
  destruct (execute_full E t s) as [s1 r] eqn:He.
  specialize (IH s1). destruct (run_txs E ts s1) as [evs s'].
  cbn [fst snd] in *. econstructor; [constructor; exact He|exact IH].
Qed.

(** Boolean version of [no_panic]. *)
Definition no_panicb (evs : list event) : bool :=
  forallb (fun tr => match tr.2 with ResPanic _ => false | _ => true end) (txs_of evs).

Lemma no_panicb_ok evs : no_panicb evs = true -> no_panic evs.
Proof.
  unfold no_panicb, no_panic. intros H. rewrite forallb_forall in H.
  apply Forall_forall. intros [t r] Hin%elem_of_list_In. specialize (H _ Hin).
  cbn in *. destruct r; cbn; [tauto|tauto|discriminate].
Qed.

(** ** The sample history *)

Definition world0 : full_state := full_new toy_env toy_domain.

(** Money arrives and a prover is created with a 10% staker share. *)
Definition setup_txs : list tx :=
  [ tx_deposit 1 100 0 alice 1000;
    tx_deposit 2 100 3 bob 500;
    tx_create 3 101 0 prover1 owner1 1000;
    tx_deposit 4 105 1 owner1 50 ].
Definition world1 : full_state := (run_txs toy_env setup_txs world0).2.

(** A request of Alice, and its clearing by prover1 at price 2 with 100 units and base fee 7. *)
Definition request1 : request_body := request_msg 1 2 150 7 3 [addr bob; addr prover1].
Definition clear1 : tx := tx_clear alice request1 owner1 prover1 prover1 2 (fun id => executed_msg id 100) no_verify.
(** The same request, punished instead. *)
Definition punish1 : tx := tx_clear alice request1 owner1 prover1 prover1 2 (fun id => unexecutable_msg id 30) no_verify.
(** A groth16 proof accepted by the named verifier's signature. *)
Definition request2 : request_body := request_msg 2 4 150 7 3 [].
Definition clear2 : tx := tx_clear bob request2 owner1 prover1 prover1 3 (fun id => executed_msg id 150) by_verifier.
(** A clear whose settlement names mallory as the winner. *)
Definition clear_wrong_winner : tx :=
  tx_clear alice request1 owner1 prover1 mallory 2 (fun id => executed_msg id 100) no_verify.

Definition main_txs : list tx :=
  [ tx_transfer alice 1 bob 100 2;
    tx_transfer alice 2 alice 10 1;
    tx_transfer bob 1 alice 5000 1;                (* reverts *)
    clear1;
    clear2;
    tx_delegate owner1 1 prover1 delegate1 3;
    tx_withdraw alice 1 alice 200 2;
    tx_withdraw mallory 1 prover1 20 0;            (* out of the prover account, by a third party *)
    tx_withdraw mallory 2 prover1 1 5;             (* reverts: mallory cannot pay the fee *)
    tx_deposit 5 105 2 bob 77 ].
Definition main_events : list event := (run_txs toy_env main_txs world1).1.
Definition world2 : full_state := (run_txs toy_env main_txs world1).2.

Definition bals (s : full_state) : list N :=
  map (bal (accounts s)) [alice; bob; owner1; prover1; auctioneer1; treasury1; mallory].

(** Running one transaction, when only the result is of interest. *)
Lemma exec_by E t s r : (execute_full E t s).2 = r -> exists s', execute_full E t s = (s', r).
Proof. destruct (execute_full E t s) as [s' r']. cbn. intros ->. now exists s'. Qed.

(** A sample signature is valid. *)
Ltac toy_signed := first
  [ split; [reflexivity|left; split; [reflexivity|vm_compute; reflexivity]]
  | split; [reflexivity|right; split; [reflexivity|eexists; split; [reflexivity|vm_compute; reflexivity]]] ].

(** The transactions on which single-step examples are based. *)
Definition transfer1 : tx := tx_transfer alice 1 bob 100 2.
(** The same message in another envelope: JSON format, hence another signature. *)
Definition transfer1_again : tx :=
  TxTransfer (sign_json encode_transfer alice (transfer_msg 1 bob 100 2)).
Definition transfer_too_much : tx := tx_transfer bob 1 alice 5000 1.
Definition delegate_tx : tx := tx_delegate owner1 1 prover1 delegate1 3.
(** A transfer meant for another network. *)
Definition transfer_elsewhere : tx :=
  let b := transfer_msg 1 bob 100 2 in
  TxTransfer (sign_bin encode_transfer alice
    (TransferBody (tb_nonce b) (tb_to b) (tb_amount b) (be_bytes 32 43) (tb_variant b)
       (tb_auctioneer b) (tb_fee b))).

(** A clear that punishes with a fulfilment of another domain and variant. *)
Definition punish_foreign_fulfil : tx :=
  match punish1 with
  | TxClear c =>
      TxClear (ClearTx (cl_request c) (cl_bid c) (cl_settle c) (cl_execute c)
        (Some (sign_bin encode_fulfill mallory (FulfillBody 4 [] [] None (be_bytes 32 43) 7))) None)
  | t => t
  end.
