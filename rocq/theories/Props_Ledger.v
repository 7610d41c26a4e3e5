(** Properties of the ledger, for every external environment [E], every full state and every
    transaction or history. *)
From Verif Require Import Proofs_Ledger.
From Coq Require Import ZifyBool ZifyN ZifyNat.
Open Scope N_scope.

(** ** C01: funds are conserved *)

Theorem C01_funds_conserved E s evs s' :
  forall (Hhistory : history E s evs s') (Hnopanic : no_panic evs),
  total_balance (accounts s') + sum (withdrawn E) (txs_of evs)
  = total_balance (accounts s) + sum deposited (txs_of evs).
Proof. exact (C01_funds_conserved_proof E s evs s'). Qed.
Print Assumptions C01_funds_conserved.

Example C01_example :
  history toy_env world1 main_events world2 /\ no_panic main_events /\
  (total_balance (accounts world1), sum deposited (txs_of main_events),
   sum (withdrawn toy_env) (txs_of main_events), total_balance (accounts world2))
  = (1550, 77, 220, 1407).
Proof. split; [apply main_history|]. split; [apply main_no_panic|]. vm_compute. reflexivity. Qed.

(** ** C02: an applied transaction changes exactly the balances it should *)

Theorem C02_balances_exact E s t s' o :
  forall (Happlied : execute_full E t s = (s', ResOk o)),
  (exists a, asks E (accounts s) t a) /\
  forall a, asks E (accounts s) t a ->
  forall who, Z.of_N (bal (accounts s') who) = (Z.of_N (bal (accounts s) who) + net (payments a) who)%Z.
Proof. exact (C02_balances_exact_proof E s t s' o). Qed.
Print Assumptions C02_balances_exact.

Example C02_example :
  (exists s', execute_full toy_env clear1 world1 = (s', ResOk None)) /\
  asks toy_env (accounts world1) clear1 (AClear alice treasury1 prover1 owner1 207 1000) /\
  map (net (payments (AClear alice treasury1 prover1 owner1 207 1000))) [alice; prover1; owner1; bob]
  = [-207; 20; 187; 0]%Z.
Proof. exact C02_example_proof. Qed.

(** ** C03: a signed message takes effect at most once *)

Theorem C03_message_once E s t s1 r evs s2 t' s3 r' who bs :
  forall (Hfirst : execute_full E t s = (s1, r)) (Hnopanic : ~ is_panic r)
    (Hmessage : consumes E t who bs)
    (Hlater : history E s1 evs s2)
    (Hsame : consumes E t' who bs)
    (Hagain : execute_full E t' s2 = (s3, r')),
  is_panic r'.
Proof. exact (C03_message_once_proof E s t s1 r evs s2 t' s3 r' who bs). Qed.
Print Assumptions C03_message_once.

(** The same message in another envelope, after the whole sample history. *)
Example C03_example :
  (exists s1, execute_full toy_env transfer1 world1 = (s1, ResOk None)) /\
  consumes toy_env transfer1 alice (encode_transfer (transfer_msg 1 bob 100 2)) /\
  consumes toy_env transfer1_again alice (encode_transfer (transfer_msg 1 bob 100 2)) /\
  transfer1 <> transfer1_again /\
  (exists s3 id, execute_full toy_env transfer1_again world2
                 = (s3, ResPanic (TransactionAlreadyProcessed id))).
Proof. exact C03_example_proof. Qed.

(** ** C04: a reverted transaction moves no money and is consumed *)

Theorem C04_revert_is_clean E s t s' v :
  forall (Hreverted : execute_full E t s = (s', ResRevert v)),
  accounts s' = accounts s /\
  cursor s' = cursor s /\
  vs_domain s' = vs_domain s /\
  vs_tx_id s' = (vs_tx_id s + 1) mod 2 ^ 64 /\
  (exists who bs, consumes E t who bs /\
     ~ processed E s (message_id E who bs) /\ processed E s' (message_id E who bs) /\
     forall id, short_id id <> short_id (message_id E who bs) -> processed E s' id <-> processed E s id) /\
  (exists who required,
     revert_data v = (who, required, bal (accounts s) who) /\ bal (accounts s) who < required).
Proof. exact (C04_revert_is_clean_proof E s t s' v). Qed.
Print Assumptions C04_revert_is_clean.

Example C04_example :
  exists s', execute_full toy_env transfer_too_much world1
             = (s', ResRevert (InsufficientTransferBalance bob 5001 500)).
Proof. apply exec_by. vm_compute. reflexivity. Qed.

(** ** C05: the transaction counter counts the transactions that did not panic *)

Theorem C05_counter E s evs s' :
  forall (Hhistory : history E s evs s') (Hu64 : vs_tx_id s < 2 ^ 64),
  vs_tx_id s' = (vs_tx_id s + sum counted (txs_of evs)) mod 2 ^ 64.
Proof. exact (C05_counter_proof E s evs s'). Qed.
Print Assumptions C05_counter.

(** Ten transactions that count and one that panics. *)
Example C05_example :
  exists evs s', history toy_env world1 evs s' /\ vs_tx_id world1 = 5 /\ length (txs_of evs) = 11%nat /\
    sum counted (txs_of evs) = 10 /\ vs_tx_id s' = 15.
Proof. exact C05_example_proof. Qed.

(** ** C06: on-chain transactions are applied once, in order, without gaps *)

Theorem C06_onchain_order E s evs s' :
  forall (Hhistory : history E s evs s') (Hnopanic : no_panic evs)
    (Hu64 : vs_onchain_tx_id s < 2 ^ 64),
  let applied := onchain_applied (txs_of evs) in
  let position (s : full_state) := (vs_onchain_block s, vs_onchain_log_index s) in
  let positions := map (fun x => (x.1.2, x.2)) applied in
  map (fun x => x.1.1) applied = consecutive (vs_onchain_tx_id s) (length applied) /\
  ascending (position s) positions /\
  vs_onchain_tx_id s' = (vs_onchain_tx_id s + N.of_nat (length applied)) mod 2 ^ 64 /\
  position s' = last_or (position s) positions.
Proof. exact (C06_onchain_order_proof E s evs s'). Qed.
Print Assumptions C06_onchain_order.

Example C06_example :
  let evs := (run_txs toy_env (setup_txs ++ main_txs) world0).1 in
  history toy_env world0 evs (run_txs toy_env (setup_txs ++ main_txs) world0).2 /\ no_panic evs /\
  onchain_applied (txs_of evs) = [(1, 100, 0); (2, 100, 3); (3, 101, 0); (4, 105, 1); (5, 105, 2)].
Proof. exact C06_example_proof. Qed.

(** ** C07: nobody's balance goes down without their authorisation *)

Theorem C07_authorised E s t s' r who :
  forall (Hrun : execute_full E t s = (s', r)) (Hnopanic : ~ is_panic r)
    (Hless : bal (accounts s') who < bal (accounts s) who),
  (exists m body amount fee, t = TxTransfer m /\
     signed_by E encode_transfer (json_transfer E) m body who /\
     parse_u256 E (tb_amount body) = Some amount /\ parse_u256 E (tb_fee body) = Some fee /\
     drops_at_most s s' who (amount + fee)) \/
  (exists m body fee, t = TxDelegate m /\
     signed_by E encode_delegation (json_delegation E) m body who /\
     parse_u256 E (db_fee body) = Some fee /\ drops_at_most s s' who fee) \/
  (exists m body account amount fee, t = TxWithdraw m /\
     signed_by E encode_withdraw (json_withdraw E) m body who /\
     as_address (wb_account body) = Some account /\
     parse_u256 E (wb_amount body) = Some amount /\ parse_u256 E (wb_fee body) = Some fee /\
     drops_at_most s s' who (if account =? who then amount + fee else fee)) \/
  (exists m body signer amount, t = TxWithdraw m /\
     signed_by E encode_withdraw (json_withdraw E) m body signer /\
     as_address (wb_account body) = Some who /\
     acc_owner (acct (accounts s) who) <> 0 /\
     parse_u256 E (wb_amount body) = Some amount /\
     r = ResOk (Some (RWithdraw (OffchainReceipt StCompleted (WithdrawAction who amount)))) /\
     drops_at_most s s' who amount) \/
  (exists c request base_fee max_price, t = TxClear c /\
     signed_by E encode_request (json_request E) (cl_request c) request who /\
     parse_u256 E (rb_base_fee request) = Some base_fee /\
     parse_u256 E (rb_max_price_per_pgu request) = Some max_price /\
     drops_at_most s s' who (base_fee + max_price * rb_gas_limit request)).
Proof. exact (C07_authorised_proof E s t s' r who). Qed.
Print Assumptions C07_authorised.

(** Alice pays for her request; the prover's account pays for a withdrawal started by somebody else. *)
Example C07_example :
  let s1 := (execute_full toy_env clear1 world1).1 in
  let t := tx_withdraw mallory 1 prover1 20 0 in
  (execute_full toy_env clear1 world1).2 = ResOk None /\
  (bal (accounts s1) alice, bal (accounts world1) alice) = (793, 1000) /\
  (execute_full toy_env t s1).2
  = ResOk (Some (RWithdraw (OffchainReceipt StCompleted (WithdrawAction prover1 20)))) /\
  (bal (accounts (execute_full toy_env t s1).1) prover1, bal (accounts s1) prover1) = (0, 20).
Proof. vm_compute. auto. Qed.

(** ** C08: ownership, signer and staker share *)

Theorem C08_account_fields E s t s' r a :
  forall (Hrun : execute_full E t s = (s', r)) (Hnopanic : ~ is_panic r),
  let old := acct (accounts s) a in
  let new := acct (accounts s') a in
  (acc_owner new <> acc_owner old \/ acc_bips new <> acc_bips old ->
   exists c o, t = TxCreateProver c /\ r = ResOk o /\ cp_prover (oc_action c) = a /\
     acc_owner new = cp_owner (oc_action c) /\ acc_signer new = cp_owner (oc_action c) /\
     acc_bips new = cp_bips (oc_action c)) /\
  (acc_signer new <> acc_signer old ->
   (exists c o, t = TxCreateProver c /\ r = ResOk o /\ cp_prover (oc_action c) = a /\
     acc_signer new = cp_owner (oc_action c)) \/
   (exists d body o, t = TxDelegate d /\ r = ResOk o /\
     signed_by E encode_delegation (json_delegation E) d body (acc_owner old) /\
     as_address (db_prover body) = Some a /\
     as_address (db_delegate body) = Some (acc_signer new))).
Proof. exact (C08_account_fields_proof E s t s' r a). Qed.
Print Assumptions C08_account_fields.

Example C08_example :
  (execute_full toy_env delegate_tx world1).2 = ResOk None /\
  acct (accounts world1) prover1 = Account 0 owner1 owner1 1000 /\
  acct (accounts (execute_full toy_env delegate_tx world1).1) prover1
  = Account 0 owner1 delegate1 1000.
Proof. vm_compute. auto. Qed.

(** ** C09: a clear only pays when every designated party signed *)

Theorem C09_clear_requires_signatures E s c s' r execute :
  forall (Hrun : execute_full E (TxClear c) s = (s', r)) (Hnopanic : ~ is_panic r)
    (Hreport : s_body (cl_execute c) = Some execute)
    (Hsuccess : eb_execution_status execute <> 3%Z),
  exists request requester bid bidder settle auctioneer executor fm fulfill fulfiller prover pa pvh,
    let id := be_bytes 32 (message_id E requester (encode_request request)) in
    (* five signed messages *)
    signed_by E encode_request (json_request E) (cl_request c) request requester /\
    signed_by E encode_bid (json_bid E) (cl_bid c) bid bidder /\
    signed_by E encode_settle (json_settle E) (cl_settle c) settle auctioneer /\
    signed_by E encode_execute (json_execute E) (cl_execute c) execute executor /\
    cl_fulfill c = Some fm /\
    signed_by E encode_fulfill (json_fulfill E) fm fulfill fulfiller /\
    (* of the right types *)
    (rb_variant request, bb_variant bid, sb_variant settle, eb_variant execute, fb_variant fulfill)
      = (0, 1, 2, 3, 4)%Z /\
    (* for this ledger *)
    Forall (fun d => as_word d = Some (vs_domain s))
      [rb_domain request; bb_domain bid; sb_domain settle; eb_domain execute; fb_domain fulfill] /\
    (* about the same request, which is new *)
    Forall (fun x => x = id)
      [bb_request_id bid; sb_request_id settle; eb_request_id execute; fb_request_id fulfill] /\
    ~ processed E s (message_id E requester (encode_request request)) /\
    (* by the designated parties *)
    as_address (bb_prover bid) = Some prover /\
    accounts s !! prover = Some pa /\ acc_signer pa = bidder /\
    as_address (rb_auctioneer request) = Some auctioneer /\
    as_address (rb_executor request) = Some executor /\
    (rb_whitelist request = [] \/ be_bytes 20 prover ∈ rb_whitelist request) /\
    (* with a successful execution and a proof *)
    eb_execution_status execute = 2%Z /\
    eb_public_values_hash execute = Some pvh /\
    (forall h, rb_public_values_hash request = Some h -> h = pvh) /\
    length pvh = 32%nat /\ length (rb_vk_hash request) = 32%nat /\
    (* checked by the circuit itself for compressed proofs of version 6 (mode 2), and vouched for by
       the verifier the requester named in the other cases (3 is Plonk, 4 is Groth16) *)
    ((is_sp1_v6 (rb_version request) /\ rb_mode request = 2%Z /\
      sp1_verify E (vk_words (rb_vk_hash request)) pvh = true) \/
     ((rb_mode request = 4%Z \/ rb_mode request = 3%Z \/
       (rb_mode request = 2%Z /\ ~ is_sp1_v6 (rb_version request))) /\
      exists sig verifier, cl_verify c = Some sig /\
        ecrecover E (be_bytes 32 (message_id E fulfiller (encode_fulfill fulfill))) sig = Some verifier /\
        as_address (rb_verifier request) = Some verifier)).
Proof. exact (C09_clear_requires_signatures_proof E s c s' r execute). Qed.
Print Assumptions C09_clear_requires_signatures.

(** One clear accepted by the recursive verifier, one by the named verifier's signature. *)
Example C09_example :
  (execute_full toy_env clear1 world1).2 = ResOk None /\
  (execute_full toy_env clear2 world1).2 = ResOk None /\
  rb_mode request1 = 2%Z /\ rb_mode request2 = 4%Z.
Proof. vm_compute. auto. Qed.

(** ** C10: the requester never pays more than the signed maximum *)

Theorem C10_requester_maximum E s c s' o request requester :
  forall (Happlied : execute_full E (TxClear c) s = (s', ResOk o))
    (Hrequest : signed_by E encode_request (json_request E) (cl_request c) request requester),
  exists base_fee max_price,
    parse_u256 E (rb_base_fee request) = Some base_fee /\
    parse_u256 E (rb_max_price_per_pgu request) = Some max_price /\
    let maximum := base_fee + max_price * rb_gas_limit request in
    ((exists treasury punishment,
        asks E (accounts s) (TxClear c) (APunish requester treasury punishment) /\
        punishment <= maximum) \/
     (exists bid bidder execute executor price pgus treasury prover prover_owner bips,
        signed_by E encode_bid (json_bid E) (cl_bid c) bid bidder /\
        signed_by E encode_execute (json_execute E) (cl_execute c) execute executor /\
        parse_u256 E (bb_amount bid) = Some price /\ price <= max_price /\
        eb_pgus execute = Some pgus /\ pgus <= rb_gas_limit request /\
        asks E (accounts s) (TxClear c)
          (AClear requester treasury prover prover_owner (price * pgus + base_fee) bips) /\
        price * pgus + base_fee <= maximum)) /\
    bal (accounts s) requester <= bal (accounts s') requester + maximum.
Proof. exact (C10_requester_maximum_proof E s c s' o request requester). Qed.
Print Assumptions C10_requester_maximum.

(** Payment and punishment of the same request, whose maximum is 7 + 3 * 150 = 457. *)
Example C10_example :
  (execute_full toy_env clear1 world1).2 = ResOk None /\
  bal (accounts (execute_full toy_env clear1 world1).1) alice = 1000 - (2 * 100 + 7) /\
  (execute_full toy_env punish1 world1).2 = ResOk None /\
  bal (accounts (execute_full toy_env punish1 world1).1) alice = 1000 - 30 /\
  signed_by toy_env encode_request (json_request toy_env)
    (sign_bin encode_request alice request1) request1 alice.
Proof. do 4 (split; [vm_compute; reflexivity|]). toy_signed. Qed.

(** ** C11: the fee split *)

Theorem C11_fee_split amount protocol_bips staker_bips protocol staker owner :
  forall (Hfee : fee amount protocol_bips staker_bips = Ok (protocol, staker, owner)),
  protocol = amount * protocol_bips / 10000 /\
  staker = amount * capped protocol_bips staker_bips / 10000 /\
  protocol + staker + owner = amount.
Proof. exact (C11_fee_split_proof amount protocol_bips staker_bips protocol staker owner). Qed.
Print Assumptions C11_fee_split.

Theorem C11_fee_domain amount protocol_bips staker_bips :
  forall (Hamount : amount < 2 ^ 256),
  (exists parts, fee amount protocol_bips staker_bips = Ok parts) <->
  (protocol_bips <= 10000 /\ staker_bips <= 10000 /\
   amount * protocol_bips < 2 ^ 256 /\ amount * capped protocol_bips staker_bips < 2 ^ 256).
Proof. exact (C11_fee_domain_proof amount protocol_bips staker_bips). Qed.
Print Assumptions C11_fee_domain.

Example C11_example : fee 1000007 300 9900 = Ok (30000, 970006, 1).
Proof. vm_compute. reflexivity. Qed.

(** ** C12: receipts *)

Theorem C12_receipts E s evs s' :
  forall (Hhistory : history E s evs s') (Hnopanic : no_panic evs),
  receipts_of (txs_of evs) = receipts_due E (txs_of evs).
Proof. exact (C12_receipts_proof E s evs s'). Qed.
Print Assumptions C12_receipts.

Example C12_example :
  history toy_env world1 main_events world2 /\ no_panic main_events /\
  receipts_of (txs_of main_events)
  = [ RWithdraw (OffchainReceipt StCompleted (WithdrawAction alice 200));
      RWithdraw (OffchainReceipt StCompleted (WithdrawAction prover1 20));
      RDeposit (OnchainReceipt 5 StCompleted (DepositAction bob 77)) ].
Proof. split; [apply main_history|]. split; [apply main_no_panic|]. vm_compute. reflexivity. Qed.

(** The form in which L1 sees the receipts of an applied transaction. *)
Theorem C12_receipt_on_l1 E s t s' rc :
  forall (Happlied : execute_full E t s = (s', ResOk (Some rc))),
  let l1 := sol_of_receipt rc in
  sr_status l1 = StCompleted /\
  match t with
  | TxDeposit d => sr_variant l1 = VDeposit /\ sr_tx_id l1 = oc_tx d /\
      sr_action l1 = be_bytes 32 (da_account (oc_action d)) ++ be_bytes 32 (da_amount (oc_action d))
  | TxCreateProver c => sr_variant l1 = VCreateProver /\ sr_tx_id l1 = oc_tx c /\
      sr_action l1 = be_bytes 32 (cp_prover (oc_action c)) ++ be_bytes 32 (cp_owner (oc_action c)) ++
                     be_bytes 32 (cp_bips (oc_action c))
  | TxWithdraw _ => sr_variant l1 = VWithdraw /\ sr_tx_id l1 = 2 ^ 64 - 1 /\
      exists signer account amount auctioneer fee,
        asks E (accounts s) t (AWithdraw signer account amount auctioneer fee) /\
        sr_action l1 = be_bytes 32 account ++ be_bytes 32 amount
  | _ => False
  end.
Proof. exact (C12_receipt_on_l1_proof E s t s' rc). Qed.
Print Assumptions C12_receipt_on_l1.

Example C12_example_l1 :
  exists s', execute_full toy_env (tx_withdraw alice 1 alice 200 2) world1
  = (s', ResOk (Some (RWithdraw (OffchainReceipt StCompleted (WithdrawAction alice 200))))).
Proof. apply exec_by. vm_compute. reflexivity. Qed.

(** ** C13: arithmetic never wraps *)

Theorem C13_balances_fit E s evs s' :
  forall (Hhistory : history E s evs s') (Hfits : forall a, bal (accounts s) a < 2 ^ 256),
  forall a, bal (accounts s') a < 2 ^ 256.
Proof. exact (C13_balances_fit_proof E s evs s'). Qed.
Print Assumptions C13_balances_fit.

Example C13_example : history toy_env world1 main_events world2 /\
  forall a, bal (accounts world1) a < 2 ^ 256.
Proof. split; [apply main_history|]. apply bounded_by_list. vm_compute. reflexivity. Qed.

(** When the exact new balance of some account would be negative or too large, the transaction is not
    applied; a deposit then panics. *)
Theorem C13_no_wrap E s t s' r a who :
  forall (Hrun : execute_full E t s = (s', r))
    (Hfits : forall a, bal (accounts s) a < 2 ^ 256)
    (Hasks : asks E (accounts s) t a)
    (Hbad : let exact := (Z.of_N (bal (accounts s) who) + net (payments a) who)%Z in
            (exact < 0 \/ 2 ^ 256 <= exact)%Z),
  (forall o, r <> ResOk o) /\ (forall d, t = TxDeposit d -> is_panic r).
Proof. exact (C13_no_wrap_proof E s t s' r a who). Qed.
Print Assumptions C13_no_wrap.

(** A deposit that would overflow Alice's balance. *)
Example C13_example_overflow :
  let t := tx_deposit 5 106 0 alice (2 ^ 256 - 1) in
  (execute_full toy_env t world1).2 = ResPanic ArithmeticOverflow /\
  asks toy_env (accounts world1) t (ADeposit alice (2 ^ 256 - 1)) /\
  (2 ^ 256 <= Z.of_N (bal (accounts world1) alice)
             + net (payments (ADeposit alice (2 ^ 256 - 1))) alice)%Z.
Proof. exact C13_example_overflow_proof. Qed.

(** ** C14: messages of another network or of another type *)

Theorem C14_signed_message_checked E s t s' r :
  forall (Hrun : execute_full E t s = (s', r)) (Hnopanic : ~ is_panic r),
  match t with
  | TxDeposit _ | TxCreateProver _ => True
  | TxDelegate d => exists b, s_body d = Some b /\
      as_word (db_domain b) = Some (vs_domain s) /\ db_variant b = 5%Z
  | TxTransfer d => exists b, s_body d = Some b /\
      as_word (tb_domain b) = Some (vs_domain s) /\ tb_variant b = 6%Z
  | TxWithdraw d => exists b, s_body d = Some b /\
      as_word (wb_domain b) = Some (vs_domain s) /\ wb_variant b = 7%Z
  | TxClear c =>
      (exists b, s_body (cl_request c) = Some b /\
         as_word (rb_domain b) = Some (vs_domain s) /\ rb_variant b = 0%Z) /\
      (exists b, s_body (cl_bid c) = Some b /\
         as_word (bb_domain b) = Some (vs_domain s) /\ bb_variant b = 1%Z) /\
      (exists b, s_body (cl_settle c) = Some b /\
         as_word (sb_domain b) = Some (vs_domain s) /\ sb_variant b = 2%Z) /\
      (exists b, s_body (cl_execute c) = Some b /\
         as_word (eb_domain b) = Some (vs_domain s) /\ eb_variant b = 3%Z /\
         (eb_execution_status b = 3%Z \/
          exists f b', cl_fulfill c = Some f /\ s_body f = Some b' /\
            as_word (fb_domain b') = Some (vs_domain s) /\ fb_variant b' = 4%Z))
  end.
Proof. exact (C14_signed_message_checked_proof E s t s' r). Qed.
Print Assumptions C14_signed_message_checked.

Example C14_example :
  (execute_full toy_env transfer_elsewhere world1).2 = ResPanic (DomainMismatch 42 43) /\
  (execute_full toy_env transfer1 world1).2 = ResOk None.
Proof. vm_compute. auto. Qed.

(** The fulfilment inside a clear that punishes is not looked at: here it carries another domain. *)
Theorem C14_fulfil_ignored_when_punishing :
  exists s' c f b, punish_foreign_fulfil = TxClear c /\ cl_fulfill c = Some f /\ s_body f = Some b /\
    as_word (fb_domain b) = Some 43 /\ vs_domain world1 = 42 /\ fb_variant b = 7%Z /\
    execute_full toy_env punish_foreign_fulfil world1 = (s', ResOk None).
Proof. exact C14_fulfil_ignored_when_punishing_proof. Qed.
Print Assumptions C14_fulfil_ignored_when_punishing.

(** ** C27: which messages the replay check confuses *)

(** A transaction that does not panic marks its own message, and with it exactly the ids with the same
    first 20 bytes. *)
Theorem C27_marks E s t s' r who bs :
  forall (Hrun : execute_full E t s = (s', r)) (Hnopanic : ~ is_panic r)
    (Hmessage : consumes E t who bs),
  forall id, processed E s' id <-> processed E s id \/ short_id id = short_id (message_id E who bs).
Proof. exact (C27_marks_proof E s t s' r who bs). Qed.
Print Assumptions C27_marks.

(** A message is blocked by any processed id with the same first 20 bytes. *)
Theorem C27_blocks E s t s' r who bs id :
  forall (Hrun : execute_full E t s = (s', r)) (Hmessage : consumes E t who bs)
    (Hprocessed : processed E s id) (Hsame : short_id id = short_id (message_id E who bs)),
  is_panic r.
Proof. exact (C27_blocks_proof E s t s' r who bs id). Qed.
Print Assumptions C27_blocks.

(** Nothing else about the processed ids matters: two states that differ only there, and agree on the
    transaction's own message, give the same result and the same accounts (or both panic). *)
Theorem C27_no_other_blocks E s1 s2 t s1' r :
  forall (Hrun : execute_full E t s1 = (s1', r)) (Hnopanic : ~ is_panic r)
    (Haccounts : accounts s1 = accounts s2) (Hcursor : cursor s1 = cursor s2)
    (Hdomain : vs_domain s1 = vs_domain s2) (Hcounter : vs_tx_id s1 = vs_tx_id s2)
    (Hown : forall who bs, consumes E t who bs ->
       processed E s1 (message_id E who bs) <-> processed E s2 (message_id E who bs)),
  exists s2', execute_full E t s2 = (s2', r) /\ accounts s2' = accounts s1'.
Proof. exact (C27_no_other_blocks_proof E s1 s2 t s1' r). Qed.
Print Assumptions C27_no_other_blocks.

(** Two different ids that are confused, and two that are not. *)
Example C27_example :
  short_id (5 * 2 ^ 96 + 1) = short_id (5 * 2 ^ 96 + 2) /\
  short_id (5 * 2 ^ 96) <> short_id (6 * 2 ^ 96) /\
  processed toy_env world2 (message_id toy_env alice (encode_transfer (transfer_msg 1 bob 100 2))).
Proof. split; [vm_compute; reflexivity|]. split; [vm_compute; discriminate|]. vm_compute. reflexivity. Qed.

(** ** C42: is the paid prover the auction winner? *)

(** The settlement's winner has no influence: with any other settlement of the same request signed by the
    same auctioneer, whatever winner it names, the clear has the same result and the same effect. *)
Theorem C42_winner_irrelevant E s c s' r settle auctioneer settlement2 settle2 :
  forall (Hrun : execute_full E (TxClear c) s = (s', r)) (Hnopanic : ~ is_panic r)
    (Hsettle : signed_by E encode_settle (json_settle E) (cl_settle c) settle auctioneer)
    (Hsettle2 : signed_by E encode_settle (json_settle E) settlement2 settle2 auctioneer)
    (Hid : sb_request_id settle2 = sb_request_id settle)
    (Hdomain : sb_domain settle2 = sb_domain settle)
    (Hvariant : sb_variant settle2 = sb_variant settle),
  let c2 := ClearTx (cl_request c) (cl_bid c) settlement2 (cl_execute c) (cl_fulfill c) (cl_verify c) in
  exists s2, execute_full E (TxClear c2) s = (s2, r) /\ contents s2 = contents s'.
Proof. exact (C42_winner_irrelevant_proof E s c s' r settle auctioneer settlement2 settle2). Qed.
Print Assumptions C42_winner_irrelevant.

(** A settlement that names somebody else as the winner does not stop the payment. *)
Theorem C42_winner_paid_refuted :
  exists E s c s' settle auctioneer bid bidder prover,
    execute_full E (TxClear c) s = (s', ResOk None) /\
    signed_by E encode_settle (json_settle E) (cl_settle c) settle auctioneer /\
    signed_by E encode_bid (json_bid E) (cl_bid c) bid bidder /\
    as_address (bb_prover bid) = Some prover /\
    bal (accounts s) prover < bal (accounts s') prover /\
    sb_winner settle <> bb_prover bid /\
    as_address (sb_winner settle) = Some mallory.
Proof. exact C42_winner_paid_refuted_proof. Qed.
Print Assumptions C42_winner_paid_refuted.

(** ** C43: what is remembered *)

Theorem C43_monotone E s evs s' :
  forall (Hhistory : history E s evs s'),
  (forall id, processed E s id -> processed E s' id) /\
  (forall a, is_Some (accounts s !! a) -> is_Some (accounts s' !! a)).
Proof. exact (C43_monotone_proof E s evs s'). Qed.
Print Assumptions C43_monotone.

Theorem C43_flags_true E s evs s' :
  forall (Hhistory : history E s evs s') (Hnopanic : no_panic evs)
    (Hstart : forall i b, flags s !! i = Some b -> b = true),
  forall i b, flags s' !! i = Some b -> b = true.
Proof. exact (C43_flags_true_proof E s evs s'). Qed.
Print Assumptions C43_flags_true.

Example C43_example :
  history toy_env world1 main_events world2 /\ no_panic main_events /\
  length (map_to_list (flags world1)) = 0%nat /\ length (map_to_list (flags world2)) = 9%nat /\
  forallb (fun kb => kb.2) (map_to_list (flags world2)) = true.
Proof. split; [apply main_history|]. split; [apply main_no_panic|]. vm_compute. auto. Qed.

(** ** C44: the transition relation is exactly what [execute] does when it does not panic *)

Theorem C44_specification E s t l r :
  lstep E (contents s) t l r <->
  exists s', execute_full E t s = (s', r) /\ contents s' = l /\ ~ is_panic r.
Proof. exact (C44_specification_proof E s t l r). Qed.
Print Assumptions C44_specification.

Example C44_example : exists l, lstep toy_env (contents world1) clear1 l (ResOk None).
Proof. exact C44_example_proof. Qed.
