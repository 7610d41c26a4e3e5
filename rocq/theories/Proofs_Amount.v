(** The proofs of the theorems and examples of [Props_Amount.v]. *)
From Coq Require Import ZifyBool ZifyN ZifyNat.
From Verif Require Export MarketSpec ToyAmount Proofs_Node.
From Verif Require Import Proofs_Ledger Proofs_Clients.
Open Scope N_scope.

Lemma C75_amounts_proof text n : u256_from_str text = Some n <-> amount_text text n /\ n < 2 ^ 256.
Proof. exact (u256_from_str_spec text n). Qed.

Lemma C75_decimal_proof text n :
  forall (Hdecimal : is_decimal n text) (Hn : n < 2 ^ 256), u256_from_str text = Some n.
Proof. exact (u256_of_decimal n text). Qed.

Section ledger.
  Context (E : env) (Hparse : forall text, parse_u256 E text = u256_from_str text).

  Lemma parsed text n : parse_u256 E text = Some n -> amount_text text n.
  Proof. rewrite Hparse. intros H%u256_from_str_spec. tauto. Qed.

  Lemma C75_transfer_proof s s' t body r :
    forall (Hbody : s_body t = Some body)
      (Hexec : execute_full E (TxTransfer t) s = (s', ResOk r)),
    exists from to amount auctioneer fee,
      signed_by E encode_transfer (json_transfer E) t body from /\ as_address (tb_to body) = Some to /\
      as_address (tb_auctioneer body) = Some auctioneer /\
      amount_text (tb_amount body) amount /\ amount_text (tb_fee body) fee /\
      moves (payments (ATransfer from to amount auctioneer fee)) (vs_accounts (contents s)) (vs_accounts (contents s')).
  Proof.
    intros Hb He.
    assert (Hl : lstep E (contents s) (TxTransfer t) (contents s') (ResOk r)).
    { apply C44_specification_proof. exists s'. split; [exact He|]. split; [reflexivity|]. intros []. }
    remember (contents s') as l eqn:El. inversion Hl as [| | | | |t0 body0 from to amount auctioneer fee A' Hok Hle Hm Et Es Er| | | | | |]; subst t0.
    destruct Hok as [Hs Hv Hd Hf Hto Ha Hfee Hauc Hfits].
    assert (body0 = body) as -> by (destruct Hs as [Hs _]; congruence).
    exists from, to, amount, auctioneer, fee. split; [exact Hs|]. split; [exact Hto|]. split; [exact Hauc|].
    split; [now apply parsed|]. split; [now apply parsed|]. exact Hm.
  Qed.

  Lemma C76_settled_proof fuel n tr r m answer c s s' res :
    forall (Hrun : runs (bid fuel n) tr r) (Hbid : In (EBid m answer) (ops tr))
      (Hkey : forall message, ecrecover E message (nd_sign n message) = Some (nd_address n))
      (Hprice : nd_bid n < 2 ^ 256) (Hprover : nd_prover n < 2 ^ 160) (Hdomain : nd_domain n < 2 ^ 256)
      (Hclear : cl_bid c = m)
      (Hexec : execute_full E (TxClear c) s = (s', res)) (Hok : ~ is_panic res),
    exists t' owner q request requester account executed executor max_price,
      In (EList (RequestFilter 1 t' None (Some owner) 1) (Ok [q])) (ops tr) /\
      signed_by E encode_request (json_request E) (cl_request c) request requester /\
      pr_id q = be_bytes 32 (message_id E requester (encode_request request)) /\
      signed_by E encode_execute (json_execute E) (cl_execute c) executed executor /\
      as_address (rb_executor request) = Some executor /\
      amount_text (rb_max_price_per_pgu request) max_price /\ nd_bid n <= max_price /\
      vs_domain (contents s) = nd_domain n /\
      vs_accounts (contents s) !! nd_prover n = Some account /\ acc_signer account = nd_address n /\
      bid_outcome n request max_price requester account executed (vs_accounts (contents s)) (vs_accounts (contents s')) res.
  Proof.
    intros Hrun Hin Hkey Hb Hp Hd Hclear Hexec Hres.
    assert (Hl : lstep E (contents s) (TxClear c) (contents s') res).
    { apply C44_specification_proof. exists s'. auto. }
    apply in_split in Hin. destruct Hin as (pre & post & E0).
    destruct (bid_split fuel n tr r pre m answer post Hrun E0) as (owner & t & t' & q & earlier & nonce & d & now & E1 & E2 & _).
    assert (Hlist : In (EList (RequestFilter 1 t' None (Some owner) 1) (Ok [q])) (ops tr)).
    { rewrite E0, E1. unfold offered. cbn. auto 10. }
    assert (Hauth : forall x settle bidder auctioneer executor pa,
      clear_authorised E (vs_domain (contents s)) (vs_accounts (contents s)) (vs_transactions (contents s)) c x settle
        bidder auctioneer executor pa ->
      (signed_by E encode_request (json_request E) (cl_request c) (cc_request x) (cc_requester x) /\
       pr_id q = be_bytes 32 (message_id E (cc_requester x) (encode_request (cc_request x))) /\
       signed_by E encode_execute (json_execute E) (cl_execute c) (cc_execute x) executor /\
       as_address (rb_executor (cc_request x)) = Some executor /\
       amount_text (rb_max_price_per_pgu (cc_request x)) (cc_max_price x) /\ nd_bid n <= cc_max_price x /\
       vs_domain (contents s) = nd_domain n /\
       vs_accounts (contents s) !! nd_prover n = Some pa /\ acc_signer pa = nd_address n) /\
      cc_price x = nd_bid n /\ cc_prover x = nd_prover n /\ cc_prover_owner x = acc_owner pa /\
      amount_text (rb_base_fee (cc_request x)) (cc_base_fee x)).
    { intros x settle bidder auctioneer executor pa
        [Hrq Hbd Hst Hex _ _ _ _ _ Hdm _ _ Hid Hbid _ _ _ Hprv Hpa Hown Hsig _ _ Hexr Hbase Hmax Hpr Hle].
      rewrite Hclear, E2 in Hbd. destruct Hbd as [Hbd Hsg]. cbn [bid_message s_body s_format s_signature] in Hbd, Hsg.
      injection Hbd as Hbd. rewrite <- Hbd in Hdm, Hbid, Hprv, Hpr. cbn [bid_body_of bb_domain bb_request_id bb_prover bb_amount] in Hdm, Hbid, Hprv, Hpr.
      destruct Hsg as [[_ Hsg]|[Hfmt _]]; [|discriminate]. rewrite <- Hbd, Hkey in Hsg. injection Hsg as <-.
      assert (cc_price x = nd_bid n) as Epr.
      { rewrite Hparse, (u256_of_decimal (nd_bid n)) in Hpr; [congruence| |exact Hb]. now apply decimal_text_spec. }
      assert (cc_prover x = nd_prover n) as Epv.
      { change as_address with address_of_bytes in Hprv. rewrite address_of_be_bytes in Hprv by exact Hp. congruence. }
      assert (vs_domain (contents s) = nd_domain n) as Edm.
      { change as_word with b256_of_bytes in Hdm. rewrite b256_of_be_bytes in Hdm by exact Hd. congruence. }
      rewrite <- Hid. rewrite <- Epr, <- Epv. split; [|repeat split; auto using parsed].
      repeat match goal with |- _ /\ _ => split end; auto using parsed. }
    remember (contents s') as l eqn:El.
    inversion Hl; subst;
      match goal with H : clear_authorised _ _ _ _ _ ?x _ _ _ ?ex ?pa |- _ =>
        destruct (Hauth _ _ _ _ _ _ H) as [Hall (Epr & Epv & Eow & Hbf)];
        exists t', owner, q, (cc_request x), (cc_requester x), pa, (cc_execute x), ex, (cc_max_price x);
        split; [exact Hlist|];
        destruct Hall as (K1 & K2 & K3 & K4 & K5 & K6 & K7 & K8 & K9);
        do 9 (split; [assumption|]) end.
    - match goal with H : clear_punishable _ _ _ |- _ => destruct H as [? (text & ? & ?%parsed) ? ?] end.
      econstructor; eassumption.
    - match goal with H : clear_punishable _ _ _ |- _ => destruct H as [? (text & ? & ?%parsed) ? ?] end.
      econstructor; eassumption.
    - match goal with H : clear_priced _ _ _ |- _ => destruct H as [? ? ? ?] end.
      match goal with H : clear_fulfilled _ _ _ _ _ _ _ _ |- _ => destruct H end.
      unfold clear_cost in *. rewrite Epr in *. econstructor; eassumption.
    - match goal with H : clear_priced _ _ _ |- _ => destruct H as [? ? ? ?] end.
      match goal with H : clear_fulfilled _ _ _ _ _ _ _ _ |- _ => destruct H end.
      unfold clear_cost in *. rewrite Epr, Epv, Eow in *. econstructor; eassumption.
  Qed.

  Lemma C76_as_any_other_proof fuel n tr r m answer b c b0 s s0 res :
    forall (Hrun : runs (bid fuel n) tr r) (Hbid : In (EBid m answer) (ops tr)) (Hb : s_body m = Some b)
      (Hkey : forall message, ecrecover E message (nd_sign n message) = Some (nd_address n))
      (Hprice : nd_bid n < 2 ^ 256) (Hprover : nd_prover n < 2 ^ 160)
      (Hnetwork : vs_domain (contents s) = nd_domain n) (Hdomain : nd_domain n < 2 ^ 256)
      (Hsigner : forall a, vs_accounts (contents s) !! nd_prover n = Some a -> acc_signer a = nd_address n)
      (Hexec : execute_full E (TxClear c) s = (s0, res)) (Hok : ~ is_panic res)
      (Hb0 : s_body (cl_bid c) = Some b0) (Hid : bb_request_id b = bb_request_id b0)
      (Hfor : as_address (bb_prover b0) = Some (nd_prover n)) (Hamount : amount_text (bb_amount b0) (nd_bid n)),
    exists s1,
      execute_full E (TxClear (ClearTx (cl_request c) m (cl_settle c) (cl_execute c) (cl_fulfill c) (cl_verify c))) s =
        (s1, res) /\ contents s1 = contents s0.
  Proof.
    intros Hrun Hin Hb Hkey Hpr Hpv Hnet Hdom Hsig Hexec Hok Hb0 Hid Hfor Ham.
    assert (Hl : lstep E (contents s) (TxClear c) (contents s0) res).
    { apply C44_specification_proof. exists s0. auto. }
    set (c' := ClearTx _ _ _ _ _ _).
    enough (Hl' : lstep E (contents s) (TxClear c') (contents s0) res).
    { apply C44_specification_proof in Hl'. destruct Hl' as (s1 & H1 & H2 & _). eauto. }
    apply in_split in Hin. destruct Hin as (pre & post & E0).
    destruct (bid_split fuel n tr r pre m answer post Hrun E0) as (owner & t & t' & q & earlier & nonce & d & now & _ & Em & _).
    assert (Hbb : b = bid_body_of n nonce (pr_id q)) by (subst m; cbn in Hb; congruence).
    pose (swap := fun x => ClearCtx (cc_request x) b (cc_execute x) (cc_requester x) (cc_request_id x) (cc_prover x)
                             (cc_prover_owner x) (cc_base_fee x) (cc_max_price x) (cc_price x)).
    assert (Hauth : forall x settle bidder auctioneer executor pa,
      clear_authorised E (vs_domain (contents s)) (vs_accounts (contents s)) (vs_transactions (contents s)) c x settle
        bidder auctioneer executor pa ->
      clear_authorised E (vs_domain (contents s)) (vs_accounts (contents s)) (vs_transactions (contents s)) c' (swap x) settle
        bidder auctioneer executor pa).
    { intros x settle bidder auctioneer executor pa Ha.
      pose proof (ca_bid _ _ _ _ _ _ _ _ _ _ _ Ha) as [Hbd _].
      assert (Eb : cc_bid x = b0) by congruence.
      pose proof (ca_prover _ _ _ _ _ _ _ _ _ _ _ Ha) as Hpx. rewrite Eb, Hfor in Hpx. injection Hpx as Hpx.
      pose proof (ca_price _ _ _ _ _ _ _ _ _ _ _ Ha) as Hprx. rewrite Eb, Hparse in Hprx.
      assert (Hprice : u256_from_str (bb_amount b0) = Some (nd_bid n)) by (apply u256_from_str_spec; auto).
      rewrite Hprice in Hprx. injection Hprx as Hprx.
      pose proof (ca_prover_acct _ _ _ _ _ _ _ _ _ _ _ Ha) as Hpa.
      pose proof (ca_prover_signer _ _ _ _ _ _ _ _ _ _ _ Ha) as Hps.
      rewrite <- Hpx in Hpa. rewrite (Hsig pa Hpa) in Hps.
      destruct Ha. constructor; cbn [swap cc_request cc_bid cc_execute cc_requester cc_request_id cc_prover
        cc_prover_owner cc_base_fee cc_max_price cc_price cl_request cl_bid cl_settle cl_execute cl_fulfill cl_verify c'];
        try assumption.
      - split; [exact Hb|]. left. rewrite Em, Hbb. split; [reflexivity|]. cbn. rewrite <- Hps. apply Hkey.
      - rewrite Hbb. reflexivity.
      - rewrite Hbb. rewrite Hnet. now apply b256_of_be_bytes.
      - rewrite Hid, <- Eb. assumption.
      - rewrite Hbb. cbn. rewrite <- Hpx. now apply address_of_be_bytes.
      - rewrite Hbb. cbn. rewrite Hparse, <- Hprx. apply u256_of_decimal; [|exact Hpr]. now apply decimal_text_spec. }
    remember (contents s0) as l eqn:El. clear El Hexec Em.
    inversion Hl; subst l res;
      match goal with H : clear_authorised _ _ _ _ _ ?x _ _ _ _ _ |- _ =>
        pose proof (Hauth _ _ _ _ _ _ H) as Ha;
        change (cc_request_id x) with (cc_request_id (swap x)); change (cc_requester x) with (cc_requester (swap x)) end.
    - eapply step_punish_revert; [exact Ha| |assumption].
      match goal with H : clear_punishable _ _ _ |- _ => destruct H; constructor; assumption end.
    - eapply step_punish; [exact Ha| |eassumption|eassumption|eassumption].
      match goal with H : clear_punishable _ _ _ |- _ => destruct H; constructor; assumption end.
    - match goal with |- context [clear_cost ?x ?p] => change (clear_cost x p) with (clear_cost (swap x) p) end.
      eapply step_clear_revert; [exact Ha| | |].
      + match goal with H : clear_fulfilled _ _ _ _ _ _ _ _ |- _ => destruct H; constructor; eassumption end.
      + match goal with H : clear_priced _ _ _ |- _ => destruct H; constructor; assumption end.
      + assumption.
    - eapply step_clear; [exact Ha| | | | | | |].
      + match goal with H : clear_fulfilled _ _ _ _ _ _ _ _ |- _ => destruct H; constructor; eassumption end.
      + match goal with H : clear_priced _ _ _ |- _ => destruct H; constructor; eassumption end.
      + eassumption.
      + eassumption.
      + eassumption.
      + eassumption.
      + eassumption.
  Qed.
End ledger.

Lemma C77_balance_proof fuel address tr o now :
  forall (Hrun : runs (fetch_balance fuel address) tr o) (Hclock : well_timed now tr) (Hfuel : (12 <= fuel)%nat),
  exists before answer,
    ops tr = before ++ [QBalance address answer] /\
    Forall (fun e => exists error, e = QBalance address (Err error) /\ temporary error) before /\
    (forall e, answer = Err e -> o = Some (Err (BalanceRpc e))) /\
    (forall text n, answer = Ok text -> amount_text text n -> n < 2 ^ 256 -> o = Some (Ok n)) /\
    (forall text, answer = Ok text -> (forall n, amount_text text n -> 2 ^ 256 <= n) -> o = Some (Err BalanceText)).
Proof.
  intros H Hw Hf. apply fetch_balance_runs in H. destruct H as (r & H & Ho).
  destruct (with_retry_bounded _ _ _ _ _ H Hw) as [_ Hsome]. specialize (Hsome Hf). destruct r as [r|]; [|easy].
  destruct (C35_outcome_proof _ _ _ _ _ H) as (start & rest & before & last & Etr & Hops & Hb & Hl & _).
  assert (Hask : forall t x, runs (ask (QBalance address)) t x -> t = [QBalance address x]).
  { intros t x Ht. apply runs_ask in Ht. exact Ht. }
  exists (concat (map fst before)), r. split; [rewrite Hops; f_equal; now apply Hask|]. split.
  - clear -Hb Hask. induction Hb as [|a before [Ha Ht] Hb IH]; cbn; [constructor|].
    rewrite (Hask _ _ Ha). constructor; [eauto|exact IH].
  - rewrite Ho. split; [intros e ->; reflexivity|]. split.
    + intros text n -> Ha Hn. assert (u256_from_str text = Some n) as -> by (apply u256_from_str_spec; auto). reflexivity.
    + intros text -> Hno. destruct (u256_from_str text) as [n|] eqn:En; [|reflexivity].
      apply u256_from_str_spec in En. destruct En as [Ha Hn]. apply Hno in Ha. unfold two256 in Hn. lia.
Qed.

Lemma timestamp_range t : from_unix_timestamp t = Some t /\ (new_year (-9999) <= t < new_year 10000)%Z \/
  from_unix_timestamp t = None /\ ~ (new_year (-9999) <= t < new_year 10000)%Z.
Proof.
  assert (E1 : new_year (-9999) = (-377705116800)%Z) by reflexivity.
  assert (E2 : new_year 10000 = 253402300800%Z) by reflexivity.
  rewrite E1, E2. unfold from_unix_timestamp.
  destruct ((-377705116800 <=? t) && (t <=? 253402300799))%Z eqn:E; [left|right]; (split; [reflexivity|lia]).
Qed.

Lemma C77_price_read_proof s t p :
  forall (Hread : parse_prove_price s t = Ok p),
  pp_as_of p = t /\ (new_year (-9999) <= t < new_year 10000)%Z /\
  1 <= pp_usd_micros p /\ pp_usd_micros p < 2 ^ 64 /\
  exists text a b, padded s text /\ literal text a b /\ 0 < a /\ 0 < b /\
    2 ^ 52 * (pp_usd_micros p * b) <= 2 ^ 51 * b + 2 ^ 52 * (1000000 * a) + 2 * (1000000 * a) /\
    2 ^ 52 * (1000000 * a) <= 2 ^ 51 * b + 2 ^ 52 * (pp_usd_micros p * b) + 2 * (1000000 * a).
Proof.
  unfold parse_prove_price. destruct (parse_usd_micros s) as [k|e] eqn:Ek; [|discriminate].
  destruct (timestamp_range t) as [[-> Hr]|[-> _]]; [|discriminate]. intros [= <-]. cbn [pp_as_of pp_usd_micros].
  destruct (C55_accepted_is_near_proof s k Ek) as (H1 & H2 & H3). auto.
Qed.

Lemma C77_price_accepts_proof s text a b t :
  forall (Hpadded : padded s text) (Hnumber : literal text a b)
    (Hmin : b <= 1000000 * a) (Hmax : 1000000 * a <= 2 ^ 63 * b),
  ((new_year (-9999) <= t < new_year 10000)%Z -> exists p, parse_prove_price s t = Ok p) /\
  (~ (new_year (-9999) <= t < new_year 10000)%Z -> parse_prove_price s t = Err (InvalidTimestamp t)) /\
  (forall m, 1000000 * a = m * b -> m < 2 ^ 50 -> (new_year (-9999) <= t < new_year 10000)%Z ->
     parse_prove_price s t = Ok (ProvePrice m t)).
Proof.
  intros Hp Hl H1 H2. destruct (C55_accepts_proof s text a b Hp Hl H1 H2) as [k Hk]. unfold parse_prove_price.
  split; [|split].
  - intros Ht. rewrite Hk. destruct (timestamp_range t) as [[-> _]|[_ Hno]]; [eauto|easy].
  - intros Ht. rewrite Hk. destruct (timestamp_range t) as [[_ Hno]|[-> _]]; [easy|reflexivity].
  - intros m Hm Hlt Ht. assert (1 <= m).
    { destruct (N.eq_dec m 0) as [->|]; [|lia]. pose proof (literal_den text a b Hl). nia. }
    rewrite (C55_exact_proof s text a b m Hp Hl Hm) by assumption.
    destruct (timestamp_range t) as [[-> _]|[_ Hno]]; [reflexivity|easy].
Qed.

Lemma C75_example_proof :
  amount_text [49; 95; 48; 53; 48] 1050 /\ amount_text [48; 120; 70; 102] 255 /\ amount_text [48; 98; 49; 48; 49] 5 /\
  amount_text [] 0 /\ u256_from_str [49; 95; 48; 53; 48] = Some 1050 /\ u256_from_str [48; 120; 70; 102] = Some 255 /\
  u256_from_str [] = Some 0 /\ u256_from_str [45; 49] = None /\ u256_from_str [49; 46; 48] = None /\
  u256_from_str [49; 97] = None /\ is_decimal 1050 [49; 48; 53; 48].
Proof.
  assert (H : forall text n, u256_from_str text = Some n -> amount_text text n).
  { intros text n Hn. apply u256_from_str_spec in Hn. tauto. }
  repeat match goal with |- _ /\ _ => split end; try (apply H; vm_compute; reflexivity); try (vm_compute; reflexivity).
  split; [|split; [discriminate|reflexivity]]. apply Forall_forall. intros x Hx.
  apply elem_of_list_In in Hx. cbn in Hx. lia.
Qed.

Lemma C75_transfer_case_proof :
  exists s', execute_full amount_env hex_transfer world1 = (s', ResOk None) /\
    map (fun who => (bal (vs_accounts (contents world1)) who, bal (vs_accounts (contents s')) who)) [alice; bob; auctioneer1] =
    [(1000, 959); (500, 531); (0, 10)].
Proof. eexists. split; [vm_compute; reflexivity|vm_compute; reflexivity]. Qed.

Lemma market_required : required_time (pr_gas_limit market_request) (nd_throughput market_node) = 40.
Proof. vm_compute. reflexivity. Qed.

Lemma market_bid_runs : runs (bid 12 market_node) market_bid RDone.
Proof.
  unfold market_bid, market_request. generalize market_id. intros id.
  do 20 (lazymatch goal with
  | |- Flow.runs ?p _ _ =>
      let p' := eval hnf in p in change p with p';
      lazymatch p' with
      | Flow.Do _ _ _ => cbn [runs]; eexists; eexists; split; [reflexivity|]; cbv beta zeta
      | Flow.Ret _ => split; reflexivity
      end
  | _ => idtac
  end).
Qed.

Lemma C76_case_proof :
  (forall message, ecrecover amount_env message (nd_sign market_node message) = Some (nd_address market_node)) /\
  (forall text, parse_u256 amount_env text = u256_from_str text) /\
  runs (bid 12 market_node) market_bid RDone /\
  In (EBid (cl_bid market_clear) (Ok tt)) (ops market_bid) /\
  exists s', execute_full amount_env (TxClear market_clear) world1 = (s', ResOk None) /\
    map (fun who => (bal (vs_accounts (contents world1)) who, bal (vs_accounts (contents s')) who)) [alice; prover1; owner1] =
    [(1000, 793); (0, 20); (50, 237)].
Proof.
  split; [intros message; apply (toy_signs owner1); reflexivity|]. split; [reflexivity|]. split; [exact market_bid_runs|].
  split; [cbn; tauto|]. eexists. split; [vm_compute; reflexivity|vm_compute; reflexivity].
Qed.

Lemma C77_balance_case_proof :
  runs (fetch_balance 12 [1; 2]) toy_balance (Some (Ok 16)) /\ well_timed 0 toy_balance /\
  amount_text [48; 120; 49; 48] 16.
Proof.
  split; [replay_node|]. split; [cbn; lia|]. apply (u256_from_str_spec [48; 120; 49; 48] 16). reflexivity.
Qed.

Lemma C77_price_case_proof :
  padded [32; 48; 46; 50; 51; 51; 55; 32] [48; 46; 50; 51; 51; 55] /\ literal [48; 46; 50; 51; 51; 55] 2337 10000 /\
  10000 <= 1000000 * 2337 /\ 1000000 * 2337 <= 2 ^ 63 * 10000 /\ 1000000 * 2337 = 233700 * 10000 /\
  (new_year (-9999) <= 1700000000 < new_year 10000)%Z /\ new_year 2000 = 946684800%Z /\
  parse_prove_price [32; 48; 46; 50; 51; 51; 55; 32] 1700000000 = Ok (ProvePrice 233700 1700000000) /\
  parse_prove_price [48; 46; 52] 253402300799 = Ok (ProvePrice 400000 253402300799) /\
  parse_prove_price [48; 46; 52] 253402300800 = Err (InvalidTimestamp 253402300800) /\
  parse_prove_price [48] 1700000000 = Err (BadPrice PriceConversion).
Proof.
  destruct C55_example_proof as (H1 & H2 & _). split; [exact H1|]. split; [exact H2|].
  repeat match goal with |- _ /\ _ => split end; try (vm_compute; reflexivity); vm_compute; discriminate.
Qed.
