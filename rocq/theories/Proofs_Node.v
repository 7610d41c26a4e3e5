(** The proofs of the theorems and examples of [Props_Node.v]. *)
From Coq Require Import ZifyBool ZifyN ZifyNat.
From Verif Require Export ToyNode.
Open Scope N_scope.

Lemma C35_outcome_proof {Ev T} fuel (operation : flow Ev (result T rpc_error)) timeout tr r :
  forall (Hrun : runs (retry_operation fuel operation timeout) tr (Some r)),
  exists start rest before last,
    tr = Clock start :: rest /\ ops tr = concat (map fst before) ++ last /\
    Forall (fun a => runs operation (fst a) (Err (snd a)) /\ temporary (snd a)) before /\
    runs operation last r /\
    length (pauses tr) = length before /\
    (forall k d, nth_error (pauses tr) k = Some d -> interval_no k / 2 <= d <= interval_no k * 3 / 2) /\
    (forall e, r = Err e -> temporary e -> exists limit t d,
       timeout = Some limit /\ In (Clock t) rest /\
       interval_no (length before) / 2 <= d <= interval_no (length before) * 3 / 2 /\
       limit < t - start + d).
Proof.
  intros H. destruct (retry_operation_runs operation _ _ _ _ H)
    as (start & rest & before & Etr & H1 & H2 & H3 & H4 & last & Hl & Ho & Hr & Hout).
  exists start, rest, before, last. split; [exact Etr|]. split; [exact Ho|]. split.
  { apply (Forall_impl _ _ _ H1). intros a [Ha Hb]. split; [exact Ha|now apply transient_spec]. }
  split; [exact Hr|]. split; [exact H2|]. split.
  - intros k d Hk. exact (pauses_from_lookup _ _ _ _ H3 Hk).
  - intros e He Ht. apply (Hout e He). now apply transient_spec.
Qed.

Lemma C35_budget_proof {Ev T} fuel (operation : flow Ev (result T rpc_error)) limit tr o now :
  forall (Hrun : runs (retry_operation fuel operation (Some limit)) tr o) (Hclock : well_timed now tr),
  total_time (pauses tr) <= limit.
Proof.
  intros H Hw. destruct (retry_operation_runs operation _ _ _ _ H) as (start & rest & before & _ & _ & _ & _ & H4 & _).
  exact (H4 _ _ eq_refl Hw).
Qed.

Lemma C35_default_limit_proof {Ev T} fuel (operation : flow Ev (result T rpc_error)) tr o now :
  forall (Hrun : runs (with_retry fuel operation) tr o) (Hclock : well_timed now tr),
  total_time (pauses tr) <= 120 * 10 ^ 9 /\
  (forall e, o = Some (Err e) -> temporary e -> exists start rest t d,
     tr = Clock start :: rest /\ In (Clock t) rest /\ 120 * 10 ^ 9 < t - start + d /\
     interval_no (length (pauses tr)) / 2 <= d <= interval_no (length (pauses tr)) * 3 / 2).
Proof.
  intros H Hw. split.
  - destruct (retry_operation_runs operation _ _ _ _ H) as (start & rest & before & _ & _ & _ & _ & H4 & _).
    exact (H4 _ _ eq_refl Hw).
  - intros e -> He. destruct (retry_operation_runs operation _ _ _ _ H)
      as (start & rest & before & Etr & _ & H2 & _ & _ & last & _ & _ & _ & Hout).
    apply transient_spec in He. destruct (Hout e eq_refl He) as (limit & t & d & [= <-] & Hin & Hd & Hlt).
    rewrite H2. exists start, rest, t, d. auto.
Qed.

Lemma C36_bid_justified_proof fuel n tr r before m answer after :
  forall (Hrun : runs (bid fuel n) tr r) (Hbid : ops tr = before ++ EBid m answer :: after)
    (Hprice : nd_bid n < 2 ^ 256),
  exists owner t t' q earlier nonce details now,
    before = offered n owner t t' q ++ earlier ++ looked_at n (pr_id q) nonce details now /\
    is_bid n nonce (pr_id q) m /\
    (after = [] \/ exists e, answer = Err e /\ temporary e) /\
    (forall c d, nd_throughput n = FFin false c d -> 0 < c -> 0 < d ->
       pr_gas_limit details < 2 ^ 64 -> pr_deadline details - now < 2 ^ 64 - 1 ->
       ~ surely_too_little (pr_gas_limit details) c d (pr_deadline details - now + 1)).
Proof.
  intros H E Hp. destruct (bid_split fuel n tr r before m answer after H E)
    as (owner & t & t' & q & earlier & nonce & d & now & H1 & -> & H3 & H4).
  exists owner, t, t', q, earlier, nonce, d, now. split; [exact H1|]. split; [|split; [exact H3|]].
  - exists (decimal_text (nd_bid n)). split; [apply decimal_text_spec, Hp|reflexivity].
  - intros c dd Ht Hc Hd Hg Hdl. rewrite Ht in H4. exact (required_le _ _ _ _ Hc Hd Hg Hdl H4).
Qed.

Lemma C36_one_acknowledged_proof fuel n tr r before m after :
  forall (Hrun : runs (bid fuel n) tr r) (Hbid : ops tr = before ++ EBid m (Ok tt) :: after), after = [].
Proof.
  intros H E. destruct (bid_split fuel n tr r before m (Ok tt) after H E)
    as (owner & t & t' & q & earlier & nonce & d & now & _ & _ & H3 & _).
  destruct H3 as [->|(e & [=] & _)]. reflexivity.
Qed.

Lemma C36_bids_in_time_proof fuel n tr r owner t t' q earlier nonce details now after c d :
  forall (Hrun : runs (bid fuel n) tr r)
    (Hlooked : ops tr = offered n owner t t' q ++ earlier ++ looked_at n (pr_id q) nonce details now ++ after)
    (Hthroughput : nd_throughput n = FFin false c d) (Hc : 0 < c) (Hd : 0 < d)
    (Hgas : pr_gas_limit details < 2 ^ 64)
    (Htime : surely_enough (pr_gas_limit details) c d (pr_deadline details - now + 1)),
  exists m answer after', after = EBid m answer :: after' /\ s_body m <> None.
Proof.
  intros H E Ht Hc Hd Hg Htime. destruct (bid_made _ _ _ _ _ _ _ _ _ _ _ _ _ H E) as [(_ & _ & Hlt)|(a & post & ->)].
  - exfalso. rewrite Ht in Hlt. exact (required_gt _ _ _ _ Hc Hd Hg Hlt Htime).
  - eexists _, a, post. split; [reflexivity|]. discriminate.
Qed.

Lemma C36_round_end_proof fuel n tr owner t t' q rest :
  forall (Hrun : runs (bid fuel n) tr RDone) (Hoffer : ops tr = offered n owner t t' q ++ rest),
  exists earlier nonce details now,
    (exists m, rest = earlier ++ looked_at n (pr_id q) nonce details now ++ [EBid m (Ok tt)]) \/
    (rest = earlier ++ looked_at n (pr_id q) nonce details now /\
     (forall c d, nd_throughput n = FFin false c d -> 0 < c -> 0 < d -> pr_gas_limit details < 2 ^ 64 ->
        ~ surely_enough (pr_gas_limit details) c d (pr_deadline details - now + 1))).
Proof.
  intros H E. destruct (bid_end _ _ _ _ _ _ _ _ H E) as (earlier & nonce & d & now & [->|[-> Hlt]]);
    exists earlier, nonce, d, now.
  - left. eauto.
  - right. split; [reflexivity|]. intros c dd Ht Hc Hd Hg. rewrite Ht in Hlt. exact (required_gt _ _ _ _ Hc Hd Hg Hlt).
Qed.

Lemma C36_bid_case_proof : runs (bid 12 toy_node) toy_bid_twice RDone /\ well_timed 0 toy_bid_twice /\
  nd_bid toy_node < 2 ^ 256 /\
  ops toy_bid_twice = (offered toy_node toy_owner 1000 1001 toy_request ++
    (looked_at toy_node [9; 9] 3 toy_request 1002 ++ [EBid (bid_message toy_node 3 [9; 9]) (Err toy_down)]) ++
    looked_at toy_node [9; 9] 4 toy_request 1003) ++ EBid (bid_message toy_node 4 [9; 9]) (Ok tt) :: [] /\
  surely_enough 100 5 2 (1060 - 1003 + 1) /\ ~ surely_too_little 100 5 2 (1060 - 1003 + 1) /\
  surely_too_little 100 5 2 (1060 - 1021).
Proof.
  split; [replay_node|]. split; [cbn; lia|]. split; [reflexivity|]. split; [reflexivity|].
  unfold surely_enough, surely_too_little. vm_compute. intuition discriminate.
Qed.

Lemma C37_never_both_proof fuel n tr r now id :
  forall (Hrun : runs (prove fuel n) tr r) (Hclock : well_timed now tr) (Hfuel : (12 <= fuel)%nat)
    (Hlist : forall f qs, In (EList f (Ok qs)) (ops tr) -> NoDup (map pr_id qs)),
  ~ ((exists e, In e (ops tr) /\ fulfils id e) /\ (exists e, In e (ops tr) /\ fails id e)).
Proof.
  intros H Hw Hf Hl [(e1 & I1 & F1) (e2 & I2 & F2)].
  assert (Quiet : forall owner t x e, In e (asked_assigned n owner t x) -> ~ fulfils id e /\ ~ fails id e).
  { intros owner t x e Hin. split; intros (m & r0 & b & -> & _); cbn in Hin; intuition discriminate. }
  destruct (prove_runs fuel n tr r now H Hw Hf) as [(e & E & _)|[(owner & t & e & E & _)|(owner & t & qs & segs & Hcase)]].
  - rewrite E in I1. destruct I1 as [<-|[]]. destruct F1 as (m & r0 & b & [=] & _).
  - rewrite E in I1. destruct (Quiet _ _ _ _ I1). easy.
  - assert (Hnd : NoDup (map pr_id qs)).
    { apply (Hl (RequestFilter 2 t (Some owner) None 1) qs).
      destruct Hcase as [(_ & -> & _)|(qs1 & q & qs2 & last & _ & -> & _)]; apply in_or_app; left; cbn; auto. }
    destruct Hcase as [(_ & E & HF)|(qs1 & q & qs2 & last & -> & E & HF & Hab)]; rewrite E in I1, I2.
    + apply in_app_or in I1. apply in_app_or in I2.
      destruct I1 as [I1|I1]; [destruct (Quiet _ _ _ _ I1); easy|].
      destruct I2 as [I2|I2]; [destruct (Quiet _ _ _ _ I2); easy|].
      exact (handled_all n qs segs id HF Hnd e1 e2 I1 I2 F1 F2).
    + apply in_app_or in I1. apply in_app_or in I2.
      destruct I1 as [I1|I1]; [destruct (Quiet _ _ _ _ I1); easy|].
      destruct I2 as [I2|I2]; [destruct (Quiet _ _ _ _ I2); easy|].
      apply in_app_or in I1. apply in_app_or in I2.
      destruct I1 as [I1|I1]; [|destruct (abandoned_quiet _ _ _ id _ Hab I1); easy].
      destruct I2 as [I2|I2]; [|destruct (abandoned_quiet _ _ _ id _ Hab I2); easy].
      rewrite map_app in Hnd. apply NoDup_app in Hnd.
      exact (handled_all n qs1 segs id HF (proj1 Hnd) e1 e2 I1 I2 F1 F2).
Qed.

Lemma C37_round_case_proof : runs (prove 12 toy_node) toy_prove RDone /\ well_timed 0 toy_prove /\
  NoDup (map pr_id [toy_request; toy_request2]) /\
  (exists e, In e (ops toy_prove) /\ fulfils [9; 9] e) /\ (exists e, In e (ops toy_prove) /\ fails [9; 8] e).
Proof.
  split; [replay_node|]. split; [cbn; lia|]. split.
  { cbn. apply NoDup_cons. split; [|apply NoDup_singleton]. rewrite elem_of_list_singleton. discriminate. }
  split.
  - exists (EFulfill (fulfill_message toy_node 3 [9; 9] [8; 8]) (Ok tt)). split; [cbn; tauto|].
    eexists _, _, _. split; [reflexivity|]. split; reflexivity.
  - exists (EFail (fail_message toy_node 4 [9; 8]) (Ok tt)). split; [cbn; tauto|].
    eexists _, _, _. split; [reflexivity|]. split; reflexivity.
Qed.

Lemma C58_bid_verifies_proof E fuel n tr r m answer :
  forall (Hrun : runs (bid fuel n) tr r) (Hbid : In (EBid m answer) (ops tr))
    (Hkey : forall message, ecrecover E message (nd_sign n message) = Some (nd_address n))
    (Hparse : forall text v, is_decimal v text -> v < 2 ^ 256 -> parse_u256 E text = Some v)
    (Hprice : nd_bid n < 2 ^ 256) (Hprover : nd_prover n < 2 ^ 160) (Hdomain : nd_domain n < 2 ^ 256),
  exists body, signed_by E encode_bid (json_bid E) m body (nd_address n) /\
    parse_u256 E (bb_amount body) = Some (nd_bid n) /\
    as_address (bb_prover body) = Some (nd_prover n) /\
    as_word (bb_domain body) = Some (nd_domain n) /\
    bb_variant body = 1%Z.
Proof.
  intros H Hin Hkey Hparse Hb Hp Hd. apply in_split in Hin. destruct Hin as (pre & post & E0).
  destruct (bid_split fuel n tr r pre m answer post H E0) as (owner & t & t' & q & earlier & nonce & d & now & _ & -> & _).
  exists (bid_body_of n nonce (pr_id q)). split; [|split; [|split; [|split]]].
  - split; [reflexivity|]. left. split; [reflexivity|]. apply Hkey.
  - apply Hparse; [now apply decimal_text_spec|exact Hb].
  - now apply address_of_be_bytes.
  - now apply b256_of_be_bytes.
  - reflexivity.
Qed.

Lemma C58_fulfilment_verifies_proof E fuel n tr r now m answer :
  forall (Hrun : runs (prove fuel n) tr r) (Hclock : well_timed now tr) (Hfuel : (12 <= fuel)%nat)
    (Hsent : In (EFulfill m answer) (ops tr))
    (Hkey : forall message, ecrecover E message (nd_sign n message) = Some (nd_address n))
    (Hdomain : nd_domain n < 2 ^ 256),
  exists body, signed_by E encode_fulfill (json_fulfill E) m body (nd_address n) /\
    as_word (fb_domain body) = Some (nd_domain n) /\
    fb_variant body = 4%Z.
Proof.
  intros H Hw Hf Hin Hkey Hd. destruct (fulfil_sent fuel n tr r now m answer H Hw Hf Hin) as (id & proof & nonce & ->).
  exists (fulfill_body_of n nonce id proof). split; [|split].
  - split; [reflexivity|]. left. split; [reflexivity|]. apply Hkey.
  - now apply b256_of_be_bytes.
  - reflexivity.
Qed.

Lemma C58_case_proof :
  (forall message, ecrecover toy_env message (nd_sign toy_node message) = Some (nd_address toy_node)) /\
  In (EBid (bid_message toy_node 4 [9; 9]) (Ok tt)) (ops toy_bid_twice) /\
  In (EFulfill (fulfill_message toy_node 3 [9; 9] [8; 8]) (Ok tt)) (ops toy_prove) /\
  (forall text v, is_decimal v text -> v < 2 ^ 256 -> parse_u256 toy_env text = Some v).
Proof.
  split; [intros message; apply toy_signs; vm_compute; reflexivity|]. split; [cbn; tauto|]. split; [cbn; tauto|]. exact toy_reads.
Qed.

Lemma C59_single_bid_refuted_proof : exists n tr before m1 a1 middle m2 a2 after,
  runs (bid 12 n) tr RDone /\ well_timed 0 tr /\
  ops tr = before ++ EBid m1 a1 :: middle ++ EBid m2 a2 :: after.
Proof.
  eexists toy_node, toy_bid_twice, _, _, _, (looked_at toy_node [9; 9] 4 toy_request 1003), _, _, [].
  split; [replay_node|]. split; [cbn; lia|].
  exact (eq_refl : ops toy_bid_twice = (offered toy_node toy_owner 1000 1001 toy_request ++ looked_at toy_node [9; 9] 3 toy_request 1002) ++
    EBid (bid_message toy_node 3 [9; 9]) (Err toy_down) :: looked_at toy_node [9; 9] 4 toy_request 1003 ++
    [EBid (bid_message toy_node 4 [9; 9]) (Ok tt)]).
Qed.

Lemma C60_every_request_resolved_refuted_proof : exists n tr r f q,
  runs (prove 12 n) tr r /\ well_timed 0 tr /\ In (EList f (Ok [q])) (ops tr) /\
  forall e, In e (ops tr) -> ~ fulfils (pr_id q) e /\ ~ fails (pr_id q) e.
Proof.
  exists toy_node, toy_prove_lost, (RError toy_gone), (RequestFilter 2 1000 (Some toy_owner) None 1), toy_request.
  split; [replay_node|]. split; [cbn; lia|]. split; [cbn; auto|].
  intros e Hin. split; intros (m & r & b & -> & _); cbn in Hin; intuition discriminate.
Qed.
