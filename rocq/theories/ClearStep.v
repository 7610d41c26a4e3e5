(** Inversion of the clear transaction, and of [execute] as a whole. *)
From Verif Require Export LedgerStep.
From Coq Require Import ZifyBool ZifyN ZifyNat.
Open Scope N_scope.

Lemma rbind_ok {X Y} (r : result X panic) (f : X -> result Y panic) y :
  rbind r f = Ok y -> exists x, r = Ok x /\ f x = Ok y.
Proof. destruct r; cbn; [eauto|discriminate]. Qed.

(** The fee split with no protocol fee. *)
Lemma fee_inv cost bips p st ow :
  fee cost protocol_fee_bips bips = Ok (p, st, ow) ->
  bips <= 10000 /\ cost * bips < two256 /\ p = 0 /\ st = cost * bips / 10000 /\ ow = cost - st /\
  st <= cost.
Proof.
  unfold fee, protocol_fee_bips. cbn zeta.
  change (10000 <? 0) with false. cbn match.
  destruct (10000 <? bips) eqn:Hb; [discriminate|]. apply N.ltb_ge in Hb.
  intros H.
  apply rbind_ok in H as (t1 & H1 & H). apply u256_add_ok in H1 as [-> _].
  rewrite N.add_0_l in H.
  replace (10000 <? bips) with false in H by (symmetry; now apply N.ltb_ge).
  apply rbind_ok in H as (t2 & H1 & H). injection H1 as <-.
  apply rbind_ok in H as (t3 & H1 & H). apply u256_add_ok in H1 as [-> _].
  rewrite N.add_0_l in H.
  replace (10000 <? bips) with false in H by (symmetry; now apply N.ltb_ge).
  repeat (apply rbind_ok in H as (? & ? & H)). arith_inv.
  injection H as <- <- <-.
  rewrite N.mul_0_r in *. change (0 / 10000) with 0 in *. rewrite N.sub_0_r in *.
  repeat split; auto.
Qed.

Lemma clear_checks_inv E c s s' x :
  run_map (clear_checks E c) s = (s', Ok x) ->
  exists settle bidder auctioneer executor pa,
  clear_authorised E (vs_domain s) (vs_accounts s) (vs_transactions s) c x settle bidder auctioneer
    executor pa /\
  s' = with_transactions (<[request_index (cc_request_id x) := false]> (vs_transactions s)) s.
Proof.
  unfold clear_checks. intros H. repeat run_step. simp_state. arith_inv.
  do 5 eexists. split; [|reflexivity].
  repeat match goal with
  | H : variant_of_tag _ = Some _ |- _ => apply variant_of_tag_inv in H
  | H : variant_eqb _ _ = true |- _ => apply variant_eqb_eq in H
  end. subst.
  constructor; cbn [cc_request cc_bid cc_execute cc_requester cc_request_id cc_prover
    cc_prover_owner cc_base_fee cc_max_price cc_price]; try assumption; try reflexivity;
    try (eapply signed_by_intro; eassumption).
  all: try eassumption.
  match goal with H : _ || _ = true |- _ => apply orb_true_iff in H as [H|H];
    apply bool_decide_eq_true in H; auto end.
Qed.

Lemma clear_punish_inv E x s s' o :
  (eb_execution_status (cc_execute x) =? status_unexecutable)%Z = true ->
  run_map (clear_punish E x) s = (s', Ok o) ->
  exists punishment,
  clear_punishable E x punishment /\
  ((bal (vs_accounts s) (cc_requester x) < punishment /\
    o = Reverted (InsufficientPunishmentBalance (cc_requester x) punishment
                    (bal (vs_accounts s) (cc_requester x))) /\
    s' = with_transactions (<[request_index (cc_request_id x) := true]> (vs_transactions s)) s) \/
   (exists treasury A', punishment <= bal (vs_accounts s) (cc_requester x) /\
    as_address (rb_treasury (cc_request x)) = Some treasury /\
    moves (payments (APunish (cc_requester x) treasury punishment)) (vs_accounts s) A' /\
    o = Applied None /\
    s' = with_accounts A'
      (with_transactions (<[request_index (cc_request_id x) := true]> (vs_transactions s)) s))).
Proof.
  intros Hst. unfold clear_punish. intros H. repeat run_step. simp_state.
  match goal with H : run_map (if ?b then _ else _) _ = _ |- _ => destruct b eqn:Hlt end;
    repeat run_step; simp_state; arith_inv; apply Z.eqb_eq in Hst.
  - eexists. split; [constructor; eauto|]. left. repeat split; auto.
  - eexists. split; [constructor; eauto|]. right.
    do 2 eexists. split; [eassumption|]. split; [eassumption|]. split; [|split; reflexivity].
    repeat first [eapply moves_pay; [eassumption|] | eapply moves_receive; [eassumption|]].
    apply moves_nil.
Qed.

Lemma array32_inv bs b : array32 bs = Some b -> b = bs /\ length bs = 32%nat.
Proof.
  unfold array32. destruct (length bs =? 32)%nat eqn:H; [|discriminate].
  intros [= <-]. apply Nat.eqb_eq in H. auto.
Qed.

Lemma mode_of_tag_inv z m :
  mode_of_tag z = Some m ->
  z = match m with UnspecifiedMode => 0 | CoreMode => 1 | CompressedMode => 2 | PlonkMode => 3
      | Groth16Mode => 4 end%Z.
Proof.
  unfold mode_of_tag. intros H.
  destruct z as [|[[p|p|]|[[p|p|]|[p|p|]|]|]|p]; try discriminate; injection H as <-; reflexivity.
Qed.

Lemma sp1_v6_eq version : starts_with version primary_version = true <-> is_sp1_v6 version.
Proof.
  unfold is_sp1_v6. change primary_version with [115; 112; 49; 45; 118; 54].
  generalize [115; 112; 49; 45; 118; 54]. intros prefix. revert version.
  induction prefix as [|p ps IH]; intros version; cbn.
  - split; [eauto|now destruct version].
  - destruct version as [|x xs]; [split; [discriminate|intros [r Hr]; discriminate]|].
    cbn. rewrite andb_true_iff, N.eqb_eq, IH. split.
    + intros [-> [r ->]]. eauto.
    + intros [r Hr]. injection Hr as -> ->. eauto.
Qed.

Lemma vk_words_eq vk : bytes_to_words_be vk = vk_words vk.
Proof. reflexivity. Qed.

Lemma clear_fulfillment_inv E c x s s' u :
  (eb_execution_status (cc_execute x) =? status_executed)%Z = true ->
  run_map (clear_fulfillment E c x) s = (s', Ok u) ->
  exists f body signer pvh,
  clear_fulfilled E (vs_domain s) c x f body signer pvh /\ s' = s.
Proof.
  intros Hst. apply Z.eqb_eq in Hst. unfold clear_fulfillment. intros H.
  repeat run_step. simp_state.
  repeat match goal with
  | H : array32 _ = Some _ |- _ => apply array32_inv in H as [-> ?]
  | H : bytes_eqb _ _ = true |- _ => apply bool_decide_eq_true in H
  end.
  match goal with H : run_map (match rb_public_values_hash _ with _ => _ end) _ = (?s1, Ok ?p),
    H2 : eb_public_values_hash _ = Some ?q |- _ =>
    assert (s1 = s /\ p = q /\ forall h, rb_public_values_hash (cc_request x) = Some h -> h = q) end.
  { destruct (rb_public_values_hash (cc_request x)) as [h|] eqn:Hpv; repeat run_step;
      repeat match goal with
      | H : array32 _ = Some _ |- _ => apply array32_inv in H as [-> ?]
      | H : bytes_eqb _ _ = true |- _ => apply bool_decide_eq_true in H
      end; subst; repeat split; congruence. }
  match goal with H : _ /\ _ /\ _ |- _ => destruct H as (-> & -> & Hpvr) end.
  match goal with H : run_map (match _ with _ => _ end) _ = (s', Ok _) |- _ => rename H into Hfin end.
  match goal with H : mode_of_tag _ = Some ?m |- _ => rename m into mode end.
  match goal with H : verify_signed_message _ _ _ _ _ = Ok ?y |- _ => rename y into signer end.
  match goal with H : s_body _ = Some ?y |- _ => rename y into body end.
  match goal with H : eb_public_values_hash _ = Some ?y |- _ => rename y into pvh end.
  assert (Hs : s' = s /\
   ((is_sp1_v6 (rb_version (cc_request x)) /\ rb_mode (cc_request x) = 2%Z /\
     sp1_verify E (vk_words (rb_vk_hash (cc_request x))) pvh = true) \/
    (((~ is_sp1_v6 (rb_version (cc_request x)) /\ rb_mode (cc_request x) = 2%Z) \/
      rb_mode (cc_request x) = 4%Z \/ rb_mode (cc_request x) = 3%Z) /\
     exists sig verifier,
       cl_verify c = Some sig /\
       ecrecover E (be_bytes 32 (message_id E signer (encode_fulfill body))) sig = Some verifier /\
       as_address (rb_verifier (cc_request x)) = Some verifier))).
  { match goal with H : mode_of_tag _ = Some _ |- _ => apply mode_of_tag_inv in H as Hm end.
    pose proof (sp1_v6_eq (rb_version (cc_request x))) as Hsp.
    destruct (starts_with (rb_version (cc_request x)) primary_version) eqn:Hv, mode; cbn in Hm;
      repeat run_step; arith_inv; simp_state; subst;
      (split; [reflexivity|]);
      (left; split; [now apply Hsp|]; split; [exact Hm|];
       rewrite <- vk_words_eq; assumption) ||
      (right; split; [intuition congruence|]; do 2 eexists; split; [eassumption|];
       split; [|eassumption];
       match goal with H : eth_sign_verify _ _ _ = Ok _ |- _ =>
         unfold eth_sign_verify in H; unfold message_id, hash_with_signer in *;
         destruct (ecrecover _ _ _); congruence end). }
  destruct Hs as [-> Hproof].
  do 4 eexists. split; [|reflexivity].
  constructor; try eassumption.
  eapply signed_by_intro; eassumption.
Qed.

Lemma clear_pay_inv x s s' o :
  run_map (clear_pay x) s = (s', Ok o) ->
  exists pgus,
  let cost := cc_price x * pgus + cc_base_fee x in
  let requester := cc_requester x in
  eb_pgus (cc_execute x) = Some pgus /\
  pgus <= rb_gas_limit (cc_request x) /\
  cost < two256 /\
  is_Some (vs_accounts s !! requester) /\
  ((bal (vs_accounts s) requester < cost /\
  o = Reverted (InsufficientClearBalance requester cost (bal (vs_accounts s) requester)) /\
  s' = with_transactions (<[request_index (cc_request_id x) := true]> (vs_transactions s)) s) \/
   (exists treasury A', cost <= bal (vs_accounts s) requester /\
  as_address (rb_treasury (cc_request x)) = Some treasury /\
  acc_bips (acct (vs_accounts s) (cc_prover x)) <= 10000 /\
  cost * acc_bips (acct (vs_accounts s) (cc_prover x)) < two256 /\
  moves (payments (AClear requester treasury (cc_prover x) (cc_prover_owner x) cost
                       (acc_bips (acct (vs_accounts s) (cc_prover x))))) (vs_accounts s) A' /\
  o = Applied None /\
  s' = with_accounts A'
      (with_transactions (<[request_index (cc_request_id x) := true]> (vs_transactions s)) s))).
Proof.
  unfold clear_pay. intros H. repeat run_step. simp_state. unfold address_index in *.
  match goal with H : vs_accounts s !! cc_requester x = Some ?a |- _ =>
    assert (Hbal : acc_balance a = bal (vs_accounts s) (cc_requester x))
      by (unfold bal, acct; rewrite H; reflexivity) end.
  rewrite Hbal in *.
  match goal with H : run_map (if ?b then _ else _) _ = _ |- _ => destruct b eqn:Hlt end;
    repeat run_step; simp_state; arith_inv.
  - eexists. cbn zeta. split; [eassumption|]. split; [assumption|]. split; [assumption|].
    split; [eauto|]. left. repeat split; auto.
  - eexists. cbn zeta. split; [eassumption|]. split; [assumption|]. split; [assumption|].
    split; [eauto|]. right.
    match goal with H : fee _ _ (acc_bips ?a) = Ok _, H2 : m_debit ?r ?c ?A !! ?p = Some ?a |- _ =>
      assert (Hbips : acc_bips a = acc_bips (acct A p))
        by (pose proof (acct_debit A r c p) as Hd; unfold acct at 1 in Hd; rewrite H2 in Hd;
            cbn in Hd; rewrite Hd; reflexivity) end.
    rewrite Hbips in *.
    match goal with H : fee _ _ _ = Ok _ |- _ =>
      apply fee_inv in H as (Hb1 & Hb2 & -> & -> & -> & Hb3) end.
    do 2 eexists. split; [eassumption|]. split; [eassumption|]. split; [assumption|].
    split; [assumption|]. split; [|split; reflexivity].
    repeat first [eapply moves_pay; [eassumption|] | eapply moves_receive; [eassumption|]].
    apply moves_nil.
Qed.

(** A clear that does not panic. *)
Lemma clear_inv E c s s' o :
  run_map (exec_clear E c) s = (s', Ok o) ->
  exists x settle bidder auctioneer executor pa,
  clear_authorised E (vs_domain s) (vs_accounts s) (vs_transactions s) c x settle bidder auctioneer
    executor pa /\
  ((exists punishment, clear_punishable E x punishment /\
  ((bal (vs_accounts s) (cc_requester x) < punishment /\
  o = Reverted (InsufficientPunishmentBalance (cc_requester x) punishment
                      (bal (vs_accounts s) (cc_requester x))) /\
  s' = with_transactions (<[request_index (cc_request_id x) := true]> (vs_transactions s)) s) \/
     (exists treasury A', punishment <= bal (vs_accounts s) (cc_requester x) /\
  as_address (rb_treasury (cc_request x)) = Some treasury /\
  moves (payments (APunish (cc_requester x) treasury punishment)) (vs_accounts s) A' /\
  o = Applied None /\
  s' = with_accounts A'
        (with_transactions (<[request_index (cc_request_id x) := true]> (vs_transactions s)) s)))) \/
   (exists f body signer pvh pgus,
    clear_fulfilled E (vs_domain s) c x f body signer pvh /\
  let cost := cc_price x * pgus + cc_base_fee x in
    let requester := cc_requester x in
    eb_pgus (cc_execute x) = Some pgus /\
  pgus <= rb_gas_limit (cc_request x) /\
  cost < two256 /\
  is_Some (vs_accounts s !! requester) /\
  ((bal (vs_accounts s) requester < cost /\
  o = Reverted (InsufficientClearBalance requester cost (bal (vs_accounts s) requester)) /\
  s' = with_transactions (<[request_index (cc_request_id x) := true]> (vs_transactions s)) s) \/
     (exists treasury A', cost <= bal (vs_accounts s) requester /\
  as_address (rb_treasury (cc_request x)) = Some treasury /\
  acc_bips (acct (vs_accounts s) (cc_prover x)) <= 10000 /\
  cost * acc_bips (acct (vs_accounts s) (cc_prover x)) < two256 /\
  moves (payments (AClear requester treasury (cc_prover x) (cc_prover_owner x) cost
                         (acc_bips (acct (vs_accounts s) (cc_prover x))))) (vs_accounts s) A' /\
  o = Applied None /\
  s' = with_accounts A'
        (with_transactions (<[request_index (cc_request_id x) := true]> (vs_transactions s)) s))))).
Proof.
  unfold exec_clear. intros H. apply map_bind_ok in H as (s1 & x & H1 & H2).
  apply clear_checks_inv in H1 as (settle & bidder & auctioneer & executor & pa & Hca & ->).
  exists x, settle, bidder, auctioneer, executor, pa. split; [exact Hca|].
  destruct (eb_execution_status (cc_execute x) =? status_unexecutable)%Z eqn:Hst.
  - left. apply clear_punish_inv in H2 as (punishment & Hp & H2); [|exact Hst]. simp_state.
    exists punishment. split; [exact Hp|].
    destruct H2 as [(? & ? & ->)|(treasury & A' & ? & ? & ? & ? & ->)].
    + left. repeat split; auto. unfold with_transactions; cbn. f_equal. apply tx_double.
    + right. exists treasury, A'. repeat split; auto.
      unfold with_transactions, with_accounts; cbn. f_equal. apply tx_double.
  - right. apply map_bind_ok in H2 as (s2 & [] & H3 & H2). apply run_ensure in H3 as [-> H3].
    apply map_bind_ok in H2 as (s2 & [] & H4 & H2).
    apply clear_fulfillment_inv in H4 as (f & body & signer & pvh & Hf & ->); [|exact H3].
    simp_state.
    apply clear_pay_inv in H2 as (pgus & Hp & Hg & Hc & Hs & H2). simp_state.
    exists f, body, signer, pvh, pgus. split; [exact Hf|]. cbn zeta.
    split; [exact Hp|]. split; [exact Hg|]. split; [exact Hc|]. split; [exact Hs|].
    destruct H2 as [(? & ? & ->)|(treasury & A' & ? & ? & ? & ? & ? & ? & ->)].
    + left. repeat split; auto. unfold with_transactions; cbn. f_equal. apply tx_double.
    + right. exists treasury, A'. repeat split; auto.
      unfold with_transactions, with_accounts; cbn. f_equal. apply tx_double.
Qed.
